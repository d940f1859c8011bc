(** * Properties of sensors that tell the truth (C107) *)

From Coq Require Import Reals ZArith List Bool String Arith.
From Verif Require Import Scalar Mat FilterBase FilterOps Ekf StrMap Tf RosFilter RosConfig RosPrepare
  SpecConfig SpecNode SpecTf SpecLin SpecFilter SpecPrepare SpecStart SpecMotion SpecTurn SpecPublished SpecTruth SpecSensor
  EigenExist NodeMore TruthFacts TruthNode TruthCase ShiftCase SensorFacts SensorNode SensorCase PropsConfig PropsStart.
Import ListNotations.

(** A message that tells the truth about the robot, wherever and however its
    sensor is mounted, makes measurements that do, if the node knows how the
    robot turns. *)
Theorem C107_message : forall E (pq : pqueue RScalar) (c : config RScalar) (e : penv RScalar) s m (n : node RScalar E) y,
  pq_ok pq -> true_message c e s m (a_acc (n_ang n)) y -> angular_velocity n = part (K := RScalar) y 9 ->
  Forall (fun q => m_time q = stamp_of m /\ truthful q y) (queued (snd (receive pq e c s m n))).
Proof. exact message_tells. Qed.
Print Assumptions C107_message.

(** A started node whose sensors tell the truth about a robot that does not
    turn publishes the truth. *)
Theorem C107_node : forall c eig (pq : pqueue RScalar) (p : params RScalar) period now later g ang nothing ld n is,
  possible c -> co_rate c = 0%R -> pq_ok pq ->
  start p period now later (@fb_init RScalar unit g tt) ang nothing = Ok (ld, n) -> p_use_control p = false ->
  part (fb_state (n_filter n)) 9 = v3 0 0 0 -> a_acc ang = v3 0 0 0 -> a_last_twist ang = v3 0 0 0 ->
  along (true_input c (ld_config ld) pq (ekf_vtbl eig)) pq (ekf_vtbl eig) (ld_config ld) n is ->
  Forall (in_order c) (snd (respond pq (ekf_vtbl eig) (ld_config ld) n is)) ->
  Forall (true_output c) (snd (respond pq (ekf_vtbl eig) (ld_config ld) n is)).
Proof. exact started_sound. Qed.
Print Assumptions C107_node.

(** A robot turns on the spot; a sensor one metre in front of its centre says
    so.  A node that does not know the turning yet takes the motion of the
    sensor for that of the robot. *)
Theorem C107_turning_refuted : forall E (pq : pqueue RScalar) c (n : node RScalar E) (w : R), fresh n "/wheel"%string 5 -> angular_velocity n = v3 0 0 0 ->
  exists e s m y, true_message c e s m (v3 0 0 0) y /\ exists q, queued (snd (receive pq e c s m n)) = [q] /\
    nth 7%nat (m_upd q) false = true /\ m_value q 7%nat = w /\ y 7%nat = 0%R.
Proof. exact @turning_wrong. Qed.
Print Assumptions C107_turning_refuted.

(** The angular acceleration that a node starts with is uninitialised memory;
    it gets into the first acceleration of an accelerometer there. *)
Theorem C107_left_over_refuted : forall E (pq : pqueue RScalar) c (n : node RScalar E) (a : R), fresh n "/imu"%string 5 -> angular_velocity n = v3 0 0 0 ->
  a_acc (n_ang n) = v3 0 0 a ->
  exists e s m y, true_message c e s m (v3 0 0 0) y /\ exists q, queued (snd (receive pq e c s m n)) = [q] /\
    nth 13%nat (m_upd q) false = true /\ m_value q 13%nat = (- a)%R /\ y 13%nat = 0%R.
Proof. exact @left_over_wrong. Qed.
Print Assumptions C107_left_over_refuted.

(** The robot that turns on the spot, and a node that knows; the measurement
    says that it does not move to the left. *)
Example C107_message_case : exists c e s m (n : node RScalar unit) y,
  true_message c e s m (a_acc (n_ang n)) y /\ angular_velocity n = part (K := RScalar) y 9 /\ y 11%nat = 1%R /\
  exists q, queued (snd (receive (list_pq RScalar) e c s m n)) = [q] /\ m_value q 7%nat = 0%R.
Proof. exact turning_known. Qed.
(** A node told the place of a moving robot. *)
Example C107_node_case : exists ld n, possible (tr_course (v3 3 4 0)) /\ co_rate (tr_course (v3 3 4 0)) = 0%R /\
  start tr_par 0 0 0 ex_new ex_ang86 vzero = Ok (ld, n) /\ p_use_control tr_par = false /\
  part (fb_state (n_filter n)) 9 = v3 0 0 0 /\ a_acc ex_ang86 = v3 0 0 0 /\ a_last_twist ex_ang86 = v3 0 0 0 /\
  along (true_input (tr_course (v3 3 4 0)) (ld_config ld) (list_pq RScalar) (ekf_vtbl ideal_eigen)) (list_pq RScalar) (ekf_vtbl ideal_eigen) (ld_config ld) n
    (se_in ld (v3 3 4 0)) /\
  let r := snd (respond (list_pq RScalar) (ekf_vtbl ideal_eigen) (ld_config ld) n (se_in ld (v3 3 4 0))) in
  Forall (in_order (tr_course (v3 3 4 0))) r /\ exists m, In (OutOdom m) r /\ X (o_position m) = 3%R.
Proof.
  destruct (se_runs (v3 3 4 0)) as (ld & n & H1 & H2 & H3). exists ld, n. split; [apply ahead_possible|]. split; [reflexivity|]. split; [exact H1|].
  split; [reflexivity|]. split; [exact H2|]. split; [reflexivity|]. split; [reflexivity|]. exact H3.
Qed.
