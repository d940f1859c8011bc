(** * Properties of filters and nodes that are told the truth (C104) *)

From Coq Require Import Reals ZArith List Bool Arith.
From Verif Require Import Scalar Mat FilterBase FilterOps Ekf Tf RosFilter RosConfig RosPrepare
  SpecConfig SpecNode SpecTf SpecLin SpecFilter SpecPrepare SpecStart SpecMotion SpecTurn SpecPublished SpecTruth
  EigenExist NodeMore TruthFacts TruthNode TruthCase ShiftCase PropsConfig PropsStart.
Import ListNotations.

(** A course is a motion: its velocity, turned into the world frame, is the
    derivative of its position, the rate that of the yaw, and the acceleration
    that of the velocity. *)
Theorem C104_course : forall c t, possible c ->
  (forall k, (k < 3)%nat -> derivable_pt_lim (fun u => course_at c u k) t
     (rsum 3 (fun l => Rrpy (course_at c t 3%nat) (course_at c t 4%nat) (course_at c t 5%nat) k l * course_at c t (6 + l)%nat)%R)) /\
  derivable_pt_lim (fun u => course_at c u 5%nat) t (course_at c t 11%nat) /\
  (forall l, (l < 3)%nat -> derivable_pt_lim (fun u => course_at c u (6 + l)%nat) t (course_at c t (12 + l)%nat)).
Proof. exact course_moves. Qed.
Print Assumptions C104_course.

(** An EKF whose measurements agree with a course and come in order knows the
    course, whatever the covariances, the gates and Eigen's inverse are. *)
Theorem C104_filter : forall c, possible c -> forall eig g T os,
  told c (ekf_vtbl eig) (@fb_init RScalar unit g tt) T os ->
  let f := fb_run (ekf_vtbl eig) (@fb_init RScalar unit g tt) os in
  fb_initialized f = true -> same_state (fb_state f) (truth c (fold_left time_of_estimate os T)).
Proof. exact truth_kept. Qed.
Print Assumptions C104_filter.

(** What a started node publishes is then so at the time of the stamp. *)
Theorem C104_node : forall c eig (pq : pqueue RScalar) (p : params RScalar) period now later g ang nothing ld n is,
  possible c -> pq_ok pq -> start p period now later (@fb_init RScalar unit g tt) ang nothing = Ok (ld, n) -> p_use_control p = false ->
  along (told_input c pq (ekf_vtbl eig) (ld_config ld)) pq (ekf_vtbl eig) (ld_config ld) n is ->
  Forall (told_output c) (snd (respond pq (ekf_vtbl eig) (ld_config ld) n is)) ->
  Forall (true_output c) (snd (respond pq (ekf_vtbl eig) (ld_config ld) n is)).
Proof. exact started_true. Qed.
Print Assumptions C104_node.

(** A true measurement that comes late moves the estimate away from the truth:
    a robot that goes at 1 m/s is one metre ahead after a second; the place it
    started from, fused then, puts it back by half a metre. *)
Theorem C104_late_refuted : exists m, m_time m = 0%Z /\ truthful m (truth (ahead 0 0) (m_time m)) /\ forall eig g, eigen_inverse_ok eig ->
  fb_state (fb_run (ekf_vtbl eig) (@fb_init RScalar unit g tt) one_second) 0%nat = 1%R /\
  fb_state (fb_run (ekf_vtbl eig) (@fb_init RScalar unit g tt) (one_second ++ [OpProcess m])) 0%nat = (/ 2)%R.
Proof. exact late_moves. Qed.
Print Assumptions C104_late_refuted.

(** The first second of it. *)
Example C104_filter_case : forall eig g, possible (ahead 0 0) /\ told (ahead 0 0) (ekf_vtbl eig) (@fb_init RScalar unit g tt) 0 one_second /\
  fb_initialized (fb_run (ekf_vtbl eig) (@fb_init RScalar unit g tt) one_second) = true /\ truth (ahead 0 0) 1000000000 0%nat = 1%R.
Proof.
  intros. split; [apply ahead_possible|]. split; [apply second_told|]. split; [apply second_initialised|].
  rewrite ahead_at by auto with arith. Lra.lra.
Qed.
(** A node told the place of a moving robot. *)
Example C104_node_case : exists ld n, possible (tr_course (v3 3 4 0)) /\ start tr_par 0 0 0 ex_new ex_ang86 vzero = Ok (ld, n) /\
  p_use_control tr_par = false /\
  along (told_input (tr_course (v3 3 4 0)) (list_pq RScalar) (ekf_vtbl ideal_eigen) (ld_config ld)) (list_pq RScalar) (ekf_vtbl ideal_eigen) (ld_config ld) n
    (sh_in ld (v3 3 4 0)) /\
  let r := snd (respond (list_pq RScalar) (ekf_vtbl ideal_eigen) (ld_config ld) n (sh_in ld (v3 3 4 0))) in
  Forall (told_output (tr_course (v3 3 4 0))) r /\ exists m, In (OutOdom m) r /\ X (o_position m) = 3%R.
Proof.
  destruct (tr_runs (v3 3 4 0)) as (ld & n & H1 & H2 & H3). exists ld, n. split; [apply ahead_possible|]. split; [exact H1|].
  split; [reflexivity|]. split; [exact H2|exact H3].
Qed.
