(** * What the node makes of a vertical attitude (C111) *)

From Coq Require Import Reals ZArith Bool List String Lra Lia.
From Verif Require Import Scalar Mat FilterBase StrMap Tf RosFilter RosConfig RosPrepare
  SpecConfig SpecNode SpecTf SpecPrepare TfReal TfRot PrepareProofs PrepareThm PrepareWit NodeMore VerticalFacts.
Import ListNotations.
Local Open Scope R_scope.

(** ** C111: roll and heading of a vertical attitude are dropped *)
(** set_pose is taken over exactly unless the forward axis is vertical and the
    left axis is not where zero roll and heading put it. *)
Theorem C111_exactly : forall E (c : config RScalar) (e : penv RScalar) (msg : pose_msg RScalar) now (n : node RScalar E) (t : T4),
  c_world c <> ""%string -> exact_clock e -> stamp_range (ps_stamp msg) -> unit_quat (ps_orientation msg) ->
  answer (e_buffer e) (c_world c) (ps_frame msg) (ps_stamp msg / 1000000000) (Some t) -> rigid t -> e_two_d e = false ->
  let s := fb_state (n_filter (setPose e c msg now n)) in
  let A v := turn (t_basis t) (spin (ps_orientation msg) v) in
  (forall v, oriented (s 3%nat) (s 4%nat) (s 5%nat) v = A v) <-> not_vertical (A (v3 1 0 0)) \/ A (v3 0 1 0) = v3 0 1 0.
Proof. exact (fun E c e msg now n t => @set_pose_exactly E c e msg now n t). Qed.
Print Assumptions C111_exactly.

(** With a vertical forward axis the angles are the same whatever the heading. *)
Theorem C111_set_pose : forall E (c : config RScalar) (e : penv RScalar) (msg : pose_msg RScalar) now (n : node RScalar E) (t : T4) k,
  c_world c <> ""%string -> exact_clock e -> stamp_range (ps_stamp msg) -> unit_quat (ps_orientation msg) ->
  answer (e_buffer e) (c_world c) (ps_frame msg) (ps_stamp msg / 1000000000) (Some t) -> rigid t ->
  let A v := turn (t_basis t) (spin (ps_orientation msg) v) in
  k = 1 \/ k = -1 -> Z3 (A (v3 1 0 0)) = k ->
  measures (e_two_d e) (fb_state (n_filter (setPose e c msg now n))) 3 (v3 0 (- k * (PI / 2)) 0) /\
  (describes (v3 0 (- k * (PI / 2)) 0) A <-> A (v3 0 1 0) = v3 0 1 0).
Proof. exact (fun E c e msg now n t k => @set_pose_vertical E c e msg now n t k). Qed.
Print Assumptions C111_set_pose.

Theorem C111_pose : forall E (pq : pqueue RScalar) (e : penv RScalar) (c : config RScalar) (cd : callback_data RScalar)
  (msg : pose_msg RScalar) (n : node RScalar E) (t : T4) k,
  cd_differential cd = false -> cd_relative cd = false -> c_world c <> ""%string ->
  exact_clock e -> stamp_range (ps_stamp msg) -> unit_quat (ps_orientation msg) ->
  fresh n (cd_topic cd) (ps_stamp msg) ->
  answer (e_buffer e) (c_world c) (ps_frame msg) (ps_stamp msg / 1000000000) (Some t) -> rigid t ->
  let A v := turn (t_basis t) (spin (ps_orientation msg) v) in
  k = 1 \/ k = -1 -> Z3 (A (v3 1 0 0)) = k ->
  exists m : meas RScalar, queued (snd (receive pq e c (SubPose cd) (MsgPose msg) n)) = [m] /\
    measures (e_two_d e) (m_value m) 3 (v3 0 (- k * (PI / 2)) 0) /\
    (describes (v3 0 (- k * (PI / 2)) 0) A <-> A (v3 0 1 0) = v3 0 1 0).
Proof. exact (fun E pq e c cd msg n t k => @pose_vertical E c pq e cd msg n t k). Qed.
Print Assumptions C111_pose.

Theorem C111_imu : forall E (pq : pqueue RScalar) (c : config RScalar) (e : penv RScalar) (cd : callback_data RScalar)
  (msg : imu_msg RScalar) (n : node RScalar E) k,
  cd_differential cd = false -> cd_relative cd = false -> c_base c <> ""%string ->
  exact_clock e -> stamp_range (im_stamp msg) -> unit_quat (im_orientation msg) ->
  fresh n (cd_topic cd) (im_stamp msg) ->
  answer (e_buffer e) (c_base c) (im_frame msg) (im_stamp msg / 1000000000) (Some no_motion) ->
  k = 1 \/ k = -1 -> Z3 (spin (im_orientation msg) (v3 1 0 0)) = k ->
  exists m : meas RScalar, queued (snd (poseCallback pq e c cd (imu_pose msg) (c_base c) (c_base c) true n)) = [m] /\
    measures (e_two_d e) (m_value m) 3 (v3 0 (- k * (PI / 2)) 0) /\
    (describes (v3 0 (- k * (PI / 2)) 0) (spin (im_orientation msg)) <-> spin (im_orientation msg) (v3 0 1 0) = v3 0 1 0).
Proof. exact (fun E pq c e cd msg n k => @imu_vertical E c pq e cd msg n k). Qed.
Print Assumptions C111_imu.

(** In every arithmetic, where the first entry of the last row reaches 1 the
    pitch is a quarter turn, the heading zero, and nothing is divided by the
    cosine of the pitch. *)
Theorem C111_pole : forall (K : Scalar) (q : quat K), let x := v3x (m3r2 (m3_of_quat q)) in
  s_leb (s_ofZ 1) (s_abs x) = true ->
  exists r, quatToRPY q = (r, (if s_ltb x (s_ofZ 0) then s_div s_pi (s_ofZ 2) else s_div (s_opp s_pi) (s_ofZ 2)), s_ofZ 0) /\
    r = s_atan2 (v3y (m3r2 (m3_of_quat q))) (v3z (m3r2 (m3_of_quat q))).
Proof. exact pole_angles. Qed.
Print Assumptions C111_pole.
Example C111_pole_case : @s_leb RScalar (s_ofZ 1) (s_abs (v3x (m3r2 (m3_of_quat nose_quat)))) = true.
Proof.
  assert (H : v3x (m3r2 (m3_of_quat nose_quat)) = -1).
  { pose proof (of_quat_spin nose_quat (v3 1 0 0) nose_unit) as H. rewrite nose_spin in H. apply (f_equal Z3) in H.
    unfold turn, inner, v3, X, Y, Z3 in H. cbn [v3x v3y v3z] in H. change (sc RScalar) with R in *. lra. }
  rewrite H. apply Rleb_true. cbn. unfold Rabs. destruct (Rcase_abs _); lra.
Qed.

(** ** Concrete: nose down, turned by a quarter *)
Definition shifted111 : T4 := mkTrans m3eye (v3 1 0 0).
Definition env111 : penv RScalar := plain_env false 0 [] (always shifted111).
Definition still111 : penv RScalar := plain_env false 0 [] no_buffer.
Example C111_case : c_world prep_cfg <> ""%string /\ c_base prep_cfg <> ""%string /\ exact_clock env111 /\
  stamp_range (ps_stamp nose_msg) /\ stamp_range (im_stamp nose_imu) /\ unit_quat (ps_orientation nose_msg) /\
  answer (e_buffer env111) (c_world prep_cfg) (ps_frame nose_msg) (ps_stamp nose_msg / 1000000000) (Some shifted111) /\
  exact_clock still111 /\ answer (e_buffer still111) (c_base prep_cfg) (im_frame nose_imu) (im_stamp nose_imu / 1000000000) (Some no_motion) /\
  rigid shifted111 /\ e_two_d env111 = false /\
  fresh prep_node "pose" (ps_stamp nose_msg) /\ fresh prep_node "imu" (im_stamp nose_imu) /\
  Z3 (turn (t_basis shifted111) (spin (ps_orientation nose_msg) (v3 1 0 0))) = -1 /\
  Z3 (spin (im_orientation nose_imu) (v3 1 0 0)) = -1.
Proof.
  split; [discriminate|]. split; [discriminate|]. split; [apply plain_clock|]. split; [unfold stamp_range; cbn; lia|].
  split; [unfold stamp_range; cbn; lia|]. split; [exact nose_unit|]. split; [apply always_answer|].
  split; [apply plain_clock|]. split; [apply same_frame; reflexivity|]. split; [apply shift_rigid|]. split; [reflexivity|].
  split; [apply prep_fresh; cbn; lia|]. split; [apply prep_fresh; cbn; lia|].
  cbn [shifted111 t_basis nose_msg nose_imu ps_orientation im_orientation]. rewrite turn_eye, nose_spin. unfold Z3, X. cbn. split; lra.
Qed.

(** So the attitude sent to set_pose is not the attitude of the state. *)
Theorem C111_refuted : exists (c : config RScalar) (e : penv RScalar) (msg : pose_msg RScalar) now (n : node RScalar unit) (t : T4),
  c_world c <> ""%string /\ exact_clock e /\ stamp_range (ps_stamp msg) /\ unit_quat (ps_orientation msg) /\
  answer (e_buffer e) (c_world c) (ps_frame msg) (ps_stamp msg / 1000000000) (Some t) /\ rigid t /\ e_two_d e = false /\
  let s := fb_state (n_filter (setPose e c msg now n)) in
  ~ forall v, oriented (s 3%nat) (s 4%nat) (s 5%nat) v = turn (t_basis t) (spin (ps_orientation msg) v).
Proof.
  exists prep_cfg, env111, nose_msg, 7%Z, prep_node, shifted111.
  destruct C111_case as (H1 & _ & H2 & H3 & _ & H4 & H5 & _ & _ & H6 & H7 & _ & _ & HZ & _).
  repeat (split; [assumption|]). intros s H. apply (C111_exactly unit prep_cfg env111 nose_msg 7%Z prep_node shifted111 H1 H2 H3 H4 H5 H6 H7) in H.
  destruct H as [H|H].
  - unfold not_vertical in H. rewrite HZ in H. lra.
  - apply (f_equal X) in H. revert H. cbn [shifted111 t_basis nose_msg ps_orientation]. rewrite turn_eye, nose_spin.
    unfold X, Y, Z3. cbn. lra.
Qed.
Print Assumptions C111_refuted.
