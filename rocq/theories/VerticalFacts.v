(** * Attitudes whose forward axis is vertical (C111) *)

From Coq Require Import Reals ZArith Bool List String Lra Lia Psatz.
From Verif Require Import Scalar Mat FilterBase StrMap Tf RosFilter RosConfig ForceTwoD RosPrepare SpecFilter
  SpecConfig SpecNode SpecTf SpecLin SpecPrepare Trig Angles TfReal TfRot TfQuat RBridge
  PrepareProofs PrepareReal PrepareFacts PrepareSeq PrepareThm PrepareMotion PreparePsd PrepareRun PrepareGoals PrepareWit.
Import ListNotations.
Local Open Scope R_scope.

Lemma sign_unit k : k = 1 \/ k = -1 -> k * k = 1.
Proof. intros [->| ->]; lra. Qed.
Lemma sin_sign k : k = 1 \/ k = -1 -> sin (- k * (PI / 2)) = - k /\ cos (- k * (PI / 2)) = 0.
Proof.
  intros [->| ->].
  - replace (- (1) * (PI / 2)) with (- (PI / 2)) by ring. rewrite sin_neg, cos_neg, sin_PI2, cos_PI2. lra.
  - replace (- -1 * (PI / 2)) with (PI / 2) by ring. rewrite sin_PI2, cos_PI2. lra.
Qed.
Lemma Ratan2_zero : Ratan2 0 0 = 0.
Proof. unfold Ratan2. repeat destruct (Rlt_dec _ _); lra. Qed.

Lemma vertical_row (m : M3) k : rotation m -> k = 1 \/ k = -1 -> v3x (m3r2 m) = k -> v3y (m3r2 m) = 0 /\ v3z (m3r2 m) = 0.
Proof.
  intros (_ & _ & H & _) Hk E. unfold inner, X, Y, Z3 in H. change (sc RScalar) with R in *. rewrite E in H.
  pose proof (sign_unit k Hk). split; nra.
Qed.
Lemma getRPY_vertical (m : M3) k : rotation m -> k = 1 \/ k = -1 -> v3x (m3r2 m) = k ->
  @m3_getRPY RScalar m = (0, - k * (PI / 2), 0).
Proof.
  intros H Hk E. destruct (vertical_row m k H Hk E) as (Ey & Ez). unfold m3_getRPY. rewrite E, Ey, Ez.
  assert (A : @s_leb RScalar (@s_ofZ RScalar 1) (@s_abs RScalar k) = true).
  { apply Rleb_true. cbn. destruct Hk as [->| ->]; unfold Rabs; destruct (Rcase_abs _); lra. }
  rewrite A. cbv zeta. cbn [s_atan2 s_pi s_div s_opp s_ofZ RScalar]. rewrite Ratan2_zero.
  destruct (s_ltb _ _) eqn:L.
  - apply Rltb_true in L. cbn in L. destruct Hk as [->| ->]; [lra|]. apply (f_equal2 pair); [apply (f_equal2 pair); [reflexivity|]|reflexivity]. toR. field.
  - apply Rltb_false in L. cbn in L. destruct Hk as [->| ->]; [|lra]. apply (f_equal2 pair); [apply (f_equal2 pair); [reflexivity|]|reflexivity]. toR. field.
Qed.
Lemma rpy_vertical (m : M3) k : rotation m -> k = 1 \/ k = -1 -> v3x (m3r2 m) = k -> rpy_of m = v3 0 (- k * (PI / 2)) 0.
Proof. intros H Hk E. unfold rpy_of. rewrite (getRPY_vertical m k H Hk E). reflexivity. Qed.

Lemma oriented_vertical k v : k = 1 \/ k = -1 -> oriented 0 (- k * (PI / 2)) 0 v = v3 (- k * Z3 v) (Y v) (k * X v).
Proof.
  intros Hk. destruct (sin_sign k Hk) as (S & C). unfold oriented, about_x, about_y, about_z. rewrite S, C, sin_0, cos_0.
  destruct v as [x y z]. apply v3_eq; unfold X, Y, Z3; cbn; ring.
Qed.
(** The angles are right exactly if the left axis is where it is at zero roll and
    heading. *)
Lemma describes_vertical (m : M3) k : rotation m -> k = 1 \/ k = -1 -> v3x (m3r2 m) = k ->
  (describes (v3 0 (- k * (PI / 2)) 0) (turn m) <-> turn m (v3 0 1 0) = v3 0 1 0).
Proof.
  intros H Hk E. split.
  - intros D. rewrite <- D. change (oriented 0 (- k * (PI / 2)) 0 (v3 0 1 0) = v3 0 1 0). rewrite oriented_vertical by exact Hk.
    apply v3_eq; unfold X, Y, Z3; cbn; ring.
  - intros D v. change (oriented 0 (- k * (PI / 2)) 0 v = turn m v). rewrite oriented_vertical by exact Hk.
    destruct (vertical_row m k H Hk E) as (Ey & Ez). pose proof (sign_unit k Hk) as Kk.
    destruct m as [[a b c] [d e f] [g h i]]. destruct v as [x y z]. cbn [m3r0 m3r1 m3r2 v3x v3y v3z] in *.
    change (sc RScalar) with R in *. subst g h i.
    unfold rotation, turn, inner, cross3, X, Y, Z3, v3 in *. cbn [m3r0 m3r1 m3r2 v3x v3y v3z] in *. change (sc RScalar) with R in *.
    injection D as D1 D2 _. destruct H as (O1 & O2 & _ & _ & O13 & O23 & Od).
    assert (b = 0) by lra. assert (e = 1) by lra. subst b e.
    assert (k <> 0) by (intros ->; lra). assert (a = 0) by nra. assert (d = 0) by nra. subst a d.
    assert (f = 0) by nra. subst f. assert (c = - k) by nra. subst c.
    apply v3_eq; unfold X, Y, Z3; cbn; ring.
Qed.

(** In every arithmetic: no quotient is formed at the poles. *)
Lemma pole_angles (K : Scalar) (q : quat K) : let x := v3x (m3r2 (m3_of_quat q)) in
  s_leb (s_ofZ 1) (s_abs x) = true ->
  exists r, quatToRPY q = (r, (if s_ltb x (s_ofZ 0) then s_div s_pi (s_ofZ 2) else s_div (s_opp s_pi) (s_ofZ 2)), s_ofZ 0) /\
    r = s_atan2 (v3y (m3r2 (m3_of_quat q))) (v3z (m3r2 (m3_of_quat q))).
Proof.
  intros x H. unfold quatToRPY, m3_getRPY. fold x. rewrite H. cbv zeta.
  destruct (s_ltb x (s_ofZ 0)); eexists; split; reflexivity.
Qed.

Section Node.
Context {E : Type}.
Variable c : config RScalar.

(** The attitude [A] of a vertical forward axis is taken for one without roll and
    heading. *)
Lemma attitude_vertical (m : M3) (A : V3 -> V3) k : rotation m -> k = 1 \/ k = -1 -> (forall v, turn m v = A v) ->
  Z3 (A (v3 1 0 0)) = k ->
  rpy_of m = v3 0 (- k * (PI / 2)) 0 /\ (describes (v3 0 (- k * (PI / 2)) 0) A <-> A (v3 0 1 0) = v3 0 1 0).
Proof.
  intros H Hk HA HZ. assert (E0 : v3x (m3r2 m) = k).
  { rewrite <- HA in HZ. unfold turn, inner, v3, X, Y, Z3 in HZ. cbn [v3x v3y v3z] in HZ. change (sc RScalar) with R in *. lra. }
  split; [apply rpy_vertical; assumption|]. rewrite <- HA. rewrite <- (describes_vertical m k H Hk E0).
  unfold describes. split; intros D v; [rewrite HA|rewrite <- HA]; apply D.
Qed.
Lemma pose_turns (t : T4) msg v : unit_quat (ps_orientation msg) ->
  turn (t_basis (t_mult t (pose_of msg))) v = turn (t_basis t) (spin (ps_orientation msg) v).
Proof.
  intros U. change (t_basis (t_mult t (pose_of msg))) with (m3mul (t_basis t) (pose_attitude msg)).
  rewrite turn_mul, attitude_unit by exact U. reflexivity.
Qed.

Lemma set_pose_vertical e msg now (n : node RScalar E) t k :
  c_world c <> ""%string -> exact_clock e -> stamp_range (ps_stamp msg) -> unit_quat (ps_orientation msg) ->
  answer (e_buffer e) (c_world c) (ps_frame msg) (ps_stamp msg / 1000000000)%Z (Some t) -> rigid t ->
  let A v := turn (t_basis t) (spin (ps_orientation msg) v) in
  k = 1 \/ k = -1 -> Z3 (A (v3 1 0 0)) = k ->
  measures (e_two_d e) (fb_state (n_filter (setPose e c msg now n))) 3 (v3 0 (- k * (PI / 2)) 0) /\
  (describes (v3 0 (- k * (PI / 2)) 0) A <-> A (v3 0 1 0) = v3 0 1 0).
Proof.
  intros HW HE HS U HA HR A Hk HZ.
  set (n0 := with_set_pose (with_state_hist (with_meas_hist (clearMeasurementQueue (with_streams n no_streams)) []) []) (ps_stamp msg)).
  set (r := preparePose e c msg "set_pose" (c_world c) (c_base c) false false false n0 (repeat true STATE_SIZE) vzero
              (mscale (lit 1 6) meye)).
  pose proof (pose_ready e c msg "set_pose" (c_world c) (c_base c) false false n0 (repeat true STATE_SIZE) vzero
    (mscale (lit 1 6) meye) t _ _ (frames_world c (ps_frame msg) false false HW) (pose_lookup e _ _ _ _ HE HS HA) HR) as PR.
  cbv zeta in PR. rewrite source_base in PR. cbn [to_base base_pose source_cov] in PR. fold r in PR.
  assert (RM : rotation (t_basis (t_mult t (pose_of msg)))) by (apply rigid_mult; [exact HR|apply pose_rigid]).
  destruct PR as (P1 & P2 & P3 & P4); [intros s h; discriminate h|exact RM|].
  destruct (attitude_vertical _ A k RM Hk (fun v => pose_turns t msg v U) HZ) as (G & D). split; [|exact D].
  change (fb_state (n_filter (setPose e c msg now n))) with (pr_val r).
  destruct (measures_ext (e_two_d e) vzero (pr_val r) 0 (t_origin (t_mult t (pose_of msg))) 3
    (rpy_of (t_basis (t_mult t (pose_of msg))))) as [M0 M3]; [lia|intros i Hi; apply P3; exact Hi|].
  rewrite G in M3. exact M3.
Qed.

Lemma turned_bound (m : M3) : rotation m -> - 1 <= v3x (m3r2 m) <= 1.
Proof. intros (_ & _ & H & _). unfold inner, X, Y, Z3 in H. change (sc RScalar) with R in *. nra. Qed.
Lemma set_pose_exactly e msg now (n : node RScalar E) t :
  c_world c <> ""%string -> exact_clock e -> stamp_range (ps_stamp msg) -> unit_quat (ps_orientation msg) ->
  answer (e_buffer e) (c_world c) (ps_frame msg) (ps_stamp msg / 1000000000)%Z (Some t) -> rigid t -> e_two_d e = false ->
  let s := fb_state (n_filter (setPose e c msg now n)) in
  let A v := turn (t_basis t) (spin (ps_orientation msg) v) in
  (forall v, oriented (s 3%nat) (s 4%nat) (s 5%nat) v = A v) <-> not_vertical (A (v3 1 0 0)) \/ A (v3 0 1 0) = v3 0 1 0.
Proof.
  intros HW HE HS U HA HR H2 s A.
  assert (ME : forall a, measures (e_two_d e) s 3 a -> a = v3 (s 3%nat) (s 4%nat) (s 5%nat)).
  { intros [x y z] (M1 & M2 & M3). rewrite H2 in *. unfold X, Y, Z3 in *. cbn [Nat.add v3x v3y v3z] in *.
    rewrite M1, M2, M3 by (left; reflexivity). reflexivity. }
  assert (RM : rotation (t_basis (t_mult t (pose_of msg)))) by (apply rigid_mult; [exact HR|apply pose_rigid]).
  pose proof (turned_bound _ RM) as B.
  assert (BZ : v3x (m3r2 (t_basis (t_mult t (pose_of msg)))) = Z3 (A (v3 1 0 0))).
  { unfold A. rewrite <- (pose_turns t msg _ U). unfold turn, inner, v3, X, Y, Z3. cbn [v3x v3y v3z]. change (sc RScalar) with R in *. lra. }
  rewrite BZ in B.
  assert (V : forall k, k = 1 \/ k = -1 -> Z3 (A (v3 1 0 0)) = k ->
    (forall v, oriented (s 3%nat) (s 4%nat) (s 5%nat) v = A v) <-> not_vertical (A (v3 1 0 0)) \/ A (v3 0 1 0) = v3 0 1 0).
  { intros k Hk HZ. destruct (set_pose_vertical e msg now n t k HW HE HS U HA HR Hk HZ) as (M & D). apply ME in M.
    fold A in D. rewrite M in D. unfold describes, v3, X, Y, Z3 in D. cbn [v3x v3y v3z] in D. rewrite D.
    unfold not_vertical. rewrite HZ. split; [auto|]. intros [N|N]; [destruct Hk as [->| ->]; lra|exact N]. }
  destruct (Req_dec (Z3 (A (v3 1 0 0))) 1) as [E1|E1]; [apply (V 1); auto|].
  destruct (Req_dec (Z3 (A (v3 1 0 0))) (-1)) as [E2|E2]; [apply (V (-1)); auto|].
  assert (N : not_vertical (A (v3 1 0 0))) by (unfold not_vertical; lra).
  pose proof (set_pose_sets c e msg now n t HW HE HS U HA HR) as P. cbv zeta in P. destruct P as (_ & (a & M & D) & _).
  apply ME in M. subst a. specialize (D N). split; [auto|]. intros _ v. apply D.
Qed.

Variable pq : pqueue RScalar.
Lemma pose_vertical e cd msg (n : node RScalar E) t k :
  cd_differential cd = false -> cd_relative cd = false -> c_world c <> ""%string ->
  exact_clock e -> stamp_range (ps_stamp msg) -> unit_quat (ps_orientation msg) ->
  fresh n (cd_topic cd) (ps_stamp msg) ->
  answer (e_buffer e) (c_world c) (ps_frame msg) (ps_stamp msg / 1000000000)%Z (Some t) -> rigid t ->
  let A v := turn (t_basis t) (spin (ps_orientation msg) v) in
  k = 1 \/ k = -1 -> Z3 (A (v3 1 0 0)) = k ->
  exists m, queued (snd (receive pq e c (SubPose cd) (MsgPose msg) n)) = [m] /\
    measures (e_two_d e) (m_value m) 3 (v3 0 (- k * (PI / 2)) 0) /\
    (describes (v3 0 (- k * (PI / 2)) 0) A <-> A (v3 0 1 0) = v3 0 1 0).
Proof.
  intros HD HRl HW HE HS U HF HA HR A Hk HZ. cbn [receive].
  pose proof (pose_lookup e _ _ _ _ HE HS HA) as HL.
  pose proof (pose_measured pq e c cd msg (c_world c) (c_base c) false n t _ _ HF HD
    (frames_world c (ps_frame msg) false false HW) HL HR) as PM.
  cbv zeta in PM. rewrite source_base in PM. rewrite HRl in PM. cbn [to_base base_pose source_cov] in PM.
  assert (RM : rotation (t_basis (t_mult t (pose_of msg)))) by (apply rigid_mult; [exact HR|apply pose_rigid]).
  destruct PM as (m & Q & _ & _ & _ & _ & M3 & _); [intros s h; discriminate h|exact RM|].
  destruct (attitude_vertical _ A k RM Hk (fun v => pose_turns t msg v U) HZ) as (G & D).
  exists m. split; [exact Q|]. rewrite G in M3. split; [exact M3|exact D].
Qed.
Lemma imu_vertical e cd (msg : imu_msg RScalar) (n : node RScalar E) k :
  cd_differential cd = false -> cd_relative cd = false -> c_base c <> ""%string ->
  exact_clock e -> stamp_range (im_stamp msg) -> unit_quat (im_orientation msg) ->
  fresh n (cd_topic cd) (im_stamp msg) ->
  answer (e_buffer e) (c_base c) (im_frame msg) (im_stamp msg / 1000000000)%Z (Some no_motion) ->
  k = 1 \/ k = -1 -> Z3 (spin (im_orientation msg) (v3 1 0 0)) = k ->
  exists m, queued (snd (poseCallback pq e c cd (imu_pose msg) (c_base c) (c_base c) true n)) = [m] /\
    measures (e_two_d e) (m_value m) 3 (v3 0 (- k * (PI / 2)) 0) /\
    (describes (v3 0 (- k * (PI / 2)) 0) (spin (im_orientation msg)) <-> spin (im_orientation msg) (v3 0 1 0) = v3 0 1 0).
Proof.
  intros HD HRl HB HE HS U HF HA Hk HZ.
  pose proof (pose_lookup e _ _ _ _ HE HS HA) as HL.
  assert (HFr : pose_frames c (im_frame msg) (c_base c) false true = (c_base c, im_frame msg)).
  { unfold pose_frames. destruct (String.eqb_spec (c_base c) ""); [contradiction|reflexivity]. }
  pose proof (pose_measured pq e c cd (imu_pose msg) (c_base c) (c_base c) true n no_motion _ _ HF HD HFr HL no_motion_rigid) as PM.
  cbv zeta in PM. rewrite source_base in PM. rewrite HRl in PM. cbn [to_base base_pose source_cov] in PM.
  destruct PM as (m & Q & _ & _ & _ & _ & M3 & _).
  { intros s h. discriminate h. }
  { apply rigid_mult; [apply rigid_identity|]. unfold rigid, imu_pose_of. cbn [t_basis]. apply imu_basis_rotation. }
  assert (PI_pos := PI_RGT_0).
  assert (RA : rotation (pose_attitude (imu_pose msg))) by apply (pose_rigid (imu_pose msg)).
  assert (EA : v3x (m3r2 (pose_attitude (imu_pose msg))) = k).
  { rewrite <- (attitude_unit (imu_pose msg)) in HZ by exact U.
    unfold turn, inner, v3, X, Y, Z3 in HZ. cbn [v3x v3y v3z] in HZ. change (sc RScalar) with R in *. lra. }
  assert (DA := describes_vertical _ k RA Hk EA).
  assert (EYE : @m3_setRPY RScalar 0 0 0 = m3eye).
  { apply turn_inj. intros v. rewrite setRPY_oriented, turn_eye. unfold oriented. destruct v as [vx vy vz].
    unfold about_x, about_y, about_z. cbn. rewrite ?sin_0, ?cos_0. apply v3_eq; unfold X, Y, Z3; cbn; ring. }
  assert (G0 : @m3_getRPY RScalar m3eye = (0, 0, 0)).
  { rewrite <- EYE. apply getRPY_setRPY_exact; lra. }
  assert (RK : - PI < - k * (PI / 2) <= PI) by (destruct Hk as [->| ->]; lra).
  assert (BAS : @imu_basis RScalar (t_basis no_motion) (pose_attitude (imu_pose msg)) = @m3_setRPY RScalar 0 (- k * (PI / 2)) 0).
  { unfold imu_basis. change (t_basis no_motion) with (@m3eye RScalar). rewrite quatToRPY_rotation by apply rotation_eye. rewrite G0.
    rewrite quatToRPY_rotation by exact RA. rewrite (getRPY_vertical _ k RA Hk EA).
    cbv zeta. toR. rewrite EYE. rewrite !Rminus_0_r. rewrite !normalize_angle_id by lra. rewrite m3mv_turn, turn_eye. reflexivity. }
  exists m. split; [exact Q|].
  rewrite t_mult_identity_l in M3. unfold imu_pose_of in M3. cbn [t_basis t_origin] in M3. rewrite BAS in M3.
  assert (EB : v3x (m3r2 (@m3_setRPY RScalar 0 (- k * (PI / 2)) 0)) = k).
  { unfold m3_setRPY, m3_setEulerYPR. cbv zeta. cbn [m3r2 v3x s_sin s_opp RScalar]. change (- sin (- k * (PI / 2)) = k).
    rewrite (proj1 (sin_sign k Hk)). ring. }
  rewrite (rpy_vertical _ k (setRPY_rotation _ _ _) Hk EB) in M3. split; [exact M3|].
  rewrite <- (attitude_unit (imu_pose msg)) by exact U. rewrite <- DA. unfold describes.
  split; intros D v; [rewrite (attitude_unit (imu_pose msg)) by exact U|rewrite <- (attitude_unit (imu_pose msg)) by exact U]; apply D.
Qed.
End Node.

(** ** A body standing on its nose, turned by a quarter *)
Definition nose_quat : Q4 := @mkQuat RScalar (- (1 / 2)) (1 / 2) (1 / 2) (1 / 2).
Lemma nose_unit : unit_quat nose_quat.
Proof. unfold unit_quat, nose_quat. cbn. lra. Qed.
Lemma nose_spin v : spin nose_quat v = v3 (- Y v) (Z3 v) (- X v).
Proof. destruct v as [x y z]. unfold spin, nose_quat, plus3, times3, cross3. apply v3_eq; unfold X, Y, Z3; cbn; toR; field. Qed.
Definition nose_msg : pose_msg RScalar := mkPose 5000000000 "map" (v3 0 0 0) nose_quat (fun _ => 0).
Definition nose_imu : imu_msg RScalar := @mkImu RScalar 1000000000 "base_link" nose_quat (v3 0 0 0) (v3 0 0 0) (fun _ => 0) (fun _ => 0) (fun _ => 0).
