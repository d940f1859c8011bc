(** * Measurement properties: poses, twists and accelerations (C41, C52-C57) *)

From Coq Require Import Reals ZArith List Bool Lia Lra String Arith.
From Verif Require Import Scalar Mat FilterBase StrMap Tf Diagnostics RosFilter RosConfig ForceTwoD RosPrepare
  SpecConfig SpecNode SpecTf SpecLin SpecPrepare OutputProofs Trig TfReal TfRot TfQuat RBridge RLin Angles
  PrepareProofs PrepareReal PrepareFacts.
Import ListNotations.
Local Open Scope R_scope.

(** ** The time of the lookups *)
Lemma trunc_seconds s : (0 <= s)%Z -> Rtrunc (IZR s / 1000000000) = (s / 1000000000)%Z.
Proof.
  intros Hs. pose proof (Z.div_mod s 1000000000 ltac:(lia)) as D. pose proof (Z.mod_pos_bound s 1000000000 ltac:(lia)) as B.
  set (q := (s / 1000000000)%Z) in *. set (r := (s mod 1000000000)%Z) in *.
  assert (Hq : (0 <= q)%Z) by (unfold q; apply Z.div_pos; lia).
  assert (V : IZR s / 1000000000 = IZR q + IZR r / 1000000000).
  { rewrite D, plus_IZR, mult_IZR. field. }
  assert (Rb : 0 <= IZR r < 1000000000) by (split; [apply IZR_le; lia|apply IZR_lt; lia]).
  assert (Qb : 0 <= IZR q) by (apply IZR_le; exact Hq).
  unfold Rtrunc. destruct (Rle_dec 0 (IZR s / 1000000000)) as [h|h]; [|lra].
  rewrite V. pose proof (Int_part_bounds (IZR q + IZR r / 1000000000)) as [I1 I2].
  apply Z.le_antisymm; apply Zlt_succ_le; unfold Z.succ; apply lt_IZR; rewrite plus_IZR; lra.
Qed.

Lemma pose_time (e : penv RScalar) s : exact_clock e -> stamp_range s ->
  pose_lookup_time e s = (s / 1000000000)%Z.
Proof.
  intros HE HS. unfold pose_lookup_time. cbv zeta.
  replace (@s_add RScalar _ _) with (IZR s / 1000000000).
  2:{ toR. rewrite (Z.div_mod s 1000000000) at 1 by lia. rewrite plus_IZR, mult_IZR. lra. }
  destruct (HE s HS) as [-> ->]. apply trunc_seconds. apply HS.
Qed.

Lemma range_seconds s : stamp_range s -> stamp_range (s / 1000000000).
Proof.
  unfold stamp_range. intros H. split; [apply Z.div_pos; lia|].
  apply Z.le_lt_trans with s; [|lia]. apply Z.div_le_upper_bound; lia.
Qed.

Lemma lookup_at (e : penv RScalar) target source s t : exact_clock e -> stamp_range s ->
  answer (e_buffer e) target source s t -> lookupTransformSafe e target source s = t.
Proof.
  intros HE HS HA. apply lookup_asked. unfold at_asked. rewrite (proj1 (HE s HS)). exact HA.
Qed.
Lemma pose_lookup (e : penv RScalar) target source s t : exact_clock e -> stamp_range s ->
  answer (e_buffer e) target source (s / 1000000000) t ->
  lookupTransformSafe e target source (pose_lookup_time e s) = t.
Proof.
  intros HE HS HA. rewrite (pose_time e s HE HS). apply lookup_at; [exact HE|apply range_seconds; exact HS|exact HA].
Qed.

(** ** Orientations *)
Lemma pose_quat_unit (q : Q4) : unit_quat q -> @pose_quat RScalar q = q.
Proof.
  intros U. unfold pose_quat, zero_quat. destruct q as [x y z w]. unfold unit_quat in U. cbn [qx qy qz qw] in *.
  destruct (_ && _)%bool eqn:H.
  - apply Bool.andb_true_iff in H as [H Hw]. apply Bool.andb_true_iff in H as [H Hz]. apply Bool.andb_true_iff in H as [Hx Hy].
    apply Reqb_true in Hx, Hy, Hz, Hw. toR. subst. exfalso. lra.
  - unfold checked_quat. destruct (@s_ltb RScalar _ _) eqn:L; [|reflexivity].
    exfalso. apply TfRot.Rltb_true in L. unfold quat_length, quat_length2, lit in L. cbn [qx qy qz qw] in L. toR.
    rewrite U, sqrt_1 in L. rewrite Rminus_diag_eq in L by reflexivity. rewrite Rabs_R0 in L.
    change (10 ^ 2)%Z with 100%Z in L. lra.
Qed.
Lemma attitude_unit (msg : pose_msg RScalar) v : unit_quat (ps_orientation msg) ->
  turn (pose_attitude msg) v = spin (ps_orientation msg) v.
Proof. intros U. unfold pose_attitude. rewrite pose_quat_unit by exact U. apply of_quat_spin, U. Qed.

(** The angles of an attitude in the usual ranges are found exactly. *)
Lemma rpy_exact (m : M3) r p y : - PI < r <= PI -> - (PI / 2) < p < PI / 2 -> - PI < y <= PI ->
  (forall v, turn m v = oriented r p y v) -> rpy_of m = v3 r p y.
Proof.
  intros Hr Hp Hy H. assert (m = @m3_setRPY RScalar r p y) as ->.
  { apply turn_inj. intros v. rewrite setRPY_oriented. apply H. }
  unfold rpy_of. rewrite getRPY_setRPY_exact by assumption. reflexivity.
Qed.

(** ** Measurements of an aligned sensor *)
Lemma no_motion_rigid : rigid (@no_motion RScalar).
Proof. apply rigid_identity. Qed.
Lemma no_motion_turn v : turn (t_basis (@no_motion RScalar)) v = v.
Proof. apply turn_eye. Qed.
Lemma no_motion_flags o u : rotated_flags2 (t_basis (@no_motion RScalar)) o u = u.
Proof. unfold rotated_flags2, rotated_flags. change (t_basis no_motion) with (@m3eye RScalar). rewrite !unmask_eye. reflexivity. Qed.
Lemma no_motion_flags1 o u : rotated_flags (t_basis (@no_motion RScalar)) o u = u.
Proof. unfold rotated_flags. change (t_basis no_motion) with (@m3eye RScalar). rewrite !unmask_eye. reflexivity. Qed.
Lemma no_motion_cov6 (C : rmat) i j : (i < 6)%nat -> (j < 6)%nat ->
  @rotateCov RScalar 6 (@rot6 RScalar (t_basis no_motion)) C i j = C i j.
Proof. intros Hi Hj. apply rotate_by_eye; [|exact Hi|exact Hj]. intros a b Ha Hb. apply rot6_eye; assumption. Qed.
Lemma no_motion_cov3 (C : rmat) i j : (i < 3)%nat -> (j < 3)%nat ->
  @rotateCov RScalar 3 (@rot3 RScalar (t_basis no_motion)) C i j = C i j.
Proof. intros Hi Hj. apply rotate_by_eye; [|exact Hi|exact Hj]. intros a b Ha Hb. apply rot3_eye; assumption. Qed.
Lemma cov_ext two_d A o n (C C' : rmat) : (forall i j, (i < n)%nat -> (j < n)%nat -> C i j = C' i j) ->
  measures_cov two_d A o n C -> measures_cov two_d A o n C'.
Proof. intros HC H i j Hi Hj Hk. rewrite <- HC by assumption. apply H; assumption. Qed.
Lemma cross_zero_l (w : V3) : cross3 (v3 0 0 0) w = v3 0 0 0.
Proof. unfold cross3, X, Y, Z3. cbn. f_equal; ring. Qed.
Lemma plus_zero (v : V3) : plus3 v (v3 0 0 0) = v.
Proof. destruct v. unfold plus3, X, Y, Z3. cbn. apply v3_eq; unfold X, Y, Z3; cbn; ring. Qed.
Lemma minus_zero (v : V3) : minus3 v (v3 0 0 0) = v.
Proof. destruct v. unfold minus3, X, Y, Z3. cbn. apply v3_eq; unfold X, Y, Z3; cbn; ring. Qed.

Section Thm.
Context {E : Type} (pq : pqueue RScalar) (e : penv RScalar) (c : config RScalar).

Lemma frames_world (frame : string) (d imu : bool) : c_world c <> ""%string ->
  pose_frames c frame (c_world c) d imu = (c_world c, if (d && negb imu)%bool then c_world c else frame).
Proof. intros H. unfold pose_frames. destruct (String.eqb_spec (c_world c) ""); [contradiction|reflexivity]. Qed.
Lemma source_base time : source_of e c (c_base c) time = None.
Proof. unfold source_of. rewrite String.eqb_refl. reflexivity. Qed.

(** Any rigid transform between message frame and world. *)
Lemma pose_transformed cd msg (n : node RScalar E) t :
  cd_differential cd = false -> cd_relative cd = false -> c_world c <> ""%string ->
  exact_clock e -> stamp_range (ps_stamp msg) -> unit_quat (ps_orientation msg) ->
  fresh n (cd_topic cd) (ps_stamp msg) ->
  answer (e_buffer e) (c_world c) (ps_frame msg) (ps_stamp msg / 1000000000) (Some t) -> rigid t ->
  exists m a, queued (snd (receive pq e c (SubPose cd) (MsgPose msg) n)) = [m] /\
    m_topic m = cd_topic cd /\ m_time m = ps_stamp msg /\ m_thresh m = cd_thresh cd /\
    measures (e_two_d e) (m_value m) 0 (move t (ps_position msg)) /\
    measures (e_two_d e) (m_value m) 3 a /\
    (not_vertical (turn (t_basis t) (spin (ps_orientation msg) (v3 1 0 0))) ->
     describes a (fun v => turn (t_basis t) (spin (ps_orientation msg) v))) /\
    (forall r p y, - PI < r <= PI -> - (PI / 2) < p < PI / 2 -> - PI < y <= PI ->
       (forall v, turn (t_basis t) (spin (ps_orientation msg) v) = oriented r p y v) -> a = v3 r p y) /\
    same_flags (e_two_d e) (m_upd m) (rotated_flags2 (t_basis t) 0 (cd_upd cd)) /\
    measures_cov (e_two_d e) (m_cov m) 0 6
      (@rotateCov RScalar 6 (@rot6 RScalar (t_basis t)) (as_matrix 6 (ps_cov msg))) /\
    only (e_two_d e) (m_value m) (m_cov m) 0 6 /\
    (e_two_d e = false -> psd 6 (as_matrix 6 (ps_cov msg)) -> psd 15 (m_cov m)).
Proof.
  intros HD HRl HW HE HS U HF HA HR. cbn [receive].
  pose proof (pose_lookup e _ _ _ _ HE HS HA) as HL.
  pose proof (pose_measured pq e c cd msg (c_world c) (c_base c) false n t _ _ HF HD
    (frames_world (ps_frame msg) false false HW) HL HR) as PM.
  cbv zeta in PM. rewrite source_base in PM. rewrite HRl in PM. cbn [to_base base_pose source_cov] in PM.
  destruct PM as (m & Q & T1 & T2 & T3 & M0 & M3 & FL & CV & ON & PS & _).
  { intros s h. discriminate h. }
  { apply rigid_mult; [exact HR|apply pose_rigid]. }
  exists m, (rpy_of (t_basis (t_mult t (pose_of msg)))).
  split; [exact Q|]. split; [exact T1|]. split; [exact T2|]. split; [exact T3|].
  assert (B : forall v, turn (t_basis (t_mult t (pose_of msg))) v = turn (t_basis t) (spin (ps_orientation msg) v)).
  { intros v. change (t_basis (t_mult t (pose_of msg))) with (m3mul (t_basis t) (pose_attitude msg)).
    rewrite turn_mul, attitude_unit by exact U. reflexivity. }
  split; [|split; [exact M3|split; [|split; [|split; [exact FL|split; [exact CV|split; [exact ON|exact PS]]]]]]].
  - replace (move t (ps_position msg)) with (t_origin (t_mult t (pose_of msg))); [exact M0|].
    change (t_origin (t_mult t (pose_of msg))) with (t_apply t (ps_position msg)). apply t_apply_move.
  - intros NV v. rewrite <- B. apply rpy_describes; [apply rigid_mult; [exact HR|apply pose_rigid]|].
    rewrite B. exact NV.
  - intros r p y Hr Hp Hy H. apply rpy_exact; try assumption. intros v. rewrite B. apply H.
Qed.

Lemma pose_aligned cd msg (n : node RScalar E) :
  cd_differential cd = false -> cd_relative cd = false -> c_world c <> ""%string ->
  exact_clock e -> stamp_range (ps_stamp msg) -> unit_quat (ps_orientation msg) ->
  fresh n (cd_topic cd) (ps_stamp msg) ->
  answer (e_buffer e) (c_world c) (ps_frame msg) (ps_stamp msg / 1000000000) (Some no_motion) ->
  exists m a, queued (snd (receive pq e c (SubPose cd) (MsgPose msg) n)) = [m] /\
    m_topic m = cd_topic cd /\ m_time m = ps_stamp msg /\ m_thresh m = cd_thresh cd /\
    measures (e_two_d e) (m_value m) 0 (ps_position msg) /\
    measures (e_two_d e) (m_value m) 3 a /\
    (not_vertical (spin (ps_orientation msg) (v3 1 0 0)) -> describes a (spin (ps_orientation msg))) /\
    (forall r p y, - PI < r <= PI -> - (PI / 2) < p < PI / 2 -> - PI < y <= PI ->
       describes (v3 r p y) (spin (ps_orientation msg)) -> a = v3 r p y) /\
    same_flags (e_two_d e) (m_upd m) (cd_upd cd) /\
    measures_cov (e_two_d e) (m_cov m) 0 6 (as_matrix 6 (ps_cov msg)) /\
    only (e_two_d e) (m_value m) (m_cov m) 0 6.
Proof.
  intros HD HRl HW HE HS U HF HA.
  destruct (pose_transformed cd msg n _ HD HRl HW HE HS U HF HA no_motion_rigid)
    as (m & a & Q & T1 & T2 & T3 & M0 & M3 & DS & EX & FL & CV & ON & _).
  exists m, a. split; [exact Q|]. split; [exact T1|]. split; [exact T2|]. split; [exact T3|].
  split; [|split; [exact M3|split; [|split; [|split; [|split; [|exact ON]]]]]].
  - replace (ps_position msg) with (move no_motion (ps_position msg)); [exact M0|].
    unfold move. rewrite no_motion_turn. apply plus_zero.
  - intros NV v. rewrite DS by (rewrite no_motion_turn; exact NV). apply no_motion_turn.
  - intros r p y Hr Hp Hy H. apply EX; try assumption. intros v. rewrite no_motion_turn. symmetry. apply H.
  - rewrite no_motion_flags in FL. exact FL.
  - eapply cov_ext; [|exact CV]. intros i j Hi Hj. apply no_motion_cov6; assumption.
Qed.

Lemma twist_transformed cd msg (n : node RScalar E) t :
  exact_clock e -> stamp_range (tw_stamp msg) -> fresh n (cd_topic cd) (tw_stamp msg) ->
  answer (e_buffer e) (c_base c) (frame_or (tw_frame msg) (c_base c)) (tw_stamp msg) (Some t) -> rigid t ->
  exists m, queued (snd (receive pq e c (SubTwist cd) (MsgTwist msg) n)) = [m] /\
    m_topic m = cd_topic cd /\ m_time m = tw_stamp msg /\ m_thresh m = cd_thresh cd /\
    measures (e_two_d e) (m_value m) 6
      (plus3 (turn (t_basis t) (tw_linear msg)) (cross3 (t_origin t) (angular_velocity n))) /\
    measures (e_two_d e) (m_value m) 9 (turn (t_basis t) (tw_angular msg)) /\
    same_flags (e_two_d e) (m_upd m) (rotated_flags2 (t_basis t) 6 (cd_upd cd)) /\
    measures_cov (e_two_d e) (m_cov m) 6 6
      (@rotateCov RScalar 6 (@rot6 RScalar (t_basis t)) (as_matrix 6 (tw_cov msg))) /\
    only (e_two_d e) (m_value m) (m_cov m) 6 6 /\
    (e_two_d e = false -> psd 6 (as_matrix 6 (tw_cov msg)) -> psd 15 (m_cov m)).
Proof.
  intros HE HS HF HA HR. cbn [receive]. apply twist_measured; [exact HF| |exact HR].
  unfold at_asked. rewrite (proj1 (HE _ HS)). exact HA.
Qed.

Lemma twist_aligned cd msg (n : node RScalar E) :
  exact_clock e -> stamp_range (tw_stamp msg) -> fresh n (cd_topic cd) (tw_stamp msg) ->
  answer (e_buffer e) (c_base c) (frame_or (tw_frame msg) (c_base c)) (tw_stamp msg) (Some no_motion) ->
  exists m, queued (snd (receive pq e c (SubTwist cd) (MsgTwist msg) n)) = [m] /\
    m_topic m = cd_topic cd /\ m_time m = tw_stamp msg /\ m_thresh m = cd_thresh cd /\
    measures (e_two_d e) (m_value m) 6 (tw_linear msg) /\
    measures (e_two_d e) (m_value m) 9 (tw_angular msg) /\
    same_flags (e_two_d e) (m_upd m) (cd_upd cd) /\
    measures_cov (e_two_d e) (m_cov m) 6 6 (as_matrix 6 (tw_cov msg)) /\
    only (e_two_d e) (m_value m) (m_cov m) 6 6.
Proof.
  intros HE HS HF HA.
  destruct (twist_transformed cd msg n _ HE HS HF HA no_motion_rigid) as (m & Q & T1 & T2 & T3 & M6 & M9 & FL & CV & ON & _).
  exists m. split; [exact Q|]. split; [exact T1|]. split; [exact T2|]. split; [exact T3|].
  rewrite no_motion_turn in M6, M9. change (t_origin no_motion) with (v3 0 0 0) in M6.
  rewrite cross_zero_l, plus_zero in M6. rewrite no_motion_flags in FL.
  split; [exact M6|]. split; [exact M9|]. split; [exact FL|]. split; [|exact ON].
  eapply cov_ext; [|exact CV]. intros i j Hi Hj. apply no_motion_cov6; assumption.
Qed.

(** The acceleration part of an IMU message, with and without removal of gravity. *)
Lemma acceleration_transformed cd msg (n : node RScalar E) t :
  exact_clock e -> stamp_range (im_stamp msg) -> fresh n (cd_topic cd) (im_stamp msg) ->
  answer (e_buffer e) (c_base c) (frame_or (im_frame msg) (c_base c)) (im_stamp msg) (Some t) -> rigid t ->
  let w := angular_velocity n in
  let felt := minus3 (plus3 (turn (t_basis t) (im_linear msg)) (cross3 (t_origin t) (a_acc (n_ang n))))
                     (cross3 (cross3 (t_origin t) w) w) in
  let fused := match sm_find (e_remove e) (cd_topic cd) with
               | Some true => minus3 felt (gravity_vector e n msg (cd_relative cd) (t_basis t))
               | _ => felt
               end in
  exists m, queued (snd (accelerationCallback pq e c cd msg (c_base c) n)) = [m] /\
    m_topic m = cd_topic cd /\ m_time m = im_stamp msg /\ m_thresh m = cd_thresh cd /\
    measures (e_two_d e) (m_value m) 12 fused /\
    same_flags (e_two_d e) (m_upd m) (rotated_flags (t_basis t) 12 (cd_upd cd)) /\
    measures_cov (e_two_d e) (m_cov m) 12 3
      (@rotateCov RScalar 3 (@rot3 RScalar (t_basis t)) (as_matrix 3 (im_acc_cov msg))) /\
    only (e_two_d e) (m_value m) (m_cov m) 12 3 /\
    (e_two_d e = false -> psd 3 (as_matrix 3 (im_acc_cov msg)) -> psd 15 (m_cov m)).
Proof.
  intros HE HS HF HA HR. apply acceleration_measured; [exact HF| |exact HR].
  unfold at_asked. rewrite (proj1 (HE _ HS)). exact HA.
Qed.

Lemma acceleration_aligned cd msg (n : node RScalar E) :
  exact_clock e -> stamp_range (im_stamp msg) -> fresh n (cd_topic cd) (im_stamp msg) ->
  sm_find (e_remove e) (cd_topic cd) <> Some true ->
  answer (e_buffer e) (c_base c) (frame_or (im_frame msg) (c_base c)) (im_stamp msg) (Some no_motion) ->
  exists m, queued (snd (accelerationCallback pq e c cd msg (c_base c) n)) = [m] /\
    m_topic m = cd_topic cd /\ m_time m = im_stamp msg /\ m_thresh m = cd_thresh cd /\
    measures (e_two_d e) (m_value m) 12 (im_linear msg) /\
    same_flags (e_two_d e) (m_upd m) (cd_upd cd) /\
    measures_cov (e_two_d e) (m_cov m) 12 3 (as_matrix 3 (im_acc_cov msg)) /\
    only (e_two_d e) (m_value m) (m_cov m) 12 3.
Proof.
  intros HE HS HF HG HA.
  destruct (acceleration_transformed cd msg n _ HE HS HF HA no_motion_rigid) as (m & Q & T1 & T2 & T3 & M & FL & CV & ON & _).
  exists m. split; [exact Q|]. split; [exact T1|]. split; [exact T2|]. split; [exact T3|].
  cbv zeta in M. rewrite no_motion_turn in M. change (t_origin no_motion) with (v3 0 0 0) in M.
  rewrite !cross_zero_l, plus_zero, minus_zero in M. rewrite no_motion_flags1 in FL.
  split. { destruct (sm_find (e_remove e) (cd_topic cd)) as [[]|]; [contradiction|exact M|exact M]. }
  split; [exact FL|]. split; [|exact ON].
  eapply cov_ext; [|exact CV]. intros i j Hi Hj. apply no_motion_cov3; assumption.
Qed.

End Thm.
