(** * The navsat_transform node in exact arithmetic *)

From Coq Require Import Reals ZArith List Bool String Lia Lra Arith Nsatz.
From Verif Require Import Scalar Mat FilterBase Tf StrMap RosFilter RosPrepare Navsat SpecFilter SpecTf SpecPrepare SpecNavsat
  RBridge Angles Trig TfReal TfRot TfQuat PrepareProofs PrepareReal NavsatProofs NavsatTrace NavsatLife.
Import ListNotations.
Local Open Scope R_scope.

Implicit Types (g : geolib RScalar) (p : nav_params RScalar) (n : nav RScalar) (e : penv RScalar).

Lemma quatRotate_spin (q : Q4) v : unit_quat q -> @quatRotate RScalar q v = spin q v.
Proof.
  intros U. unfold unit_quat in U. destruct q as [a b c d], v as [x y z].
  unfold quatRotate, spin, cross3, plus3, times3, v3, X, Y, Z3. cbn [qx qy qz qw v3x v3y v3z] in *.
  change (sc RScalar) with R in *. cbn [s_mul s_add s_sub s_opp RScalar] in *.
  apply v3_eq; unfold X, Y, Z3; cbn [v3x v3y v3z]; nsatz.
Qed.
Lemma of_identity : m3_of_quat (@quat_identity RScalar) = m3eye.
Proof.
  apply turn_inj. intros v. rewrite of_quat_spin.
  - rewrite turn_eye. destruct v as [x y z]. change (sc RScalar) with R in *. unfold spin, quat_identity, cross3, plus3, times3, v3, X, Y, Z3.
    cbn [qx qy qz qw v3x v3y v3z]. apply v3_eq; unfold X, Y, Z3; cbn [v3x v3y v3z]; cbn [s_ofZ RScalar]; ring.
  - unfold unit_quat, quat_identity. cbn [qx qy qz qw s_ofZ RScalar]. ring.
Qed.
Lemma getRotation_identity : m3_of_quat (@m3_getRotation RScalar (m3_of_quat quat_identity)) = m3eye.
Proof. rewrite of_identity. apply getRotation_correct. apply rotation_eye. Qed.

(** Removing an offset. *)
Lemma shift_back (o pose : T4) v :
  t_origin (t_mult (t_inverse (with_rotation (with_origin o v) quat_identity)) pose) = minus3 (t_origin pose) v.
Proof.
  unfold with_rotation, with_origin. cbn [t_origin t_basis].
  change (t_origin (t_mult (t_inverse (mkTrans (m3_of_quat quat_identity) v)) pose))
    with (t_apply (t_inverse (mkTrans (m3_of_quat quat_identity) v)) (t_origin pose)).
  rewrite t_apply_move, move_inverse_eq. cbn [t_basis t_origin]. rewrite of_identity.
  change (m3T m3eye) with (@m3eye RScalar). apply turn_eye.
Qed.

(** Turning about the vertical. *)
Definition vertical (m : M3) (a : R) : Prop := forall v, turn m v = about_z a v.
Lemma oriented_yaw a v : oriented 0 0 a v = about_z a v.
Proof.
  unfold oriented, about_x, about_y, about_z. rewrite sin_0, cos_0. tf_ring.
Qed.
Lemma vertical_setRPY a : vertical (@m3_setRPY RScalar 0 0 a) a.
Proof. intros v. rewrite setRPY_oriented. apply oriented_yaw. Qed.
Lemma vertical_rotation m a : vertical m a -> rotation m.
Proof.
  intros H. replace m with (@m3_setRPY RScalar 0 0 a); [apply setRPY_rotation|].
  apply turn_inj. intros v. now rewrite H, vertical_setRPY.
Qed.
Lemma about_z_add a b v : about_z a (about_z b v) = about_z (a + b) v.
Proof. unfold about_z. rewrite sin_plus, cos_plus. tf_ring. Qed.
Lemma about_z_0 v : about_z 0 v = v.
Proof. unfold about_z. rewrite sin_0, cos_0. tf_ring. Qed.
Lemma vertical_mul m1 m2 a b : vertical m1 a -> vertical m2 b -> vertical (m3mul m1 m2) (a + b).
Proof. intros H1 H2 v. now rewrite turn_mul, H2, H1, about_z_add. Qed.
Lemma vertical_T m a : vertical m a -> vertical (m3T m) (- a).
Proof.
  intros H v. rewrite <- (turn_T_l m (about_z (- a) v)) by (eapply vertical_rotation; eauto).
  rewrite H, about_z_add, Rplus_opp_r, about_z_0. reflexivity.
Qed.
Lemma about_z_period a k v : about_z (a + IZR k * (2 * PI)) v = about_z a v.
Proof. unfold about_z. now rewrite sin_period_Z, cos_period_Z. Qed.
Lemma about_z_wrapped a b v : wrapped a b -> about_z b v = about_z a v.
Proof. intros (_ & k & ->). apply about_z_period. Qed.

(** ** The world transform *)
Definition yaw_of (q : Q4) : R := let '(_, _, y) := @Navsat.rpy_of RScalar q in y.
Definition total_offset p n : R := p_declination p + p_yaw_offset p + nv_convergence n.
Lemma world_transform_R e p n : @world_transform RScalar e p n =
  t_mult (t_of (@quat_setRPY RScalar 0 0 (yaw_of (m3_getRotation (t_basis (nv_world n))))) (t_origin (nv_world n)))
    (t_inverse (t_of (@quat_setRPY RScalar 0 0 (yaw_of (nv_orientation n) + total_offset p n)) (t_origin (corrected_pose e p n)))).
Proof.
  unfold world_transform, yaw_of.
  destruct (Navsat.rpy_of (nv_orientation n)) as [[? ?] ?].
  destruct (Navsat.rpy_of (m3_getRotation (t_basis (nv_world n)))) as [[? ?] ?]. reflexivity.
Qed.
Lemma world_transform_datum e p n :
  move (@world_transform RScalar e p n) (t_origin (corrected_pose e p n)) = t_origin (nv_world n).
Proof.
  rewrite world_transform_R, move_mult, move_inverse_eq. unfold t_of. cbn [t_basis t_origin].
  set (c := t_origin (corrected_pose e p n)).
  replace (minus3 c c) with (v3 0 0 0) by (clearbody c; tf_ring).
  unfold move. cbn [t_basis t_origin]. set (m1 := m3T _). set (m2 := m3_of_quat _).
  assert (Z : forall m : M3, turn m (v3 0 0 0) = v3 0 0 0).
  { tf_ring. }
  rewrite !Z. clear. generalize (t_origin (nv_world n)). tf_ring.
Qed.
Lemma world_transform_vertical e p n :
  vertical (t_basis (@world_transform RScalar e p n))
    (yaw_of (m3_getRotation (t_basis (nv_world n))) - (yaw_of (nv_orientation n) + total_offset p n)).
Proof.
  rewrite world_transform_R. unfold t_mult, t_inverse, t_of. cbn [t_basis]. rewrite !quat_setRPY_matrix.
  unfold Rminus. apply vertical_mul; [apply vertical_setRPY|]. apply vertical_T. apply vertical_setRPY.
Qed.

(** The heading of an orientation. *)
Lemma attitude_matrix q r pt y : attitude q r pt y -> m3_of_quat q = @m3_setRPY RScalar r pt y.
Proof. intros (U & _ & H). apply turn_inj. intros v. now rewrite of_quat_spin, H, setRPY_oriented. Qed.
Lemma attitude_rpy q r pt y : attitude q r pt y -> exists r' y',
  @Navsat.rpy_of RScalar q = (r', pt, y') /\ wrapped r r' /\ wrapped y y'.
Proof.
  intros H. unfold Navsat.rpy_of. rewrite (attitude_matrix _ _ _ _ H). apply getRPY_setRPY. apply H.
Qed.
Lemma attitude_yaw q r pt y : attitude q r pt y -> wrapped y (yaw_of q).
Proof. intros H. destruct (attitude_rpy _ _ _ _ H) as (r' & y' & E & _ & W). unfold yaw_of. now rewrite E. Qed.
Lemma attitude_setRPY r pt y : - (PI / 2) < pt < PI / 2 -> attitude (@quat_setRPY RScalar r pt y) r pt y.
Proof.
  intros H. split; [apply setRPY_unit|]. split; [exact H|]. intros v.
  rewrite <- of_quat_spin by apply setRPY_unit. now rewrite quat_setRPY_matrix, setRPY_oriented.
Qed.
Lemma yaw_getRotation (m : M3) q r pt y : m = m3_of_quat q -> attitude q r pt y -> wrapped y (yaw_of (m3_getRotation m)).
Proof.
  intros -> H. assert (R : rotation (m3_of_quat q)).
  { apply of_quat_rotation. apply unit_nonzero. apply H. }
  destruct (getRotation_correct _ R) as (U & E). apply (attitude_yaw _ r pt y). split; [exact U|].
  split; [apply H|]. intros v. rewrite <- of_quat_spin, E, of_quat_spin by (apply H || exact U). apply H.
Qed.

(** ** The correction for the antenna *)
Lemma lookup_asked e target source stamp r : asked e target source stamp r ->
  lookupTransformSafe e target source stamp = r.
Proof. intros H. apply lookup_is. rewrite toSec_R. exact H. Qed.
Lemma corrected_known e p n off : nv_manual n = false ->
  asked e (nv_base_frame n) (nv_gps_frame n) 0 (Some off) ->
  exists q, unit_quat q /\ t_origin (corrected_pose e p n) = minus3 (t_origin (nv_cart n)) (spin q (t_origin off)) /\
    forall r pt y, attitude (nv_orientation n) r pt y -> forall v, spin q v = oriented r pt (y + total_offset p n) v.
Proof.
  intros M L. unfold corrected_pose, getRobotOriginCartesianPose. rewrite M, (lookup_asked _ _ _ _ _ L).
  destruct (Navsat.rpy_of (nv_orientation n)) as [[r0 p0] y0] eqn:E.
  exists (quat_setRPY r0 p0 (y0 + total_offset p n)). split; [apply setRPY_unit|]. split.
  - rewrite shift_back, quatRotate_spin by apply setRPY_unit. reflexivity.
  - intros r pt y A v. destruct (attitude_rpy _ _ _ _ A) as (r' & y' & E' & (_ & k & Wr) & (_ & j & Wy)). rewrite E in E'. inversion E'; subst.
    rewrite <- of_quat_spin by apply setRPY_unit. rewrite quat_setRPY_matrix, setRPY_oriented. unfold oriented.
    replace (y + IZR j * (2 * PI) + total_offset p n) with (y + total_offset p n + IZR j * (2 * PI)) by ring.
    rewrite about_z_period. do 2 f_equal. unfold about_x. now rewrite sin_period_Z, cos_period_Z.
Qed.
Lemma corrected_unknown e p n : nv_manual n = true \/ asked e (nv_base_frame n) (nv_gps_frame n) 0 None ->
  corrected_pose e p n = nv_cart n.
Proof.
  unfold corrected_pose, getRobotOriginCartesianPose. intros [M|L].
  - now rewrite M.
  - rewrite (lookup_asked _ _ _ _ _ L). now destruct (nv_manual n).
Qed.
