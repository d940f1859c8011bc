(** * Rotation matrices, quaternions and Euler angles *)

From Coq Require Import Reals Lra Lia Psatz Nsatz ZArith Bool.
From Verif Require Import Scalar Mat Tf SpecFilter SpecTf Trig Angles RLin TfReal.
Local Open Scope R_scope.

Lemma half_angle a : sin a = 2 * sin (a * @half RScalar) * cos (a * @half RScalar) /\
  cos a = cos (a * @half RScalar) * cos (a * @half RScalar) - sin (a * @half RScalar) * sin (a * @half RScalar).
Proof.
  rewrite half_R. set (h := a * (1 / 2)). assert (Ha : a = 2 * h) by (unfold h; field).
  rewrite Ha at 1 2. rewrite sin_2a, cos_2a. split; ring.
Qed.

Lemma quat_setRPY_matrix r p y : m3_of_quat (@quat_setRPY RScalar r p y) = @m3_setRPY RScalar r p y.
Proof.
  pose proof (setRPY_unit r p y) as U. unfold m3_of_quat.
  replace (quat_length2 (@quat_setRPY RScalar r p y)) with 1 by (symmetry; exact U). clear U.
  unfold quat_setRPY, m3_setRPY, m3_setEulerYPR. cbv zeta. cbn [s_sin s_cos RScalar qx qy qz qw].
  change (@s_mul RScalar) with Rmult.
  destruct (half_angle r) as (SR & CR), (half_angle p) as (SP & CP), (half_angle y) as (SY & CY).
  pose proof (sin_cos1 (r * @half RScalar)) as HR. pose proof (sin_cos1 (p * @half RScalar)) as HP.
  pose proof (sin_cos1 (y * @half RScalar)) as HY.
  rewrite SR, CR, SP, CP, SY, CY. clear SR CR SP CP SY CY.
  set (a := sin (r * @half RScalar)) in *. set (b := cos (r * @half RScalar)) in *.
  set (c := sin (p * @half RScalar)) in *. set (d := cos (p * @half RScalar)) in *.
  set (e := sin (y * @half RScalar)) in *. set (f := cos (y * @half RScalar)) in *.
  clearbody a b c d e f.
  apply m3_eq; apply v3_eq; tf_simp; replace (2 / 1) with 2 by field; nsatz.
Qed.

(** ** Euler angles back *)
Lemma Rleb_true a b : @s_leb RScalar a b = true <-> a <= b.
Proof. cbn. unfold Rleb. destruct (Rle_dec a b); split; intros; try lra; discriminate. Qed.
Lemma Rltb_true a b : @s_ltb RScalar a b = true <-> a < b.
Proof. cbn. unfold Rltb. destruct (Rlt_dec a b); split; intros; try lra; discriminate. Qed.
Lemma Rleb_false a b : @s_leb RScalar a b = false <-> b < a.
Proof. cbn. unfold Rleb. destruct (Rle_dec a b); split; intros; try lra; discriminate. Qed.
Lemma Rltb_false a b : @s_ltb RScalar a b = false <-> b <= a.
Proof. cbn. unfold Rltb. destruct (Rlt_dec a b); split; intros; try lra; discriminate. Qed.

Lemma cos_pos_range p : - (PI / 2) < p < PI / 2 -> 0 < cos p.
Proof. intros H. apply cos_gt_0; lra. Qed.
Lemma sin_lt_1 p : - (PI / 2) < p < PI / 2 -> Rabs (- sin p) < 1.
Proof.
  intros H. pose proof (cos_pos_range p H) as Hc. pose proof (sin_cos1 p) as Hs.
  rewrite Rabs_Ropp. apply Rabs_def1; nra.
Qed.

Lemma getRPY_setRPY r p y : - (PI / 2) < p < PI / 2 -> exists r' y',
  @m3_getRPY RScalar (@m3_setRPY RScalar r p y) = (r', p, y') /\ wrapped r r' /\ wrapped y y'.
Proof.
  intros Hp. pose proof (cos_pos_range p Hp) as Hc. pose proof (sin_lt_1 p Hp) as Hs.
  unfold m3_getRPY, m3_setRPY, m3_setEulerYPR. cbv zeta. cbn [m3r0 m3r1 m3r2 v3x v3y v3z].
  change (@s_leb RScalar (s_ofZ 1) (s_abs (s_opp (@s_sin RScalar p)))) with (Rleb 1 (Rabs (- sin p))).
  assert (Hf : Rleb 1 (Rabs (- sin p)) = false) by (apply Rleb_false; exact Hs). rewrite Hf.
  cbn [s_sin s_cos s_opp s_asin s_mul s_div s_atan2 RScalar].
  assert (Ha : - asin (- sin p) = p) by (rewrite asin_opp, asin_sin by lra; ring).
  rewrite Ha. eexists _, _. split; [reflexivity|]. split.
  - replace (cos p * sin r / cos p) with (1 * sin r) by (field; lra).
    replace (cos p * cos r / cos p) with (1 * cos r) by (field; lra). apply Ratan2_wrapped. lra.
  - replace (cos p * sin y / cos p) with (1 * sin y) by (field; lra).
    replace (cos p * cos y / cos p) with (1 * cos y) by (field; lra). apply Ratan2_wrapped. lra.
Qed.

Lemma getRPY_setRPY_exact r p y : - PI < r <= PI -> - (PI / 2) < p < PI / 2 -> - PI < y <= PI ->
  @m3_getRPY RScalar (@m3_setRPY RScalar r p y) = (r, p, y).
Proof.
  intros Hr Hp Hy. destruct (getRPY_setRPY r p y Hp) as (r' & y' & -> & Wr & Wy).
  rewrite (wrapped_unique r r' r Wr (wrapped_id r Hr)), (wrapped_unique y y' y Wy (wrapped_id y Hy)). reflexivity.
Qed.

Lemma atan2_unit y x : y * y + x * x = 1 -> sin (Ratan2 y x) = y /\ cos (Ratan2 y x) = x.
Proof.
  intros H. assert (Hne : x <> 0 \/ y <> 0) by (destruct (Req_dec x 0) as [->|]; [right; intros ->; lra|left; assumption]).
  destruct (sin_cos_atan2 y x Hne) as (-> & ->). replace (x * x + y * y) with 1 by lra. rewrite sqrt_1. split; field.
Qed.

(** Away from gimbal lock every rotation matrix is rebuilt from the angles read
    off it. *)
Lemma setRPY_getRPY (m : M3) : rotation m -> - 1 < v3x (m3r2 m) < 1 ->
  exists r p y, @m3_getRPY RScalar m = (r, p, y) /\ @m3_setRPY RScalar r p y = m /\
    - PI < r <= PI /\ - (PI / 2) < p < PI / 2 /\ - PI < y <= PI.
Proof.
  intros H B20. pose proof (rotation_cofactor m H) as (C0 & C1 & C2). pose proof (rotation_T m H) as HT.
  destruct m as [[m00 m01 m02] [m10 m11 m12] [m20 m21 m22]]. unfold m3_getRPY. cbv zeta. cbn [m3r0 m3r1 m3r2 v3x v3y v3z].
  cbn [m3r0 m3r1 m3r2 v3x v3y v3z] in B20.
  tf_simp. injection C0 as A00 A01 A02. injection C1 as A10 A11 A12. injection C2 as A20 A21 A22.
  destruct H as (O0 & O1 & O2 & O01 & O02 & O12 & Od), HT as (P0 & P1 & P2 & P01 & P02 & P12 & _).
  cbn [s_abs s_leb s_ltb RScalar].
  assert (Hf : Rleb 1 (Rabs m20) = false) by (apply (proj2 (Rleb_false _ _)); apply Rabs_def1; lra).
  rewrite Hf. cbn [s_sin s_cos s_opp s_asin s_mul s_div s_atan2 RScalar].
  eexists _, _, _. split; [reflexivity|].
  set (p := - asin m20).
  assert (Hs : sin p = - m20) by (unfold p; rewrite sin_neg, sin_asin by lra; reflexivity).
  assert (Hp : - (PI / 2) < p < PI / 2).
  { destruct (asin_bound_lt m20 B20) as (L1 & L2). unfold p. lra. }
  pose proof (cos_pos_range p Hp) as Hc. pose proof (sin_cos1 p) as H1. rewrite Hs in H1.
  clearbody p. set (c := cos p) in *. assert (Ec : cos p = c) by reflexivity. clearbody c.
  change (@s_cos RScalar p) with (cos p). rewrite ?Ec.
  assert (N1 : (m21 / c) * (m21 / c) + (m22 / c) * (m22 / c) = 1).
  { transitivity ((m21 * m21 + m22 * m22) / (c * c)); [field; lra|].
    replace (m21 * m21 + m22 * m22) with (c * c) by lra. field. lra. }
  assert (N2 : (m10 / c) * (m10 / c) + (m00 / c) * (m00 / c) = 1).
  { transitivity ((m10 * m10 + m00 * m00) / (c * c)); [field; lra|].
    replace (m10 * m10 + m00 * m00) with (c * c) by lra. field. lra. }
  destruct (atan2_unit _ _ N1) as (S1 & K1). destruct (atan2_unit _ _ N2) as (S2 & K2).
  split; [|repeat split; try apply Ratan2_range; lra].
  unfold m3_setRPY, m3_setEulerYPR. cbv zeta. cbn [s_sin s_cos s_mul s_add s_sub s_opp RScalar].
  rewrite S1, K1, S2, K2, Hs, Ec. clear Ec S1 K1 S2 K2 N1 N2 Hs Hp Hf.
  unfold Rdiv. assert (U : / c * c = 1) by (field; lra). set (u := / c) in *. clearbody u. clear Hc B20.
  replace (- - m20) with m20 by ring.
  assert (C2 : c * c = 1 - m20 * m20) by lra.
  apply m3_eq; apply v3_eq; tf_simp.
  - clear - U. nsatz.
  - assert (Q : m01 * (c * c) = - m20 * m21 * m00 - m22 * m10) by (rewrite C2; nsatz). clear - Q U. nsatz.
  - assert (Q : m02 * (c * c) = - m20 * m22 * m00 + m21 * m10) by (rewrite C2; nsatz). clear - Q U. nsatz.
  - clear - U. nsatz.
  - assert (Q : m11 * (c * c) = - m20 * m21 * m10 + m22 * m00) by (rewrite C2; nsatz). clear - Q U. nsatz.
  - assert (Q : m12 * (c * c) = - m20 * m22 * m10 - m21 * m00) by (rewrite C2; nsatz). clear - Q U. nsatz.
  - reflexivity.
  - clear - U. nsatz.
  - clear - U. nsatz.
Qed.

(** ** Matrix3x3::getRotation

    The four cases of the extraction share these identities of rotation
    matrices. *)
Section Getrot.
Variables m00 m01 m02 m10 m11 m12 m20 m21 m22 : R.
Let m : M3 := mkM3 (v3 m00 m01 m02) (v3 m10 m11 m12) (v3 m20 m21 m22).
Hypothesis H : rotation m.
Let tw := 1 + m00 + m11 + m22.
Let tx := 1 + m00 - m11 - m22.
Let ty := 1 - m00 + m11 - m22.
Let tz := 1 - m00 - m11 + m22.

Lemma rot_products :
  (m21 - m12) * (m21 - m12) = tw * tx /\ (m02 - m20) * (m02 - m20) = tw * ty /\ (m10 - m01) * (m10 - m01) = tw * tz /\
  (m01 + m10) * (m01 + m10) = tx * ty /\ (m02 + m20) * (m02 + m20) = tx * tz /\ (m12 + m21) * (m12 + m21) = ty * tz /\
  (m21 - m12) * (m02 - m20) = tw * (m01 + m10) /\ (m21 - m12) * (m10 - m01) = tw * (m02 + m20) /\
  (m02 - m20) * (m10 - m01) = tw * (m12 + m21) /\
  (m01 + m10) * (m02 + m20) = tx * (m12 + m21) /\ (m01 + m10) * (m12 + m21) = ty * (m02 + m20) /\
  (m02 + m20) * (m12 + m21) = tz * (m01 + m10) /\
  (m21 - m12) * (m01 + m10) = tx * (m02 - m20) /\ (m21 - m12) * (m02 + m20) = tx * (m10 - m01) /\
  (m02 - m20) * (m01 + m10) = ty * (m21 - m12) /\ (m02 - m20) * (m12 + m21) = ty * (m10 - m01) /\
  (m10 - m01) * (m02 + m20) = tz * (m21 - m12) /\ (m10 - m01) * (m12 + m21) = tz * (m02 - m20).
Proof using H.
  pose proof (rotation_cofactor m H) as (C0 & C1 & C2). pose proof (rotation_T m H) as HT.
  unfold m in *. tf_simp. injection C0 as A00 A01 A02. injection C1 as A10 A11 A12. injection C2 as A20 A21 A22.
  destruct H as (O0 & O1 & O2 & O01 & O02 & O12 & Od), HT as (P0 & P1 & P2 & P01 & P02 & P12 & _).
  cbn in O0, O1, O2, O01, O02, O12, Od. unfold tw, tx, ty, tz. clear H.
  repeat split; nsatz.
Qed.
End Getrot.
