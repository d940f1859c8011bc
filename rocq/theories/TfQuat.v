(** * Quaternions read off rotation matrices *)

From Coq Require Import Reals Lra Lia Psatz Nsatz ZArith Bool.
From Verif Require Import Scalar Mat Tf SpecFilter SpecTf Trig Angles RLin TfReal TfRot.
Local Open Scope R_scope.

Lemma quat_products (x y z w : R) m00 m01 m02 m10 m11 m12 m20 m21 m22 :
  4 * (w * w) = 1 + m00 + m11 + m22 -> 4 * (x * x) = 1 + m00 - m11 - m22 ->
  4 * (y * y) = 1 - m00 + m11 - m22 -> 4 * (z * z) = 1 - m00 - m11 + m22 ->
  4 * (x * y) = m01 + m10 -> 4 * (x * z) = m02 + m20 -> 4 * (y * z) = m12 + m21 ->
  4 * (w * x) = m21 - m12 -> 4 * (w * y) = m02 - m20 -> 4 * (w * z) = m10 - m01 ->
  unit_quat (@mkQuat RScalar x y z w) /\
  m3_of_quat (@mkQuat RScalar x y z w) = mkM3 (v3 m00 m01 m02) (v3 m10 m11 m12) (v3 m20 m21 m22).
Proof.
  intros Ww Xx Yy Zz XY XZ YZ WX WY WZ.
  assert (U : unit_quat (@mkQuat RScalar x y z w)) by (unfold unit_quat; cbn [qx qy qz qw]; lra).
  split; [exact U|]. unfold m3_of_quat.
  replace (quat_length2 (@mkQuat RScalar x y z w)) with 1 by (symmetry; exact U). clear U.
  cbv zeta. cbn [qx qy qz qw].
  apply m3_eq; apply v3_eq; tf_simp; replace (2 / 1) with 2 by field; nsatz.
Qed.


Lemma root_inverse (t : R) : 0 < t -> exists s u : R, sqrt t = s /\ 1 / 2 / s = u * (1 / 2) /\ s * s = t /\ s * u = 1.
Proof.
  intros Ht. assert (P : 0 < sqrt t) by (apply sqrt_lt_R0; exact Ht).
  exists (sqrt t), (/ sqrt t). split; [reflexivity|]. split; [field; lra|]. split; [apply sqrt_sqrt; lra|].
  apply Rinv_r. lra.
Qed.

Lemma quarter_cross (a b c t s u h : R) : 2 * h = 1 -> s * s = t -> s * u = 1 -> a * b = t * c ->
  4 * (a * (u * h) * (b * (u * h))) = c.
Proof.
  intros Eh Ss Su P. transitivity ((2 * h) * (2 * h) * (a * b) * (u * u)); [ring|]. rewrite Eh, P, <- Ss.
  transitivity (c * (s * u) * (s * u)); [ring|]. rewrite Su. ring.
Qed.
Lemma quarter_left (a s u h : R) : 2 * h = 1 -> s * u = 1 -> 4 * (s * h * (a * (u * h))) = a.
Proof. intros Eh Su. transitivity ((2 * h) * (2 * h) * (s * u) * a); [ring|]. rewrite Eh, Su. ring. Qed.
Lemma quarter_right (a s u h : R) : 2 * h = 1 -> s * u = 1 -> 4 * (a * (u * h) * (s * h)) = a.
Proof. intros Eh Su. transitivity ((2 * h) * (2 * h) * (s * u) * a); [ring|]. rewrite Eh, Su. ring. Qed.
Lemma quarter_square (t s h : R) : 2 * h = 1 -> s * s = t -> 4 * (s * h * (s * h)) = t.
Proof. intros Eh Ss. transitivity ((2 * h) * (2 * h) * (s * s)); [ring|]. rewrite Eh, Ss. ring. Qed.
Ltac quarters := apply quat_products;
  first [ apply quarter_square; lra
        | etransitivity; [eapply quarter_left; eassumption | ring]
        | etransitivity; [eapply quarter_right; eassumption | ring]
        | eapply quarter_cross; [eassumption | eassumption | eassumption | lra]].

Lemma getRotation_correct (m : M3) : rotation m -> unit_quat (@m3_getRotation RScalar m) /\ m3_of_quat (@m3_getRotation RScalar m) = m.
Proof.
  destruct m as [[m00 m01 m02] [m10 m11 m12] [m20 m21 m22]]. intros H.
  pose proof (rot_products m00 m01 m02 m10 m11 m12 m20 m21 m22 H) as
    (W1 & W2 & W3 & X1 & X2 & X3 & W4 & W5 & W6 & X4 & X5 & X6 & Y1 & Y2 & Y3 & Y4 & Y5 & Y6). clear H.
  unfold m3_getRotation. cbv zeta. cbn [m3get v3get m3r0 m3r1 m3r2 v3x v3y v3z].
  change (@s_ofZ RScalar 0) with 0. change (@s_ofZ RScalar 1) with 1.
  rewrite half_R.
  cbn [s_add s_sub s_mul s_div s_sqrt RScalar].
  destruct (@s_ltb RScalar 0 (m00 + m11 + m22)) eqn:C0.
  - apply Rltb_true in C0. destruct (root_inverse (m00 + m11 + m22 + 1)) as (s & u & Es & Eu & Ss & Su); [lra|].
    rewrite Es, Eu. clear Es Eu. assert (Eh : 2 * (1 / 2) = 1) by field. set (h := 1 / 2) in *. clearbody h. quarters.
  - apply Rltb_false in C0.
    destruct (@s_ltb RScalar m00 m11) eqn:C1; [apply Rltb_true in C1|apply Rltb_false in C1].
    + destruct (@s_ltb RScalar m11 m22) eqn:C2; [apply Rltb_true in C2|apply Rltb_false in C2]; cbn [Nat.modulo Nat.divmod Nat.add Nat.sub fst snd m3get v3get m3r0 m3r1 m3r2 v3x v3y v3z].
      * destruct (root_inverse (m22 - m00 - m11 + 1)) as (s & u & Es & Eu & Ss & Su); [lra|].
        rewrite Es, Eu. clear Es Eu. assert (Eh : 2 * (1 / 2) = 1) by field. set (h := 1 / 2) in *. clearbody h. quarters.
      * destruct (root_inverse (m11 - m22 - m00 + 1)) as (s & u & Es & Eu & Ss & Su); [lra|].
        rewrite Es, Eu. clear Es Eu. assert (Eh : 2 * (1 / 2) = 1) by field. set (h := 1 / 2) in *. clearbody h. quarters.
    + destruct (@s_ltb RScalar m00 m22) eqn:C2; [apply Rltb_true in C2|apply Rltb_false in C2]; cbn [Nat.modulo Nat.divmod Nat.add Nat.sub fst snd m3get v3get m3r0 m3r1 m3r2 v3x v3y v3z].
      * destruct (root_inverse (m22 - m00 - m11 + 1)) as (s & u & Es & Eu & Ss & Su); [lra|].
        rewrite Es, Eu. clear Es Eu. assert (Eh : 2 * (1 / 2) = 1) by field. set (h := 1 / 2) in *. clearbody h. quarters.
      * destruct (root_inverse (m00 - m11 - m22 + 1)) as (s & u & Es & Eu & Ss & Su); [lra|].
        rewrite Es, Eu. clear Es Eu. assert (Eh : 2 * (1 / 2) = 1) by field. set (h := 1 / 2) in *. clearbody h. quarters.
Qed.
