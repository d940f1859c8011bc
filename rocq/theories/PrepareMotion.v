(** * Turned covariances, moving bodies and gravity (C53-C55) *)

From Coq Require Import Reals ZArith List Bool Lia Lra String Arith.
From Verif Require Import Scalar Mat FilterBase StrMap Tf Diagnostics RosFilter RosConfig ForceTwoD RosPrepare
  SpecConfig SpecNode SpecTf SpecLin SpecPrepare OutputProofs Trig TfReal TfRot TfQuat RBridge RLin Angles
  PrepareProofs PrepareReal PrepareFacts PrepareThm.
Import ListNotations.
Local Open Scope R_scope.

(** ** Covariances *)
Lemma bilinear_ext n A B x y x' y' : meq n n A B -> veq n x x' -> veq n y y' ->
  bilinear n A x y = bilinear n B x' y'.
Proof.
  intros HA Hx Hy. unfold bilinear, rdot. apply rsum_ext. intros i Hi. rewrite (Hx i Hi). f_equal.
  apply rmv_ext; intros l Hl; [apply HA; assumption|apply Hy; exact Hl].
Qed.
Lemma bilinear_sandwich n G P x y :
  bilinear n (rmul n (rmul n G P) (rT G)) x y = bilinear n P (rmv n (rT G) x) (rmv n (rT G) y).
Proof. unfold bilinear. rewrite !rmv_mul. rewrite rdot_mv. reflexivity. Qed.

Lemma rot6_both (r : M3) a b : rotation r ->
  veq 6 (rmv 6 (rT (@rot6 RScalar r)) (both (turn r a) (turn r b))) (both a b).
Proof.
  intros HR i Hi. pose proof (turn_T_l r a HR) as Ha. pose proof (turn_T_l r b HR) as Hb.
  rewrite <- Ha at 2. rewrite <- Hb at 2. clear Ha Hb HR. set (a' := turn r a). set (b' := turn r b).
  destruct r as [[r0 r1 r2] [r3 r4 r5] [r6 r7 r8]], a' as [x0 x1 x2], b' as [x3 x4 x5].
  do 6 (destruct i as [|i]; [cbv [rmv rsum rT rot6 both nth X Y Z3 turn inner v3 v3x v3y v3z m3T m3col m3r0 m3r1 m3r2 m3get v3get Nat.ltb Nat.leb Nat.sub andb s_ofZ RScalar s_mul s_add]; toR; ring|]). lia.
Qed.
Lemma rot3_one (r : M3) a : rotation r ->
  veq 3 (rmv 3 (rT (@rot3 RScalar r)) (one (turn r a))) (one a).
Proof.
  intros HR i Hi. pose proof (turn_T_l r a HR) as Ha. rewrite <- Ha at 2. clear Ha HR. set (a' := turn r a).
  destruct r as [[r0 r1 r2] [r3 r4 r5] [r6 r7 r8]], a' as [x0 x1 x2].
  do 3 (destruct i as [|i]; [cbv [rmv rsum rT rot3 one nth X Y Z3 turn inner v3 v3x v3y v3z m3T m3col m3r0 m3r1 m3r2 m3get v3get Nat.ltb Nat.leb Nat.sub andb s_ofZ RScalar s_mul s_add]; toR; ring|]). lia.
Qed.
Lemma turned6_rotate (r : M3) (C D : rmat) : rotation r ->
  meq 6 6 D (@rotateCov RScalar 6 (@rot6 RScalar r) C) -> turned6 r C D.
Proof.
  intros HR HD a b a' b'. rewrite (bilinear_ext 6 D _ _ _ _ _ HD (fun i _ => eq_refl) (fun i _ => eq_refl)).
  rewrite rotateCov_R, bilinear_sandwich.
  apply bilinear_ext; [intros i j _ _; reflexivity| |]; apply rot6_both; exact HR.
Qed.
Lemma turned3_rotate (r : M3) (C D : rmat) : rotation r ->
  meq 3 3 D (@rotateCov RScalar 3 (@rot3 RScalar r) C) -> turned3 r C D.
Proof.
  intros HR HD a b. rewrite (bilinear_ext 3 D _ _ _ _ _ HD (fun i _ => eq_refl) (fun i _ => eq_refl)).
  rewrite rotateCov_R, bilinear_sandwich.
  apply bilinear_ext; [intros i j _ _; reflexivity| |]; apply rot3_one; exact HR.
Qed.
Lemma measured_turned6 (r : M3) (A C : rmat) o : rotation r ->
  measures_cov false A o 6 (@rotateCov RScalar 6 (@rot6 RScalar r) C) -> turned6 r C (block o A).
Proof. intros HR H. apply turned6_rotate; [exact HR|]. intros i j Hi Hj. apply H; [exact Hi|exact Hj|left; left; reflexivity]. Qed.
Lemma measured_turned3 (r : M3) (A C : rmat) o : rotation r ->
  measures_cov false A o 3 (@rotateCov RScalar 3 (@rot3 RScalar r) C) -> turned3 r C (block o A).
Proof. intros HR H. apply turned3_rotate; [exact HR|]. intros i j Hi Hj. apply H; [exact Hi|exact Hj|left; left; reflexivity]. Qed.

(** Turning by the inverse restores the covariance. *)
Lemma unit_both_l i : (i < 6)%nat -> exists a b, forall k, both a b k = if Nat.eqb k i then 1 else 0.
Proof.
  intros Hi.
  exists (v3 (if Nat.eqb 0 i then 1 else 0) (if Nat.eqb 1 i then 1 else 0) (if Nat.eqb 2 i then 1 else 0)),
         (v3 (if Nat.eqb 3 i then 1 else 0) (if Nat.eqb 4 i then 1 else 0) (if Nat.eqb 5 i then 1 else 0)).
  intros k. do 6 (destruct k as [|k]; [reflexivity|]). 
  match goal with |- _ = (if ?b then _ else _) => replace b with false by (symmetry; apply Nat.eqb_neq; lia) end.
  destruct k; reflexivity.
Qed.
Lemma bilinear_entry n A x y i j : (i < n)%nat -> (j < n)%nat ->
  (forall k, x k = if Nat.eqb k i then 1 else 0) -> (forall k, y k = if Nat.eqb k j then 1 else 0) ->
  bilinear n A x y = A i j.
Proof.
  intros Hi Hj Hx Hy. unfold bilinear, rdot. rewrite (rsum_single n i); [|exact Hi|].
  - rewrite Hx, Nat.eqb_refl. unfold rmv. rewrite (rsum_single n j); [|exact Hj|].
    + rewrite Hy, Nat.eqb_refl. ring.
    + intros k Hk N. rewrite Hy. destruct (Nat.eqb_spec k j); [contradiction|ring].
  - intros k Hk N. rewrite Hx. destruct (Nat.eqb_spec k i); [contradiction|ring].
Qed.
Lemma turned6_back (r s : M3) (C D F : rmat) : (forall v, turn s (turn r v) = v) ->
  turned6 r C D -> turned6 s D F -> meq 6 6 F C.
Proof.
  intros HI H1 H2 i j Hi Hj. destruct (unit_both_l i Hi) as (a & b & Ha). destruct (unit_both_l j Hj) as (a' & b' & Hb).
  pose proof (H2 (turn r a) (turn r b) (turn r a') (turn r b')) as Q. rewrite (H1 a b a' b'), !HI in Q.
  rewrite (bilinear_entry 6 F _ _ i j Hi Hj Ha Hb) in Q. rewrite (bilinear_entry 6 C _ _ i j Hi Hj Ha Hb) in Q. exact Q.
Qed.

(** ** Rigid-body motion *)
Lemma derivative_unique f f1 f2 t : derivative f f1 -> derivative f f2 -> f1 t = f2 t.
Proof.
  intros H1 H2. destruct (H1 t) as (A1 & B1 & C1). destruct (H2 t) as (A2 & B2 & C2).
  apply v3_eq; eapply uniqueness_limite; eassumption.
Qed.
Lemma derivative_plus f f' g g' : derivative f f' -> derivative g g' ->
  derivative (fun t => plus3 (f t) (g t)) (fun t => plus3 (f' t) (g' t)).
Proof.
  intros H1 H2 t. destruct (H1 t) as (A1 & B1 & C1). destruct (H2 t) as (A2 & B2 & C2).
  cbn [plus3 X Y Z3 v3 v3x v3y v3z]. repeat split.
  - exact (derivable_pt_lim_plus _ _ _ _ _ A1 A2).
  - exact (derivable_pt_lim_plus _ _ _ _ _ B1 B2).
  - exact (derivable_pt_lim_plus _ _ _ _ _ C1 C2).
Qed.

(** A vector moving in a turning frame. *)
Lemma turn_combination (m : M3) u : turn m u =
  plus3 (times3 (X u) (turn m (v3 1 0 0))) (plus3 (times3 (Y u) (turn m (v3 0 1 0))) (times3 (Z3 u) (turn m (v3 0 0 1)))).
Proof. tf_ring. Qed.
Lemma derivative_ext f g f' g' : (forall t, f t = g t) -> (forall t, f' t = g' t) -> derivative f f' -> derivative g g'.
Proof.
  intros Hf Hf' H t. rewrite <- Hf'. destruct (H t) as (A & B & C).
  assert (L : forall p : V3 -> R, derivable_pt_lim (fun s => p (f s)) t (p (f' t)) ->
                                  derivable_pt_lim (fun s => p (g s)) t (p (f' t))).
  { intros p D eps He. destruct (D eps He) as [d Hd]. exists d. intros h h0 hd. rewrite <- !Hf. apply Hd; assumption. }
  repeat split; apply L; assumption.
Qed.
Lemma derivative_times k k' f f' : (forall t, derivable_pt_lim k t (k' t)) -> derivative f f' ->
  derivative (fun t => times3 (k t) (f t)) (fun t => plus3 (times3 (k' t) (f t)) (times3 (k t) (f' t))).
Proof.
  intros Hk H t. destruct (H t) as (A & B & C). cbn [times3 plus3 X Y Z3 v3 v3x v3y v3z]. repeat split.
  - exact (derivable_pt_lim_mult _ _ _ _ _ (Hk t) A).
  - exact (derivable_pt_lim_mult _ _ _ _ _ (Hk t) B).
  - exact (derivable_pt_lim_mult _ _ _ _ _ (Hk t) C).
Qed.
Lemma turning_derivative (Q : R -> M3) w u u' : body_rates Q w -> derivative u u' ->
  derivative (fun t => turn (Q t) (u t)) (fun t => plus3 (turn (Q t) (cross3 (w t) (u t))) (turn (Q t) (u' t))).
Proof.
  intros HQ Hu.
  pose proof (derivative_times _ _ _ _ (fun t => proj1 (Hu t)) (HQ (v3 1 0 0))) as D1.
  pose proof (derivative_times _ _ _ _ (fun t => proj1 (proj2 (Hu t))) (HQ (v3 0 1 0))) as D2.
  pose proof (derivative_times _ _ _ _ (fun t => proj2 (proj2 (Hu t))) (HQ (v3 0 0 1))) as D3.
  pose proof (derivative_plus _ _ _ _ D1 (derivative_plus _ _ _ _ D2 D3)) as D. clear D1 D2 D3 HQ Hu.
  eapply derivative_ext; [| |exact D].
  - intros t. cbv beta. symmetry. apply turn_combination.
  - intros t. cbv beta. generalize (Q t) (u t) (u' t) (w t). clear. intros q a b v. tf_ring.
Qed.
Lemma cross_derivative w w' (o : V3) : derivative w w' ->
  derivative (fun t => cross3 (w t) o) (fun t => cross3 (w' t) o).
Proof.
  intros H t. destruct (H t) as (A & B & C). cbn [cross3 X Y Z3 v3 v3x v3y v3z].
  assert (M : forall f l k, derivable_pt_lim f t l -> derivable_pt_lim (fun s => f s * k) t (l * k)).
  { intros f l k Hf. replace (l * k) with (l * k + f t * 0) by ring.
    apply (derivable_pt_lim_mult f (fun _ => k)); [exact Hf|]. apply derivable_pt_lim_const. }
  repeat split; (apply derivable_pt_lim_minus; apply M; assumption).
Qed.

(** What the lever arm adds to velocity and acceleration. *)
Lemma lever_velocity (Q : R -> M3) w x x' o s' t0 : body_rates Q w -> derivative x x' ->
  derivative (fun t => plus3 (x t) (turn (Q t) o)) s' ->
  s' t0 = plus3 (x' t0) (turn (Q t0) (cross3 (w t0) o)).
Proof.
  intros HQ Hx Hs. pose proof (derivative_plus _ _ _ _ Hx (HQ o)) as D. exact (derivative_unique _ _ _ t0 Hs D).
Qed.
Lemma lever_acceleration (Q : R -> M3) w al x x' x'' o s' s'' t0 : body_rates Q w -> derivative w al ->
  derivative x x' -> derivative x' x'' ->
  derivative (fun t => plus3 (x t) (turn (Q t) o)) s' -> derivative s' s'' ->
  s'' t0 = plus3 (x'' t0) (turn (Q t0) (plus3 (cross3 (w t0) (cross3 (w t0) o)) (cross3 (al t0) o))).
Proof.
  intros HQ Hw Hx Hx' Hs Hs'.
  pose proof (turning_derivative Q w _ _ HQ (cross_derivative _ _ o Hw)) as D.
  pose proof (derivative_plus _ _ _ _ Hx' D) as D2.
  assert (D3 : derivative (fun t => plus3 (x' t) (turn (Q t) (cross3 (w t) o))) s'').
  { eapply derivative_ext; [|intros; reflexivity|exact Hs']. intros t. eapply lever_velocity; eassumption. }
  rewrite (derivative_unique _ _ _ t0 D3 D2). cbv beta. rewrite turn_plus. reflexivity.
Qed.

(** ** Gravity *)
Lemma inverse_rotation (m : M3) : rotation m -> @m3_inverse RScalar m = m3T m.
Proof.
  intros H. pose proof (rotation_cofactor m H) as (C0 & C1 & C2).
  destruct m as [[a b c] [d f g] [h i j]]. unfold m3_inverse, m3_cofac. cbv zeta.
  cbv [m3get v3get m3r0 m3r1 m3r2 v3dot v3x v3y v3z cross3 v3 X Y Z3] in *. toR.
  injection C0 as A0 A1 A2. injection C1 as B0 B1 B2. injection C2 as D0 D1 D2.
  unfold rotation, inner, X, Y, Z3, v3x, v3y, v3z, m3r0, m3r1, m3r2 in H.
  destruct H as (N & _).
  assert (DT : a * (f * j - g * i) + b * (g * h - d * j) + c * (d * i - f * h) = 1) by (rewrite <- A0, <- A1, <- A2; exact N).
  rewrite DT. unfold m3T, m3col. cbn [m3r0 m3r1 m3r2 v3x v3y v3z].
  repeat (apply m3_eq || apply v3_eq); cbn [m3r0 m3r1 m3r2 X Y Z3 v3x v3y v3z]; unfold X, Y, Z3; cbn [v3x v3y v3z]; unfold Rdiv; rewrite Rinv_1, !Rmult_1_r; lra.
Qed.

Lemma turn_up (m : M3) u g : rotation m -> turn m u = g -> turn (m3T m) g = u.
Proof. intros H <-. apply turn_T_l, H. Qed.

Section Gravity.
Context {E : Type} (e : penv RScalar).

Lemma absent_R (cov : nat -> R) : @absent RScalar cov = true <-> Rabs (cov 0%nat + 1) < 1 / 1000000000.
Proof. unfold absent. rewrite TfRot.Rltb_true. unfold lit. toR. change (10 ^ 9)%Z with 1000000000%Z. reflexivity. Qed.

(** [u]: the upward vector of length g in IMU axes. *)
Lemma gravity_is (n : node RScalar E) msg (r : M3) att u : rotation r -> imu_attitude n msg r att ->
  att u = up (e_gravity e) -> gravity_vector e n msg false r = u.
Proof.
  intros HR HA HU. unfold gravity_vector. cbv zeta. inversion HA as [HC U Ha|HC Ha]; subst att.
  - assert (@absent RScalar (im_ori_cov msg) = false) as ->.
    { apply Bool.not_true_iff_false. rewrite absent_R. lra. }
    replace (@checked_quat RScalar (im_orientation msg)) with (im_orientation msg).
    2:{ symmetry. rewrite <- (pose_quat_unit (im_orientation msg) U) at 2. unfold pose_quat.
        destruct (zero_quat (im_orientation msg)) eqn:Z; [|reflexivity]. exfalso.
        unfold zero_quat in Z. apply Bool.andb_true_iff in Z as [Z Hw]. apply Bool.andb_true_iff in Z as [Z Hz].
        apply Bool.andb_true_iff in Z as [Hx Hy]. apply Reqb_true in Hx, Hy, Hz, Hw. toR.
        unfold unit_quat in U. rewrite Hx, Hy, Hz, Hw in U. lra. }
    pose proof (of_quat_rotation _ (unit_nonzero _ U)) as HQ. rewrite (inverse_rotation _ HQ).
    rewrite m3mv_turn. apply turn_up; [exact HQ|]. rewrite of_quat_spin by exact U. exact HU.
  - apply absent_R in HC. rewrite HC.
    set (s := @m3_setRPY RScalar _ _ _).
    assert (HS : rotation s) by apply setRPY_rotation.
    rewrite inverse_rotation by (apply rotation_mul; assumption).
    rewrite m3mv_turn. apply turn_up; [apply rotation_mul; assumption|]. rewrite turn_mul. unfold s.
    rewrite setRPY_oriented. exact HU.
Qed.
(** With relative orientation and no rotation of the IMU the same. *)
Lemma gravity_aligned (n : node RScalar E) msg (rel : bool) att u : imu_attitude n msg m3eye att ->
  att u = up (e_gravity e) -> gravity_vector e n msg rel m3eye = u.
Proof.
  intros HA HU. rewrite <- (gravity_is n msg m3eye att u rotation_eye HA HU). unfold gravity_vector. cbv zeta.
  destruct (absent (im_ori_cov msg)); [reflexivity|]. destruct rel; [|reflexivity].
  rewrite (inverse_rotation m3eye rotation_eye). change (m3T m3eye) with (@m3eye RScalar). rewrite m3mul_eye_l. reflexivity.
Qed.
End Gravity.
