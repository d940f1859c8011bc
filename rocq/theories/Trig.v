(** * atan2 and angles *)

From Coq Require Import Reals ZArith Lra Lia.
From Verif Require Import Scalar Mat FilterBase SpecLin SpecFilter RBridge Angles.
Local Open Scope R_scope.

Lemma Ratan2_range y x : - PI < Ratan2 y x <= PI.
Proof.
  pose proof PI_RGT_0. unfold Ratan2.
  pose proof (atan_bound (y / x)).
  destruct (Rlt_dec 0 x); [lra|].
  destruct (Rlt_dec x 0).
  - destruct (Rle_dec 0 y) as [h|h].
    + assert (y / x <= 0).
      { unfold Rdiv. assert (/ x < 0) by (apply Rinv_lt_0_compat; assumption). nra. }
      assert (atan (y / x) <= 0).
      { rewrite <- atan_0. destruct (Req_dec (y / x) 0) as [E|E]; [rewrite E; lra|].
        left. apply atan_increasing. lra. }
      lra.
    + apply Rnot_le_lt in h.
      assert (0 < y / x).
      { unfold Rdiv. assert (/ x < 0) by (apply Rinv_lt_0_compat; assumption). nra. }
      assert (0 < atan (y / x)) by (rewrite <- atan_0; apply atan_increasing; assumption).
      lra.
  - destruct (Rlt_dec 0 y); [lra|]. destruct (Rlt_dec y 0); lra.
Qed.

Lemma cos_neg_range t : - PI < t <= PI -> cos t < 0 -> t < - (PI / 2) \/ PI / 2 < t.
Proof.
  intros Ht Hc. destruct (Rlt_dec t (- (PI / 2))); [left; assumption|].
  destruct (Rlt_dec (PI / 2) t); [right; assumption|].
  exfalso. pose proof (cos_ge_0 t). lra.
Qed.

Lemma Ratan2_polar c t : 0 < c -> - PI < t <= PI -> Ratan2 (c * sin t) (c * cos t) = t.
Proof.
  intros Hc Ht. pose proof PI_RGT_0. unfold Ratan2.
  assert (Etan : cos t <> 0 -> c * sin t / (c * cos t) = tan t).
  { intros. unfold tan. field. split; lra. }
  destruct (Rtotal_order 0 (cos t)) as [Hp|[Hz|Hn]].
  - assert (- (PI / 2) < t < PI / 2).
    { destruct (Rle_lt_dec t (- (PI / 2))).
      - exfalso. assert (cos t <= 0); [|lra].
        rewrite <- cos_neg. apply cos_le_0; lra.
      - destruct (Rle_lt_dec (PI / 2) t); [|lra].
        exfalso. assert (cos t <= 0); [|lra]. apply cos_le_0; lra. }
    destruct (Rlt_dec 0 (c * cos t)) as [h|h]; [|exfalso; apply h; nra].
    rewrite Etan by lra. apply atan_tan. assumption.
  - rewrite <- Hz, Rmult_0_r.
    destruct (Rlt_dec 0 0) as [h|_]; [lra|]. 
    assert (Ht2 : t = PI / 2 \/ t = - (PI / 2)).
    { destruct (Rlt_le_dec (- (PI / 2)) t).
      - destruct (Rlt_le_dec t (PI / 2)).
        + exfalso. pose proof (cos_gt_0 t). lra.
        + destruct (Req_dec t (PI / 2)); [left; assumption|].
          exfalso. assert (cos t < 0); [|lra]. apply cos_lt_0; lra.
      - destruct (Req_dec t (- (PI / 2))); [right; assumption|].
        exfalso. assert (cos t < 0); [|lra]. rewrite <- cos_neg. apply cos_lt_0; lra. }
    destruct Ht2 as [-> | ->].
    + rewrite sin_PI2. destruct (Rlt_dec 0 (c * 1)) as [h|h]; [reflexivity|lra].
    + rewrite sin_neg, sin_PI2.
      destruct (Rlt_dec 0 (c * - (1))) as [h|h]; [lra|].
      destruct (Rlt_dec (c * - (1)) 0) as [h2|h2]; [reflexivity|lra].
  - destruct (Rlt_dec 0 (c * cos t)) as [h|_]; [nra|].
    destruct (Rlt_dec (c * cos t) 0) as [h|h]; [|exfalso; apply h; nra].
    rewrite Etan by lra.
    destruct (cos_neg_range t Ht) as [L|L]; [lra| |].
    + assert (sin t < 0).
      { apply Ropp_lt_cancel. rewrite Ropp_0, <- sin_neg. apply sin_gt_0; lra. }
      destruct (Rle_dec 0 (c * sin t)) as [h2|h2]; [nra|].
      replace (tan t) with (tan (t + PI)).
      2:{ unfold tan. rewrite neg_sin, neg_cos. field. lra. }
      rewrite atan_tan by lra. ring.
    + assert (0 <= sin t) by (apply sin_ge_0; lra).
      destruct (Rle_dec 0 (c * sin t)) as [h2|h2]; [|exfalso; apply h2; nra].
      replace (tan t) with (tan (t - PI)).
      2:{ unfold tan. unfold Rminus. rewrite <- (sin_neg (t + - PI)) || idtac.
          replace (sin (t + - PI)) with (- sin t)
            by (rewrite sin_plus, sin_neg, cos_neg, sin_PI, cos_PI; ring).
          replace (cos (t + - PI)) with (- cos t)
            by (rewrite cos_plus, sin_neg, cos_neg, sin_PI, cos_PI; ring).
          field. lra. }
      rewrite atan_tan by lra. ring.
Qed.

Lemma sin_period_Z x k : sin (x + IZR k * (2 * PI)) = sin x.
Proof.
  destruct (Z_le_dec 0 k).
  - replace (IZR k * (2 * PI)) with (2 * INR (Z.to_nat k) * PI).
    + apply sin_period.
    + rewrite INR_IZR_INZ, Z2Nat.id by assumption. ring.
  - rewrite <- (sin_period (x + IZR k * (2 * PI)) (Z.to_nat (- k))).
    f_equal. rewrite INR_IZR_INZ, Z2Nat.id by lia. rewrite opp_IZR. ring.
Qed.
Lemma cos_period_Z x k : cos (x + IZR k * (2 * PI)) = cos x.
Proof.
  destruct (Z_le_dec 0 k).
  - replace (IZR k * (2 * PI)) with (2 * INR (Z.to_nat k) * PI).
    + apply cos_period.
    + rewrite INR_IZR_INZ, Z2Nat.id by assumption. ring.
  - rewrite <- (cos_period (x + IZR k * (2 * PI)) (Z.to_nat (- k))).
    f_equal. rewrite INR_IZR_INZ, Z2Nat.id by lia. rewrite opp_IZR. ring.
Qed.

(** atan2 of a positively scaled (sin, cos) pair is the normalised angle. *)
Lemma Ratan2_wrapped c t : 0 < c -> wrapped t (Ratan2 (c * sin t) (c * cos t)).
Proof.
  intros Hc. destruct (normalize_angle_spec t) as [Hr [k Hk]].
  set (u := @normalize_angle RScalar t) in *.
  assert (Es : sin t = sin u) by (rewrite Hk, sin_period_Z; reflexivity).
  assert (Ec : cos t = cos u) by (rewrite Hk, cos_period_Z; reflexivity).
  rewrite Es, Ec, Ratan2_polar by assumption. split; [assumption|]. exists k. exact Hk.
Qed.

Lemma wrapped_sin a b : wrapped a b -> sin b = sin a.
Proof. intros [_ [k ->]]. apply sin_period_Z. Qed.
Lemma wrapped_cos a b : wrapped a b -> cos b = cos a.
Proof. intros [_ [k ->]]. apply cos_period_Z. Qed.

(** Polar form: any (x, y) is hypot times (cos, sin) of atan2. *)
Lemma sin_cos_atan2 y x : x <> 0 \/ y <> 0 ->
  sin (Ratan2 y x) = y / sqrt (x * x + y * y) /\ cos (Ratan2 y x) = x / sqrt (x * x + y * y).
Proof.
  intros H. set (r := sqrt (x * x + y * y)).
  assert (Hr2 : 0 < x * x + y * y) by (destruct H; nra).
  assert (Hr : 0 < r) by (apply sqrt_lt_R0; assumption).
  assert (Err : r * r = x * x + y * y) by (apply sqrt_sqrt; lra).
  destruct (Rlt_dec 0 0) as [h|_]; [lra|].
  assert (Hunit : (x / r) * (x / r) + (y / r) * (y / r) = 1).
  { replace ((x / r) * (x / r) + (y / r) * (y / r)) with ((x * x + y * y) / (r * r)) by (field; lra).
    rewrite Err. field. lra. }
  (* pick an angle t with cos t = x/r, sin t = y/r *)
  assert (Hex : exists t, - PI < t <= PI /\ cos t = x / r /\ sin t = y / r).
  { pose proof PI_RGT_0.
    assert (Hb : -1 <= x / r <= 1) by (split; nra).
    pose proof (acos_bound (x / r)) as Hab.
    pose proof (cos_acos (x / r) Hb) as Hca.
    pose proof (sin_acos (x / r) Hb) as Hsa.
    destruct (Rle_dec 0 (y / r)) as [hy|hy].
    - exists (acos (x / r)). repeat split; try lra. rewrite Hsa.
      replace (1 - (x / r)²) with ((y / r) * (y / r)) by (unfold Rsqr; lra).
      apply sqrt_square. assumption.
    - apply Rnot_le_lt in hy.
      exists (- acos (x / r)).
      assert (Hne : acos (x / r) <> PI).
      { intros E. rewrite E, cos_PI in Hca. assert (x / r * (x / r) = 1) by (rewrite <- Hca; ring). nra. }
      repeat split; try lra.
      + rewrite cos_neg. assumption.
      + rewrite sin_neg, Hsa. replace (1 - (x / r)²) with ((- (y / r)) * (- (y / r))) by (unfold Rsqr; lra).
        rewrite sqrt_square by lra. ring. }
  destruct Hex as [t [Ht [Hc Hs]]].
  assert (Ey : y = r * sin t) by (rewrite Hs; field; lra).
  assert (Ex : x = r * cos t) by (rewrite Hc; field; lra).
  assert (E : Ratan2 y x = t) by (rewrite Ey, Ex; apply Ratan2_polar; assumption).
  rewrite E. split; assumption.
Qed.
