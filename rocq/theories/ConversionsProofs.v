(** * Central meridian and symmetry of the UTM conversion (C70) *)

From Coq Require Import Reals ZArith Lia Lra List.
From Verif Require Import Scalar RBridge Conversions.
Local Open Scope R_scope.

(** The UTM conversion over the reals. *)
Definition utm (lat lon : R) : R * R := @UTM RScalar tan powerRZ lat lon.

Lemma trunc_pos lon : 0 <= lon -> IZR (Rtrunc lon) <= lon < IZR (Rtrunc lon) + 1 /\ (0 <= Rtrunc lon)%Z.
Proof.
  intros H. assert (B : IZR (Rtrunc lon) <= lon < IZR (Rtrunc lon) + 1).
  { unfold Rtrunc. destruct (Rle_dec 0 lon); [|lra]. pose proof (base_Int_part lon). lra. }
  split; [exact B|]. apply Z.lt_succ_r. apply lt_IZR. rewrite succ_IZR. lra.
Qed.
Lemma trunc_neg lon : lon < 0 -> IZR (Rtrunc lon) - 1 < lon <= IZR (Rtrunc lon) /\ (Rtrunc lon <= 0)%Z.
Proof.
  intros H. assert (B : IZR (Rtrunc lon) - 1 < lon <= IZR (Rtrunc lon)).
  { unfold Rtrunc. destruct (Rle_dec 0 lon); [lra|]. rewrite opp_IZR. pose proof (base_Int_part (- lon)). lra. }
  split; [exact B|]. apply Z.lt_succ_r. apply lt_IZR. rewrite succ_IZR. lra.
Qed.
Lemma Rint_bounds (lo : Z) lon (t : Z) : IZR lo <= lon -> lon < IZR t + 1 -> (lo <= t)%Z.
Proof. intros A B. apply Z.lt_succ_r, lt_IZR. rewrite succ_IZR. lra. Qed.

Lemma meridian_pos lon : 0 <= lon -> exists k, (0 <= k)%Z /\ @central_meridian RScalar lon = (6 * k + 3)%Z /\ IZR (6 * k) <= lon < IZR (6 * k + 6).
Proof.
  intros H. unfold central_meridian. cbn [s_leb RScalar s_ofZ s_trunc]. unfold Rleb. destruct (Rle_dec 0 lon) as [_|N]; [|lra].
  destruct (trunc_pos lon H) as ((A & B) & C). exists (Rtrunc lon / 6)%Z. rewrite Z.rem_mod_nonneg by lia.
  pose proof (Z.div_mod (Rtrunc lon) 6 ltac:(lia)) as D. pose proof (Z.mod_pos_bound (Rtrunc lon) 6 ltac:(lia)) as M.
  split; [apply Z.div_pos; lia|]. split; [lia|]. split.
  - apply Rle_trans with (IZR (Rtrunc lon)); [apply IZR_le; lia|exact A].
  - apply Rlt_le_trans with (IZR (Rtrunc lon) + 1); [exact B|]. rewrite <- (plus_IZR _ 1). apply IZR_le. lia.
Qed.
Lemma meridian_neg lon : lon < 0 -> exists k, (k <= 0)%Z /\ @central_meridian RScalar lon = (6 * k - 3)%Z /\ IZR (6 * k - 6) < lon <= IZR (6 * k).
Proof.
  intros H. unfold central_meridian. cbn [s_leb RScalar s_ofZ s_trunc]. unfold Rleb. destruct (Rle_dec 0 lon) as [N|_]; [lra|].
  destruct (trunc_neg lon H) as ((A & B) & C). set (t := Rtrunc lon) in *. exists (- ((- t) / 6))%Z.
  assert (E : Z.rem t 6 = (- ((- t) mod 6))%Z).
  { rewrite <- (Z.opp_involutive t) at 1. rewrite Z.rem_opp_l by lia. rewrite Z.rem_mod_nonneg by lia. reflexivity. }
  rewrite E. pose proof (Z.div_mod (- t) 6 ltac:(lia)) as D. pose proof (Z.mod_pos_bound (- t) 6 ltac:(lia)) as M.
  pose proof (Z.div_pos (- t) 6 ltac:(lia) ltac:(lia)). split; [lia|]. split; [lia|]. split.
  - apply Rle_lt_trans with (IZR t - 1); [|exact A]. rewrite <- (minus_IZR _ 1). apply IZR_le. lia.
  - apply Rle_trans with (IZR t); [exact B|]. apply IZR_le. lia.
Qed.

Theorem meridian_near lon : exists k, @central_meridian RScalar lon = (6 * k + 3)%Z /\
  Rabs (lon - IZR (@central_meridian RScalar lon)) <= 3.
Proof.
  destruct (Rle_dec 0 lon) as [H|H].
  - destruct (meridian_pos lon H) as (k & _ & -> & B). exists k. split; [reflexivity|]. rewrite !plus_IZR in *. apply Rabs_le. lra.
  - destruct (meridian_neg lon ltac:(lra)) as (k & _ & -> & B). exists (k - 1)%Z. split; [lia|]. rewrite !minus_IZR in *. apply Rabs_le. lra.
Qed.
(** The meridian is that of one of the sixty zones, except at 180 degrees. *)
Theorem meridian_zone lon : -180 < lon < 180 -> exists zone, (1 <= zone <= 60)%Z /\ @central_meridian RScalar lon = (6 * zone - 183)%Z.
Proof.
  intros B. destruct (Rle_dec 0 lon) as [H|H].
  - destruct (meridian_pos lon H) as (k & K0 & -> & L). exists (k + 31)%Z. split; [|lia].
    assert (6 * k < 180)%Z by (apply lt_IZR; lra). lia.
  - destruct (meridian_neg lon ltac:(lra)) as (k & K0 & -> & L). exists (k + 30)%Z. split; [|lia].
    assert (-180 < 6 * k)%Z by (apply lt_IZR; lra). lia.
Qed.
Theorem meridian_180 : @central_meridian RScalar 180 = 183%Z /\ @central_meridian RScalar (-180) = (-183)%Z.
Proof.
  split.
  - destruct (meridian_pos 180 ltac:(lra)) as (k & _ & -> & L). destruct L as (L1 & L2). apply le_IZR in L1. apply lt_IZR in L2. lia.
  - destruct (meridian_neg (-180) ltac:(lra)) as (k & _ & -> & L). destruct L as (L1 & L2). apply lt_IZR in L1. apply le_IZR in L2. lia.
Qed.
(** A longitude inside a zone has the meridian of the zone. *)
Lemma meridian_in k lon : IZR (6 * k) < lon < IZR (6 * k + 6) -> @central_meridian RScalar lon = (6 * k + 3)%Z.
Proof.
  intros B. destruct (Rle_dec 0 lon) as [H|H].
  - destruct (meridian_pos lon H) as (j & _ & -> & L).
    assert (6 * k < 6 * j + 6)%Z by (apply lt_IZR; lra). assert (6 * j < 6 * k + 6)%Z by (apply lt_IZR; lra). lia.
  - destruct (meridian_neg lon ltac:(lra)) as (j & _ & -> & L).
    assert (6 * k < 6 * j)%Z by (apply lt_IZR; lra). assert (6 * j - 6 < 6 * k + 6)%Z by (apply lt_IZR; lra). lia.
Qed.

(** ** Eastings and northings *)
Theorem utm_symmetric k lat d : -3 < d < 3 ->
  fst (utm lat (IZR (6 * k + 3) + d)) - 500000 = - (fst (utm lat (IZR (6 * k + 3) - d)) - 500000) /\
  snd (utm lat (IZR (6 * k + 3) + d)) = snd (utm lat (IZR (6 * k + 3) - d)).
Proof.
  intros H. unfold utm, UTM. cbv zeta.
  rewrite (meridian_in k (IZR (6 * k + 3) + d)), (meridian_in k (IZR (6 * k + 3) - d)) by (rewrite !plus_IZR; lra).
  cbn [fst snd RScalar s_add s_mul s_sub s_div s_opp s_ofZ s_sin s_cos s_sqrt s_ltb powerRZ Pos.to_nat Pos.iter_op Nat.add pow].
  set (r := @RADIANS_PER_DEGREE RScalar). set (c := IZR (6 * k + 3)).
  replace ((c + d) * r - c * r) with (d * r) by ring. replace ((c - d) * r - c * r) with (- (d * r)) by ring.
  assert (FE : @UTM_FE RScalar = 500000) by (unfold UTM_FE; rewrite lit_R; cbn; lra). rewrite FE.
  set (K0 := @UTM_K0 RScalar). set (A0 := @WGS84_A RScalar). set (E2 := @UTM_E2 RScalar). set (EP := @UTM_EP2 RScalar).
  set (q := sqrt _). set (cl := cos _). set (tl := tan _). unfold Rdiv. set (iq := / q). clearbody iq cl tl K0 A0 E2 EP r.
  change (Pos.to_nat 3) with 3%nat. change (Pos.to_nat 4) with 4%nat. change (Pos.to_nat 5) with 5%nat. change (Pos.to_nat 6) with 6%nat.
  split; ring.
Qed.
Theorem utm_meridian k lat : fst (utm lat (IZR (6 * k + 3))) = 500000.
Proof. destruct (utm_symmetric k lat 0 ltac:(lra)) as (A & _). rewrite Rplus_0_r, Rminus_0_r in A. lra. Qed.
(** The equator counts as southern. *)
Theorem utm_equator lon : snd (utm 0 lon) = 10000000.
Proof.
  unfold utm, UTM. cbv zeta. cbn [fst snd RScalar s_add s_mul s_sub s_div s_opp s_ofZ s_sin s_cos s_sqrt s_ltb].
  rewrite !Rmult_0_l, !Rmult_0_r, sin_0, tan_0, !Rmult_0_r. unfold Rltb. destruct (Rlt_dec 0 0) as [N|_]; [lra|].
  assert (FS : @UTM_FN_S RScalar = 10000000) by (unfold UTM_FN_S; rewrite lit_R; cbn; lra). rewrite FS. ring.
Qed.
