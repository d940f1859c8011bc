(** * IEEE comparisons order the numbers (and the infinities) totally *)

From Coq Require Import Reals ZArith Bool List Lra Lia Floats.
From Verif Require Import Scalar FloatScalar Mat FilterBase Estimator SpecEstimator.

Definition fkey (f : spec_float) : Z * Z * Z :=
  match f with
  | S754_infinity true => (-2, 0, 0)
  | S754_finite true m e => (-1, - e, - Zpos m)
  | S754_zero _ => (0, 0, 0)
  | S754_finite false m e => (1, e, Zpos m)
  | S754_infinity false => (2, 0, 0)
  | S754_nan => (0, 0, 0)
  end%Z.

Definition lexc (a b : Z * Z * Z) : comparison :=
  let '(a1, a2, a3) := a in let '(b1, b2, b3) := b in
  match Z.compare a1 b1 with
  | Eq => match Z.compare a2 b2 with Eq => Z.compare a3 b3 | c => c end
  | c => c
  end.

Definition lexle (a b : Z * Z * Z) : Prop :=
  let '(a1, a2, a3) := a in let '(b1, b2, b3) := b in
  (a1 < b1 \/ (a1 = b1 /\ (a2 < b2 \/ (a2 = b2 /\ a3 <= b3))))%Z.

Lemma lexc_le a b : lexc a b <> Gt <-> lexle a b.
Proof.
  destruct a as [[a1 a2] a3], b as [[b1 b2] b3]. unfold lexc, lexle.
  destruct (Z.compare_spec a1 b1); [destruct (Z.compare_spec a2 b2); [destruct (Z.compare_spec a3 b3)|..]|..];
    split; intros; try congruence; try lia.
Qed.
Lemma lexc_lt a b : lexc a b = Lt <-> ~ lexle b a.
Proof.
  destruct a as [[a1 a2] a3], b as [[b1 b2] b3]. unfold lexc, lexle.
  destruct (Z.compare_spec a1 b1); [destruct (Z.compare_spec a2 b2); [destruct (Z.compare_spec a3 b3)|..]|..];
    split; intros; try congruence; try lia.
Qed.
Lemma lexc_eq a b : lexc a b = Eq <-> (lexle a b /\ lexle b a).
Proof.
  destruct a as [[a1 a2] a3], b as [[b1 b2] b3]. unfold lexc, lexle.
  destruct (Z.compare_spec a1 b1); [destruct (Z.compare_spec a2 b2); [destruct (Z.compare_spec a3 b3)|..]|..];
    split; intros; try congruence; try lia.
Qed.
Lemma lexle_trans a b c : lexle a b -> lexle b c -> lexle a c.
Proof. destruct a as [[a1 a2] a3], b as [[b1 b2] b3], c as [[c1 c2] c3]. unfold lexle. lia. Qed.
Lemma lexle_total a b : lexle a b \/ lexle b a.
Proof. destruct a as [[a1 a2] a3], b as [[b1 b2] b3]. unfold lexle. lia. Qed.

Lemma SFcompare_key a b : a <> S754_nan -> b <> S754_nan ->
  SFcompare a b = Some (lexc (fkey a) (fkey b)).
Proof.
  intros Ha Hb. destruct a as [s|s| |s m e], b as [s'|s'| |s' m' e']; try congruence;
    try destruct s; try destruct s'; try reflexivity; cbn [SFcompare fkey lexc].
  - change (Z.compare (-1) (-1)) with Eq. cbv iota.
    rewrite Z.compare_opp, (Z.compare_antisym e e').
    destruct (Z.compare_spec e e'); cbn [CompOpp]; try reflexivity.
Qed.

Lemma isnan_SF (x : float) : PrimFloat.is_nan x = false -> Prim2SF x <> S754_nan.
Proof.
  unfold PrimFloat.is_nan. intros H. apply negb_false_iff in H. rewrite FloatAxioms.eqb_spec in H.
  intros E. rewrite E in H. discriminate.
Qed.

Lemma leb_key (x y : float) : PrimFloat.is_nan x = false -> PrimFloat.is_nan y = false ->
  PrimFloat.leb x y = true <-> lexle (fkey (Prim2SF x)) (fkey (Prim2SF y)).
Proof.
  intros Hx Hy. rewrite FloatAxioms.leb_spec. unfold SFleb.
  rewrite SFcompare_key by (apply isnan_SF; assumption). rewrite <- lexc_le.
  destruct (lexc _ _); split; congruence.
Qed.

Lemma float_order lm : order_ok (FScalar lm).
Proof.
  split; [|split; [|split]]; unfold FScalar; cbn [sc s_isnan s_leb s_ltb s_eqb].
  - intros a b Ha Hb. rewrite !leb_key by assumption. apply lexle_total.
  - intros a b c Ha Hb Hc. rewrite !leb_key by assumption. apply lexle_trans.
  - intros a b Ha Hb. pose proof (leb_key b a Hb Ha) as H. rewrite FloatAxioms.ltb_spec. unfold SFltb.
    rewrite SFcompare_key by (apply isnan_SF; assumption).
    pose proof (lexc_lt (fkey (Prim2SF a)) (fkey (Prim2SF b))) as H2.
    destruct (PrimFloat.leb b a); cbn [negb].
    + assert (lexc (fkey (Prim2SF a)) (fkey (Prim2SF b)) <> Lt) by tauto. destruct (lexc _ _); congruence.
    + assert (E : lexc (fkey (Prim2SF a)) (fkey (Prim2SF b)) = Lt).
      { apply H2. intros H3. apply H in H3. discriminate. }
      rewrite E. reflexivity.
  - intros a b Ha Hb. pose proof (leb_key b a Hb Ha) as H. pose proof (leb_key a b Ha Hb) as H'.
    rewrite FloatAxioms.eqb_spec. unfold SFeqb.
    rewrite SFcompare_key by (apply isnan_SF; assumption).
    pose proof (lexc_eq (fkey (Prim2SF a)) (fkey (Prim2SF b))) as H2.
    destruct (PrimFloat.leb a b), (PrimFloat.leb b a); cbn [andb].
    + assert (E : lexc (fkey (Prim2SF a)) (fkey (Prim2SF b)) = Eq) by tauto. rewrite E. reflexivity.
    + assert (lexc (fkey (Prim2SF a)) (fkey (Prim2SF b)) <> Eq) by (intros E; apply H2 in E; intuition congruence).
      destruct (lexc _ _); congruence.
    + assert (lexc (fkey (Prim2SF a)) (fkey (Prim2SF b)) <> Eq) by (intros E; apply H2 in E; intuition congruence).
      destruct (lexc _ _); congruence.
    + assert (lexc (fkey (Prim2SF a)) (fkey (Prim2SF b)) <> Eq) by (intros E; apply H2 in E; intuition congruence).
      destruct (lexc _ _); congruence.
Qed.

Lemma real_order : order_ok RScalar.
Proof.
  split; [|split; [|split]]; unfold RScalar; cbn [sc s_isnan s_leb s_ltb s_eqb]; unfold Rleb, Rltb, Reqb.
  - intros a b _ _. destruct (Rle_dec a b), (Rle_dec b a); auto. lra.
  - intros a b c _ _ _. destruct (Rle_dec a b), (Rle_dec b c), (Rle_dec a c); try congruence. lra.
  - intros a b _ _. destruct (Rlt_dec a b), (Rle_dec b a); try reflexivity; lra.
  - intros a b _ _. destruct (Req_EM_T a b), (Rle_dec a b), (Rle_dec b a); try reflexivity; lra.
Qed.
