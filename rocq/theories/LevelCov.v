(** * Covariances under turns about the vertical axis (C94) *)

From Coq Require Import Reals ZArith List Bool Lia Lra String Arith FunctionalExtensionality.
From Verif Require Import Scalar Mat Tf FilterBase StrMap RosFilter RosConfig ForceTwoD RosPrepare
  SpecConfig SpecNode SpecTf SpecLin SpecFilter SpecPrepare SpecLevel
  RBridge RLin EkfPsd Pdef TwoD TfReal TfRot Trig PrepareProofs PrepareReal.
Import ListNotations.
Local Open Scope R_scope.

(** ** Turns *)
Lemma upright_form (m : M3) : rotation m -> turn m (v3 0 0 1) = v3 0 0 1 ->
  exists c s, c * c + s * s = 1 /\ m = @mkM3 RScalar (v3 c (- s) 0) (v3 s c 0) (v3 0 0 1).
Proof.
  destruct m as [[a b x] [d e y] [f g z]]. unfold rotation, turn, inner, cross3, v3, X, Y, Z3. cbn.
  intros (H1 & H2 & H3 & H4 & H5 & H6 & H7) HU.
  assert (x = 0) by (apply (f_equal (@v3x RScalar)) in HU; cbn in HU; lra).
  assert (y = 0) by (apply (f_equal (@v3y RScalar)) in HU; cbn in HU; lra).
  assert (z = 1) by (apply (f_equal (@v3z RScalar)) in HU; cbn in HU; lra). subst.
  change (sc RScalar) with R in *.
  assert (f = 0 /\ g = 0) as [-> ->].
  { pose proof (Rle_0_sqr f) as Hf. pose proof (Rle_0_sqr g) as Hg. unfold Rsqr in Hf, Hg.
    split; apply Rsqr_0_uniq; unfold Rsqr; lra. }
  assert (e = a /\ d = - b) as [-> ->].
  { assert (Hs : (e - a) * (e - a) + (d + b) * (d + b) = 0)
      by (replace ((e - a) * (e - a) + (d + b) * (d + b)) with ((d * d + e * e) + (a * a + b * b) - 2 * (a * e - b * d)) by ring; lra).
    pose proof (Rle_0_sqr (e - a)) as He. pose proof (Rle_0_sqr (d + b)) as Hd. unfold Rsqr in He, Hd.
    split; apply Rminus_diag_uniq; apply Rsqr_0_uniq; unfold Rsqr; [|unfold Rminus; rewrite Ropp_involutive]; lra. }
  exists a, (- b). split; [lra|]. rewrite !Ropp_involutive. reflexivity.
Qed.

Definition yaw6 (c s : R) : rmat := fun i j =>
  match i, j with
  | 0%nat, 0%nat | 1%nat, 1%nat | 3%nat, 3%nat | 4%nat, 4%nat => c
  | 0%nat, 1%nat | 3%nat, 4%nat => - s
  | 1%nat, 0%nat | 4%nat, 3%nat => s
  | 2%nat, 2%nat | 5%nat, 5%nat => 1
  | _, _ => 0
  end.

Lemma rot6_yaw c s : meq 6 6 (@rot6 RScalar (@mkM3 RScalar (v3 c (- s) 0) (v3 s c 0) (v3 0 0 1))) (yaw6 c s).
Proof.
  intros i j Hi Hj. do 6 (destruct i as [|i]; [do 6 (destruct j as [|j]; [reflexivity|]); lia|]). lia.
Qed.
Lemma rot3_yaw c s : meq 3 3 (@rot3 RScalar (@mkM3 RScalar (v3 c (- s) 0) (v3 s c 0) (v3 0 0 1))) (yaw6 c s).
Proof.
  intros i j Hi Hj. do 3 (destruct i as [|i]; [do 3 (destruct j as [|j]; [reflexivity|]); lia|]). lia.
Qed.
Lemma yaw6_T c s : meq 6 6 (rT (yaw6 c s)) (yaw6 c (- s)).
Proof.
  intros i j Hi Hj. unfold rT.
  do 6 (destruct i as [|i]; [do 6 (destruct j as [|j]; [cbn; lra|]); lia|]). lia.
Qed.

(** ** Level covariances *)
Lemma level_ext n A B : (2 < n)%nat -> meq n n A B -> level_cov n A -> level_cov n B.
Proof.
  intros Hn H (L1 & L2 & L3 & L4 & L5).
  split; [eapply psd_ext; eassumption|]. split; [|split; [|split]].
  - intros i j Hi Hj Hv Hne. rewrite <- H by assumption. apply L2; assumption.
  - intros Hn'. rewrite <- !H by lia. apply L3, Hn'.
  - rewrite <- !H by lia. exact L4.
  - intros v Hv i Hi Hf Hc. rewrite <- (quad_ext n A B v H) in Hv. rewrite <- H in Hc by assumption. eapply L5; eassumption.
Qed.

Lemma psd_zero_pair n (A : rmat) i j : psd n A -> (i < n)%nat -> (j < n)%nat -> A i i = 0 -> A i j = 0.
Proof.
  intros HA Hi Hj H0. destruct (Nat.eq_dec i j) as [<-|Hne]; [exact H0|].
  pose proof HA as [HS HQ].
  assert (Q : forall t, 0 <= t * t * A j j + 2 * t * A i j).
  { intros t. pose proof (psd_sub [i; j] A n) as P. destruct P as [_ P]; [|exact HA|].
    - intros a [<-|[<-|[]]]; assumption.
    - specialize (P (fun k => if Nat.eqb k 0 then 1 else t)). unfold quad in P. cbn in P.
      rewrite (HS j i Hj Hi), H0 in P. nra. }
  assert (Q' : forall t, 0 <= A j j + 2 * t * A i j).
  { intros t. destruct (Req_dec t 0) as [->|Ht].
    - pose proof (Q 1). pose proof (Q (-1)). lra.
    - specialize (Q (/ t)). assert (t * t * (/ t * / t * A j j + 2 * / t * A i j) = A j j + 2 * t * A i j) by (field; exact Ht).
      assert (0 <= t * t) by nra. nra. }
  destruct (Req_dec (A i j) 0) as [E|E]; [exact E|exfalso].
  pose proof (Q' ((- A j j - 1) / (2 * A i j))) as P.
  assert (2 * ((- A j j - 1) / (2 * A i j)) * A i j = - A j j - 1) by (field; exact E). lra.
Qed.

Section Turn.
Variables c s : R.
Hypothesis Hcs : c * c + s * s = 1.

Lemma yaw_mv n v : (n = 3 \/ n = 6)%nat ->
  rmv n (rT (yaw6 c s)) v 0%nat = c * v 0%nat + s * v 1%nat /\
  rmv n (rT (yaw6 c s)) v 1%nat = c * v 1%nat - s * v 0%nat /\
  (n = 6%nat -> rmv n (rT (yaw6 c s)) v 5%nat = v 5%nat).
Proof. unfold rmv, rT. intros [->| ->]; cbn [rsum yaw6]; repeat split; try discriminate; intros; ring. Qed.

Lemma yaw_entry n (C : rmat) i j : (n = 3 \/ n = 6)%nat -> (i < n)%nat -> (j < n)%nat ->
  rmul n (rmul n (yaw6 c s) C) (rT (yaw6 c s)) i j =
  rsum n (fun l => rsum n (fun k => yaw6 c s i k * C k l) * yaw6 c s j l).
Proof. reflexivity. Qed.

Lemma level_yaw n (C : rmat) : (n = 3 \/ n = 6)%nat -> level_cov n C ->
  level_cov n (rmul n (rmul n (yaw6 c s) C) (rT (yaw6 c s))).
Proof.
  intros Hn (L1 & L2 & L3 & L4 & L5). pose proof L1 as [HS _].
  assert (H2 : (2 < n)%nat) by lia.
  assert (Z : forall i j, (i < n)%nat -> (j < n)%nat -> vertical j = true -> i <> j -> C i j = 0).
  { intros i j Hi Hj Hv Hne. rewrite HS by assumption. apply L2; auto. }
  set (C' := rmul n (rmul n (yaw6 c s) C) (rT (yaw6 c s))).
  assert (P' : psd n C') by (apply psd_sandwich; exact L1).
  assert (D0 : C' 0%nat 0%nat = c * c * C 0%nat 0%nat - 2 * c * s * C 0%nat 1%nat + s * s * C 1%nat 1%nat).
  { pose proof (HS 0%nat 1%nat ltac:(lia) ltac:(lia)) as E. unfold C', rmul, rT. destruct Hn as [->| ->]; cbn [rsum yaw6]; rewrite E; ring. }
  assert (D1 : C' 1%nat 1%nat = s * s * C 0%nat 0%nat + 2 * c * s * C 0%nat 1%nat + c * c * C 1%nat 1%nat).
  { pose proof (HS 0%nat 1%nat ltac:(lia) ltac:(lia)) as E. unfold C', rmul, rT. destruct Hn as [->| ->]; cbn [rsum yaw6]; rewrite E; ring. }
  assert (Q : forall v, quad n C' v = quad n C (rmv n (rT (yaw6 c s)) v)) by (intros v; apply quad_sandwich).
  assert (E0 : C 0%nat 0%nat = 0 -> C' 0%nat 0%nat = 0 /\ C' 1%nat 1%nat = 0).
  { intros H0. rewrite D0, D1, H0, (proj1 L4 H0), (psd_zero_pair n C 0 1 L1) by (try exact H0; lia). split; ring. }
  (* a vanishing diagonal entry of the turned matrix *)
  assert (E1 : C 0%nat 0%nat <> 0 -> C' 0%nat 0%nat <> 0 /\ C' 1%nat 1%nat <> 0).
  { intros H0. assert (H1 : C 1%nat 1%nat <> 0) by tauto.
    assert (G : forall k, (k = 0 \/ k = 1)%nat -> C' k k <> 0).
    { intros k Hk Hz. set (v := fun i : nat => if Nat.eqb i k then 1 else 0).
      assert (Qv : quad n C' v = C' k k).
      { unfold quad. rewrite (rsum_single n k); [|lia|].
        - rewrite (rsum_single n k); [|lia|]; [unfold v; rewrite Nat.eqb_refl; ring|].
          intros i Hi Hne. unfold v. apply Nat.eqb_neq in Hne. rewrite Hne. ring.
        - intros i Hi Hne. apply rsum_zero. intros j Hj. unfold v. apply Nat.eqb_neq in Hne. rewrite Hne. ring. }
      rewrite Hz, Q in Qv. destruct (yaw_mv n v Hn) as (V0 & V1 & _).
      pose proof (L5 _ Qv 0%nat ltac:(lia) eq_refl H0) as A0. pose proof (L5 _ Qv 1%nat ltac:(lia) eq_refl H1) as A1.
      rewrite V0 in A0. rewrite V1 in A1. unfold v in A0, A1. destruct Hk as [->| ->]; cbn in A0, A1; nra. }
    split; apply G; auto. }
  split; [exact P'|]. split; [|split; [|split]].
  - intros i j Hi Hj Hv Hne. unfold C'. rewrite yaw_entry by assumption.
    destruct Hn as [->| ->].
    + destruct i as [|[|[|i]]]; try discriminate; [|lia].
      destruct j as [|[|[|j]]]; try lia; cbn [rsum yaw6];
        rewrite ?(L2 2%nat 0%nat), ?(L2 2%nat 1%nat) by (auto; lia); ring.
    + destruct i as [|[|[|[|[|[|i]]]]]]; try discriminate; try lia;
        (destruct j as [|[|[|[|[|[|j]]]]]]; try lia); cbn [rsum yaw6];
        rewrite ?(L2 2%nat 0%nat), ?(L2 2%nat 1%nat), ?(L2 2%nat 3%nat), ?(L2 2%nat 4%nat), ?(L2 2%nat 5%nat),
                ?(L2 3%nat 0%nat), ?(L2 3%nat 1%nat), ?(L2 3%nat 2%nat), ?(L2 3%nat 4%nat), ?(L2 3%nat 5%nat),
                ?(L2 4%nat 0%nat), ?(L2 4%nat 1%nat), ?(L2 4%nat 2%nat), ?(L2 4%nat 3%nat), ?(L2 4%nat 5%nat) by (auto; lia);
        rewrite ?L3 by lia; ring.
  - intros Hn'. destruct Hn as [->| ->]; [lia|]. unfold C'. rewrite !yaw_entry by lia. cbn [rsum yaw6].
    rewrite ?(L2 3%nat 4%nat), ?(L2 4%nat 3%nat) by (auto; lia). rewrite L3 by lia. ring.
  - destruct (Req_dec (C 0%nat 0%nat) 0) as [H0|H0]; [destruct (E0 H0)|destruct (E1 H0)]; tauto.
  - intros v Hv i Hi Hf Hc. rewrite Q in Hv. destruct (yaw_mv n v Hn) as (V0 & V1 & V5).
    destruct (Req_dec (C 0%nat 0%nat) 0) as [H0|H0].
    + destruct (E0 H0) as [Z0 Z1].
      destruct i as [|[|[|[|[|[|i]]]]]]; try discriminate; try contradiction; [|lia].
      assert (En : n = 6%nat) by lia. rewrite <- (V5 En).
      apply (L5 _ Hv 5%nat ltac:(lia) eq_refl). intros H5. apply Hc.
      subst n. unfold C'. rewrite yaw_entry by (auto; lia). cbn [rsum yaw6].
      assert (R5 : forall j, (j < 6)%nat -> C 5%nat j = 0) by (intros j Hj; apply (psd_zero_pair 6 C 5 j L1); auto).
      rewrite !R5 by lia. ring.
    + assert (H1 : C 1%nat 1%nat <> 0) by tauto.
      pose proof (L5 _ Hv 0%nat ltac:(lia) eq_refl H0) as A0. pose proof (L5 _ Hv 1%nat ltac:(lia) eq_refl H1) as A1.
      rewrite V0 in A0. rewrite V1 in A1.
      assert (v 0%nat = 0) by (replace (v 0%nat) with (c * (c * v 0%nat + s * v 1%nat) - s * (c * v 1%nat - s * v 0%nat)) by (transitivity ((c * c + s * s) * v 0%nat); [ring|rewrite Hcs; ring]); rewrite A0, A1; ring).
      assert (v 1%nat = 0) by (replace (v 1%nat) with (s * (c * v 0%nat + s * v 1%nat) + c * (c * v 1%nat - s * v 0%nat)) by (transitivity ((c * c + s * s) * v 1%nat); [ring|rewrite Hcs; ring]); rewrite A0, A1; ring).
      destruct i as [|[|[|[|[|[|i]]]]]]; try discriminate; try assumption; [|lia].
      assert (En : n = 6%nat) by lia. rewrite <- (V5 En).
      apply (L5 _ Hv 5%nat ltac:(lia) eq_refl). intros H5. apply Hc.
      subst n. unfold C'. rewrite yaw_entry by (auto; lia). cbn [rsum yaw6].
      assert (R5 : forall j, (j < 6)%nat -> C 5%nat j = 0) by (intros j Hj; apply (psd_zero_pair 6 C 5 j L1); auto).
      rewrite !R5 by lia. ring.
Qed.
End Turn.

Lemma level_rotate6 (m : M3) C : rotation m -> turn m (v3 0 0 1) = v3 0 0 1 -> level_cov 6 C ->
  level_cov 6 (@rotateCov RScalar 6 (@rot6 RScalar m) C) /\ level_cov 6 (@rotateCov RScalar 6 (mT (@rot6 RScalar m)) C).
Proof.
  intros HR HU HC. destruct (upright_form m HR HU) as (c & s & Hcs & ->). split.
  - eapply level_ext; [lia| |apply (level_yaw c s Hcs 6 C); [lia|exact HC]].
    intros i j Hi Hj. rewrite <- rotateCov_R. apply rotate_ext; try assumption; [|intros ? ? ? ?; reflexivity].
    intros a b Ha Hb. symmetry. apply rot6_yaw; assumption.
  - assert (Hcs' : c * c + (- s) * (- s) = 1) by lra.
    eapply level_ext; [lia| |apply (level_yaw c (- s) Hcs' 6 C); [lia|exact HC]].
    intros i j Hi Hj. rewrite <- rotateCov_R. apply rotate_ext; try assumption; [|intros ? ? ? ?; reflexivity].
    intros a b Ha Hb. rewrite <- yaw6_T by assumption. unfold rT, mT. symmetry. apply rot6_yaw; assumption.
Qed.
Lemma level_rotate3 (m : M3) C : rotation m -> turn m (v3 0 0 1) = v3 0 0 1 -> level_cov 3 C ->
  level_cov 3 (@rotateCov RScalar 3 (@rot3 RScalar m) C).
Proof.
  intros HR HU HC. destruct (upright_form m HR HU) as (c & s & Hcs & ->).
  eapply level_ext; [lia| |apply (level_yaw c s Hcs 3 C); [lia|exact HC]].
  intros i j Hi Hj. rewrite <- rotateCov_R. apply rotate_ext; try assumption; [|intros ? ? ? ?; reflexivity].
  intros a b Ha Hb. symmetry. apply rot3_yaw; assumption.
Qed.

Lemma psd_diag_nonneg n (A : rmat) i : psd n A -> (i < n)%nat -> 0 <= A i i.
Proof.
  intros HA Hi. pose proof (psd_sub [i] A n) as P. destruct P as [_ P]; [intros a [<-|[]]; exact Hi|exact HA|].
  specialize (P (fun _ => 1)). unfold quad in P. cbn in P. lra.
Qed.
Lemma level_sum n (A B : rmat) d : (2 < n)%nat -> 0 <= d -> level_cov n A -> level_cov n B ->
  level_cov n (fun i j => d * (A i j + B i j)).
Proof.
  intros Hn Hd (A1 & A2 & A3 & A4 & A5) (B1 & B2 & B3 & B4 & B5).
  destruct (Req_dec d 0) as [->|Hd0].
  { split; [eapply psd_ext; [|apply psd_zero]; intros i j _ _; cbn; ring|].
    split; [intros; ring|]. split; [intros; ring|]. split; [split; intros; ring|].
    intros v _ i _ _ H. exfalso. apply H. ring. }
  assert (Pd : 0 < d) by lra.
  assert (N : forall i, (i < n)%nat -> (d * (A i i + B i i) = 0 <-> A i i = 0 /\ B i i = 0)).
  { intros i Hi. pose proof (psd_diag_nonneg n A i A1 Hi). pose proof (psd_diag_nonneg n B i B1 Hi).
    split; [intros Hz; apply Rmult_integral in Hz; lra|intros [-> ->]; ring]. }
  split; [apply psd_scale; [exact Hd|apply psd_plus; assumption]|].
  split; [intros i j Hi Hj Hv Hne; rewrite A2, B2 by assumption; ring|].
  split; [intros H; rewrite (A3 H), (B3 H); ring|]. split; [rewrite !N by lia; tauto|].
  intros v Hv i Hi Hf Hc. rewrite quad_scale, quad_plus in Hv. apply Rmult_integral in Hv. destruct Hv as [Hv|Hv]; [lra|].
  pose proof (proj2 A1 v). pose proof (proj2 B1 v).
  assert (QA : quad n A v = 0) by lra. assert (QB : quad n B v = 0) by lra.
  destruct (Req_dec (A i i) 0) as [Za|Na]; [|exact (A5 v QA i Hi Hf Na)].
  apply (B5 v QB i Hi Hf). intros Zb. apply Hc. apply N; auto.
Qed.

(** ** The covariance of a measurement in two_d_mode *)
Definition laid (o n : nat) (B A : rmat) : Prop :=
  forall i j, (i < 15)%nat -> (j < 15)%nat ->
    A i j = if (vertical i && Nat.eqb i j)%bool then / 1000000 else @set_block RScalar mzero o n B i j.
Definition fits (o n : nat) : Prop := (o = 0 /\ n = 6 \/ o = 6 /\ n = 6 \/ o = 12 /\ n = 3)%nat.

Lemma vertical_shift o n i : fits o n -> (i < n)%nat -> vertical (o + i) = vertical i.
Proof.
  intros [[-> ->]|[[-> ->]|[-> ->]]] Hi; [reflexivity| |];
    do 6 (destruct i as [|i]; [reflexivity || lia|]); lia.
Qed.

Section Laid.
Variables (o n : nat) (B A : rmat).
Hypothesis Hf : fits o n.
Hypothesis HB : level_cov n B.
Hypothesis HA : laid o n B A.

Let inside i := (Nat.leb o i && Nat.ltb i (o + n))%bool.
Lemma fits_le : (o + n <= 15)%nat. Proof. destruct Hf as [|[|]]; lia. Qed.
Lemma block_inside i j : inside i = true -> inside j = true -> @set_block RScalar mzero o n B i j = B (i - o)%nat (j - o)%nat.
Proof. unfold inside, set_block. intros Hi Hj. rewrite <- (andb_assoc (_ && _)), Hi, Hj. reflexivity. Qed.
Lemma block_outside i j : inside i = false \/ inside j = false -> @set_block RScalar mzero o n B i j = 0.
Proof.
  unfold inside, set_block. intros H. rewrite <- (andb_assoc (_ && _)).
  destruct H as [-> | ->]; rewrite ?andb_false_r; reflexivity.
Qed.
Lemma inside_range i : inside i = true -> (o <= i < o + n)%nat.
Proof. unfold inside. rewrite andb_true_iff, Nat.leb_le, Nat.ltb_lt. lia. Qed.
Lemma inside_vertical i : inside i = true -> vertical (i - o) = vertical i.
Proof. intros H. apply inside_range in H. rewrite <- (vertical_shift o n (i - o) Hf) by lia. f_equal. lia. Qed.

(** No correlation between vertical variables and any other. *)
Lemma laid_apart i j : (i < 15)%nat -> (j < 15)%nat -> vertical i = true \/ vertical j = true -> i <> j -> A i j = 0.
Proof.
  intros Hi Hj Hv Hne. rewrite HA by assumption. apply Nat.eqb_neq in Hne as Hb. rewrite Hb, andb_false_r.
  destruct (inside i) eqn:Ii; [|apply block_outside; auto]. destruct (inside j) eqn:Ij; [|apply block_outside; auto].
  rewrite block_inside by assumption. apply inside_range in Ii as Ri. apply inside_range in Ij as Rj.
  destruct HB as ([HS _] & L2 & _). destruct Hv as [Hv|Hv].
  - apply L2; try lia. rewrite inside_vertical; assumption.
  - rewrite HS by lia. apply L2; try lia. rewrite inside_vertical; assumption.
Qed.
Lemma laid_decoupled : decoupled 15 vertical A.
Proof.
  intros i j Hi Hj Hne. apply laid_apart; try assumption.
  - destruct (vertical i); [left; reflexivity|]. destruct (vertical j); [right; reflexivity|congruence].
  - intros ->. apply Hne. reflexivity.
Qed.

(** The quadratic form: the vertical variables by themselves, the others by [B]. *)
Definition flatten (v : rvec) : rvec := fun i => if vertical i then 0 else v (o + i)%nat.
Lemma laid_quad v : quad 15 A v =
  quad n B (flatten v) + rsum 15 (fun i => (if vertical i then / 1000000 else 0) * (v i * v i)).
Proof.
  rewrite <- quad_diag.
  assert (EB : quad n B (flatten v) = quad 15 (@set_block RScalar mzero o n B) (fun i => if vertical i then 0 else v i)).
  { pose proof fits_le. unfold quad at 2.
    replace 15%nat with (o + (n + (15 - (o + n))))%nat by lia.
    rewrite rsum_app, rsum_app.
    rewrite (rsum_zero o). 2:{ intros i Hi. apply rsum_zero. intros j Hj. rewrite block_outside; [ring|].
      left. unfold inside. apply andb_false_iff. left. apply Nat.leb_gt. exact Hi. }
    rewrite (rsum_zero (15 - (o + n))). 2:{ intros i Hi. apply rsum_zero. intros j Hj. rewrite block_outside; [ring|].
      left. unfold inside. apply andb_false_iff. right. apply Nat.ltb_ge. lia. }
    rewrite Rplus_0_l, Rplus_0_r. unfold quad. apply rsum_ext. intros i Hi.
    rewrite rsum_app, rsum_app.
    rewrite (rsum_zero o). 2:{ intros j Hj. rewrite block_outside; [ring|].
      right. unfold inside. apply andb_false_iff. left. apply Nat.leb_gt. exact Hj. }
    rewrite (rsum_zero (15 - (o + n))). 2:{ intros j Hj. rewrite block_outside; [ring|].
      right. unfold inside. apply andb_false_iff. right. apply Nat.ltb_ge. lia. }
    rewrite Rplus_0_l, Rplus_0_r. apply rsum_ext. intros j Hj.
    assert (I : forall k, (k < n)%nat -> inside (o + k) = true).
    { intros k Hk. unfold inside. apply andb_true_iff. split; [apply Nat.leb_le|apply Nat.ltb_lt]; lia. }
    rewrite block_inside by (apply I; assumption). rewrite !(vertical_shift o n) by (assumption || exact Hf).
    replace (o + i - o)%nat with i by lia. replace (o + j - o)%nat with j by lia. unfold flatten. reflexivity. }
  rewrite EB. unfold quad. rewrite <- rsum_plus. apply rsum_ext. intros i Hi. rewrite <- rsum_plus. apply rsum_ext. intros j Hj.
  destruct (Nat.eq_dec i j) as [<-|Hne].
  - rewrite Nat.eqb_refl. destruct (vertical i) eqn:Hv; rewrite HA by assumption; rewrite Hv, Nat.eqb_refl; cbn [andb]; ring.
  - apply Nat.eqb_neq in Hne as Hb. rewrite Hb.
    destruct (vertical i) eqn:Vi; [rewrite laid_apart by auto; ring|].
    destruct (vertical j) eqn:Vj; [rewrite laid_apart by auto; ring|].
    rewrite HA by assumption. rewrite Vi. cbn [andb]. ring.
Qed.
Lemma laid_sym : symmetric 15 A.
Proof.
  intros i j Hi Hj. destruct (Nat.eq_dec i j) as [<-|Hne]; [reflexivity|].
  destruct (vertical i) eqn:Vi; [rewrite !laid_apart by auto; reflexivity|].
  destruct (vertical j) eqn:Vj; [rewrite !laid_apart by auto; reflexivity|].
  rewrite !HA by assumption. rewrite Vi, Vj. cbn [andb].
  destruct (inside i) eqn:Ii; [|rewrite !block_outside by auto; reflexivity].
  destruct (inside j) eqn:Ij; [|rewrite !block_outside by auto; reflexivity].
  rewrite !block_inside by assumption. apply inside_range in Ii, Ij. destruct HB as ([HS _] & _). apply HS; lia.
Qed.
Lemma laid_psd : psd 15 A.
Proof.
  split; [exact laid_sym|]. intros v. rewrite laid_quad. apply Rplus_le_le_0_compat; [apply HB|].
  apply rsum_nonneg. intros i Hi. destruct (vertical i); pose proof (Rle_0_sqr (v i)) as Hs; unfold Rsqr in Hs; nra.
Qed.

(** With repaired variances it is positive definite. *)
Lemma laid_pdef : pdef 15 (fun i j => if Nat.eqb i j then Rmax (Rabs (A i i)) (/ 1000000000) else A i j).
Proof.
  pose proof laid_psd as HP.
  set (d := fun i => Rmax (Rabs (A i i)) (/ 1000000000) - A i i).
  assert (Hd : forall i, (i < 15)%nat -> 0 <= d i /\ (A i i = 0 -> 0 < d i)).
  { intros i Hi. unfold d. pose proof (psd_diag_nonneg 15 A i HP Hi) as Hp. rewrite Rabs_right by lra. split.
    - pose proof (Rmax_l (A i i) (/ 1000000000)). lra.
    - intros ->. rewrite Rmax_right by lra. lra. }
  assert (EQ : forall x, quad 15 (fun i j => if Nat.eqb i j then Rmax (Rabs (A i i)) (/ 1000000000) else A i j) x =
    quad 15 A x + rsum 15 (fun i => d i * (x i * x i))).
  { intros x. rewrite <- quad_diag, <- quad_plus. apply quad_ext. intros i j Hi Hj.
    destruct (Nat.eqb_spec i j) as [->|Hne]; unfold d; ring. }
  split.
  { intros i j Hi Hj. rewrite (Nat.eqb_sym j i). destruct (Nat.eqb_spec i j) as [->|Hne]; [reflexivity|]. apply laid_sym; assumption. }
  intros x (k & Hk & Hx). rewrite EQ.
  assert (N1 : 0 <= quad 15 A x) by apply HP.
  assert (T : forall i, (i < 15)%nat -> 0 <= d i * (x i * x i)).
  { intros i Hi. destruct (Hd i Hi) as [D _]. pose proof (Rle_0_sqr (x i)) as Hs. unfold Rsqr in Hs. nra. }
  assert (N2 : 0 <= rsum 15 (fun i => d i * (x i * x i))) by (apply rsum_nonneg; exact T).
  destruct (Rle_lt_or_eq_dec 0 (quad 15 A x + rsum 15 (fun i => d i * (x i * x i)))) as [L|Z]; [lra|exact L|exfalso].
  assert (Q0 : quad 15 A x = 0) by lra. assert (S0 : rsum 15 (fun i => d i * (x i * x i)) = 0) by lra.
  assert (Each : forall f m, (forall i, (i < m)%nat -> 0 <= f i) -> rsum m f = 0 -> forall i, (i < m)%nat -> f i = 0).
  { clear. intros f m. induction m as [|m IH]; intros Hn Hz i Hi; [lia|]. cbn in Hz.
    assert (0 <= rsum m f) by (apply rsum_nonneg; intros; apply Hn; lia). pose proof (Hn m ltac:(lia)).
    destruct (Nat.eq_dec i m) as [->|]; [lra|]. apply IH; [intros; apply Hn; lia|lra|lia]. }
  rewrite laid_quad in Q0.
  set (g := fun i => (if vertical i then / 1000000 else 0) * (x i * x i)) in Q0.
  assert (Tg : forall i, (i < 15)%nat -> 0 <= g i).
  { intros i Hi. unfold g. pose proof (Rle_0_sqr (x i)) as Hs. unfold Rsqr in Hs. destruct (vertical i); nra. }
  pose proof (rsum_nonneg 15 g Tg) as Ng. pose proof (proj2 (proj1 HB) (flatten x)) as Nb.
  assert (Zg : rsum 15 g = 0) by lra. assert (Zb : quad n B (flatten x) = 0) by lra.
  assert (Xk : x k * x k <> 0) by (intros Hz; apply Rmult_integral in Hz; tauto).
  destruct (vertical k) eqn:Vk.
  { pose proof (Each g 15%nat Tg Zg k Hk) as G. unfold g in G. rewrite Vk in G. apply Rmult_integral in G. destruct G; [lra|tauto]. }
  destruct (Req_dec (A k k) 0) as [Z0|N0].
  { pose proof (Each _ 15%nat T S0 k Hk) as G. cbn beta in G. apply Rmult_integral in G. pose proof (proj2 (Hd k Hk) Z0). destruct G; [lra|tauto]. }
  rewrite HA in N0 by assumption. rewrite Vk in N0. cbn [andb] in N0.
  destruct (inside k) eqn:Ik; [|apply N0; apply block_outside; auto].
  rewrite block_inside in N0 by assumption. apply inside_range in Ik as Rk.
  destruct HB as (_ & _ & _ & _ & L5).
  assert (Vo : vertical (k - o) = false) by (rewrite inside_vertical; assumption).
  pose proof (L5 _ Zb (k - o)%nat ltac:(lia) Vo N0) as F.
  unfold flatten in F. rewrite Vo in F. replace (o + (k - o))%nat with k in F by lia. contradiction.
Qed.
End Laid.

(** Positive definiteness of a selection of rows. *)
Lemma pdef_sub (idx : list nat) (C : rmat) N : NoDup idx -> (forall a, In a idx -> (a < N)%nat) -> pdef N C ->
  pdef (List.length idx) (fun a b => C (nth a idx 0%nat) (nth b idx 0%nat)).
Proof.
  intros HN Hin [HS HQ]. set (k := List.length idx).
  assert (Hlt : forall a, (a < k)%nat -> (nth a idx 0 < N)%nat) by (intros a Ha; apply Hin, nth_In, Ha).
  split; [intros a b Ha Hb; apply HS; apply Hlt; assumption|].
  intros x (a & Ha & Hx).
  set (H := fun (a : nat) (j : nat) => if Nat.eqb (nth a idx 0%nat) j then 1 else 0).
  assert (EQ : quad k (fun a b => C (nth a idx 0%nat) (nth b idx 0%nat)) x = quad N C (rmv k (rT H) x)).
  { rewrite <- quad_sandwich. apply quad_ext. intros i j Hi Hj. unfold rmul, rT, H.
    rewrite (rsum_single N (nth j idx 0%nat)); [|apply Hlt, Hj|].
    - rewrite Nat.eqb_refl, Rmult_1_r. rewrite (rsum_single N (nth i idx 0%nat)); [|apply Hlt, Hi|].
      + rewrite Nat.eqb_refl. ring.
      + intros l Hl Hne. assert (Nat.eqb (nth i idx 0%nat) l = false) as -> by (apply Nat.eqb_neq; congruence). ring.
    - intros l Hl Hne. assert (Nat.eqb (nth j idx 0%nat) l = false) as -> by (apply Nat.eqb_neq; congruence). ring. }
  rewrite EQ. apply HQ. exists (nth a idx 0%nat). split; [apply Hlt, Ha|].
  assert (rmv k (rT H) x (nth a idx 0%nat) = x a) as ->; [|exact Hx].
  unfold rmv, rT, H. rewrite (rsum_single k a); [rewrite Nat.eqb_refl; ring|exact Ha|].
  intros b Hb Hne. assert (Nat.eqb (nth b idx 0%nat) (nth a idx 0%nat) = false) as ->; [|ring].
  apply Nat.eqb_neq. intros E. apply Hne. eapply NoDup_nth; [exact HN|exact Hb|exact Ha|exact E].
Qed.
