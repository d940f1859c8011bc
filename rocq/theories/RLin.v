(** * Linear algebra over R: lemmas about the operations of SpecLin.v *)

From Coq Require Import Reals List Arith Lra Lia FunctionalExtensionality ZArith.
From Verif Require Import SpecLin.
Local Open Scope R_scope.

Lemma rsum_ext n f g : (forall i, (i < n)%nat -> f i = g i) -> rsum n f = rsum n g.
Proof.
  induction n; intros H; simpl; auto.
  rewrite IHn by (intros; apply H; lia). rewrite (H n) by lia. reflexivity.
Qed.

Lemma rsum_plus n f g : rsum n (fun i => f i + g i) = rsum n f + rsum n g.
Proof. induction n; simpl; [lra|]. rewrite IHn. lra. Qed.

Lemma rsum_minus n f g : rsum n (fun i => f i - g i) = rsum n f - rsum n g.
Proof. induction n; simpl; [lra|]. rewrite IHn. lra. Qed.

Lemma rsum_opp n f : rsum n (fun i => - f i) = - rsum n f.
Proof. induction n; simpl; [lra|]. rewrite IHn. lra. Qed.

Lemma rsum_scal_l n c f : rsum n (fun i => c * f i) = c * rsum n f.
Proof. induction n; simpl; [lra|]. rewrite IHn. lra. Qed.

Lemma rsum_scal_r n c f : rsum n (fun i => f i * c) = rsum n f * c.
Proof. induction n; simpl; [lra|]. rewrite IHn. lra. Qed.

Lemma rsum_zero n f : (forall i, (i < n)%nat -> f i = 0) -> rsum n f = 0.
Proof.
  induction n; intros H; simpl; [reflexivity|].
  rewrite IHn by (intros; apply H; lia). rewrite H by lia. lra.
Qed.

Lemma rsum_nonneg n f : (forall i, (i < n)%nat -> 0 <= f i) -> 0 <= rsum n f.
Proof.
  induction n; intros H; simpl; [lra|].
  assert (0 <= rsum n f) by (apply IHn; intros; apply H; lia).
  assert (0 <= f n) by (apply H; lia). lra.
Qed.

Lemma rsum_swap n m f :
  rsum n (fun i => rsum m (fun j => f i j)) = rsum m (fun j => rsum n (fun i => f i j)).
Proof.
  induction n; simpl.
  - symmetry. apply rsum_zero. reflexivity.
  - rewrite IHn. rewrite <- rsum_plus. reflexivity.
Qed.

Lemma rsum_single n k f :
  (k < n)%nat -> (forall i, (i < n)%nat -> i <> k -> f i = 0) -> rsum n f = f k.
Proof.
  induction n; intros Hk H; [lia|]. simpl.
  destruct (Nat.eq_dec k n) as [->|Hne].
  - rewrite rsum_zero; [lra|]. intros. apply H; lia.
  - rewrite IHn; [|lia|]. 2:{ intros. apply H; lia. }
    rewrite (H n); [lra|lia|lia].
Qed.

Lemma rsum_const n c : rsum n (fun _ => c) = INR n * c.
Proof. induction n; [simpl; lra|]. rewrite S_INR. simpl. rewrite IHn. lra. Qed.

(** Splitting a sum over [a + b] indices. *)
Lemma rsum_app a b f :
  rsum (a + b) f = rsum a f + rsum b (fun i => f (a + i)%nat).
Proof.
  induction b.
  - rewrite Nat.add_0_r. simpl. lra.
  - replace (a + S b)%nat with (S (a + b)) by lia. simpl. rewrite IHb. lra.
Qed.

(** ** Matrix algebra *)

Lemma rmul_assoc n m A B C : rmul n (rmul m A B) C = rmul m A (rmul n B C).
Proof.
  extensionality i. extensionality j. unfold rmul.
  transitivity (rsum n (fun l => rsum m (fun k => A i k * B k l * C l j))).
  { apply rsum_ext. intros. rewrite <- rsum_scal_r. reflexivity. }
  rewrite rsum_swap. apply rsum_ext. intros.
  rewrite <- rsum_scal_l. apply rsum_ext. intros. ring.
Qed.

Lemma rmv_mul n m A B v : rmv n (rmul m A B) v = rmv m A (rmv n B v).
Proof.
  extensionality i. unfold rmv, rmul.
  transitivity (rsum n (fun l => rsum m (fun k => A i k * B k l * v l))).
  { apply rsum_ext. intros. rewrite <- rsum_scal_r. reflexivity. }
  rewrite rsum_swap. apply rsum_ext. intros.
  rewrite <- rsum_scal_l. apply rsum_ext. intros. ring.
Qed.

Lemma rT_mul n A B : rT (rmul n A B) = rmul n (rT B) (rT A).
Proof.
  extensionality i. extensionality j. unfold rT, rmul.
  apply rsum_ext. intros. ring.
Qed.

Lemma rT_T A : rT (rT A) = A.
Proof. reflexivity. Qed.

Lemma rdot_mv n m A x w : rdot n x (rmv m A w) = rdot m (rmv n (rT A) x) w.
Proof.
  unfold rdot, rmv, rT.
  transitivity (rsum n (fun i => rsum m (fun k => x i * (A i k * w k)))).
  { apply rsum_ext. intros. rewrite <- rsum_scal_l. reflexivity. }
  rewrite rsum_swap. apply rsum_ext. intros.
  rewrite <- rsum_scal_r. apply rsum_ext. intros. ring.
Qed.

Lemma rdot_comm n u v : rdot n u v = rdot n v u.
Proof. unfold rdot. apply rsum_ext. intros. ring. Qed.

Lemma quad_dot n A x : quad n A x = rdot n x (rmv n A x).
Proof.
  unfold quad, rdot, rmv. apply rsum_ext. intros.
  rewrite <- rsum_scal_l. apply rsum_ext. intros. ring.
Qed.

Lemma quad_sandwich n k G P x :
  quad n (rmul k (rmul k G P) (rT G)) x = quad k P (rmv n (rT G) x).
Proof.
  rewrite !quad_dot. rewrite rmv_mul, rmv_mul, rdot_mv. reflexivity.
Qed.

Lemma quad_plus n A B x : quad n (fun i j => A i j + B i j) x = quad n A x + quad n B x.
Proof.
  unfold quad. rewrite <- rsum_plus. apply rsum_ext. intros.
  rewrite <- rsum_plus. apply rsum_ext. intros. ring.
Qed.

Lemma quad_minus n A B x : quad n (fun i j => A i j - B i j) x = quad n A x - quad n B x.
Proof.
  unfold quad. rewrite <- rsum_minus. apply rsum_ext. intros.
  rewrite <- rsum_minus. apply rsum_ext. intros. ring.
Qed.

Lemma quad_scale n c A x : quad n (fun i j => c * A i j) x = c * quad n A x.
Proof.
  unfold quad. rewrite <- rsum_scal_l. apply rsum_ext. intros.
  rewrite <- rsum_scal_l. apply rsum_ext. intros. ring.
Qed.

Lemma quad_ext n A B x : meq n n A B -> quad n A x = quad n B x.
Proof.
  intros H. unfold quad. apply rsum_ext. intros. apply rsum_ext. intros.
  rewrite H by assumption. reflexivity.
Qed.

Lemma quad_ext_vec n A x y : veq n x y -> quad n A x = quad n A y.
Proof.
  intros H. unfold quad. apply rsum_ext. intros. apply rsum_ext. intros.
  rewrite !H by assumption. reflexivity.
Qed.

Lemma psd_ext n A B : meq n n A B -> psd n A -> psd n B.
Proof.
  intros H [Hs Hq]. split.
  - intros i j Hi Hj. rewrite <- !H by assumption. auto.
  - intros x. rewrite <- (quad_ext n A B x H). auto.
Qed.

Lemma psd_sandwich n k G P : psd k P -> psd n (rmul k (rmul k G P) (rT G)).
Proof.
  intros [Hs Hq]. split.
  - intros i j Hi Hj. unfold rmul, rT.
    transitivity (rsum k (fun l => rsum k (fun m => G i m * P m l * G j l))).
    { apply rsum_ext. intros. rewrite <- rsum_scal_r. reflexivity. }
    rewrite rsum_swap. apply rsum_ext. intros a Ha.
    rewrite <- rsum_scal_r. apply rsum_ext. intros b Hb.
    rewrite (Hs a b) by assumption. ring.
  - intros x. rewrite quad_sandwich. apply Hq.
Qed.

Lemma psd_plus n A B : psd n A -> psd n B -> psd n (fun i j => A i j + B i j).
Proof.
  intros [Hs Hq] [Hs' Hq']. split.
  - intros i j Hi Hj. rewrite (Hs i j), (Hs' i j) by assumption. reflexivity.
  - intros x. rewrite quad_plus. specialize (Hq x). specialize (Hq' x). lra.
Qed.

Lemma psd_scale n c A : 0 <= c -> psd n A -> psd n (fun i j => c * A i j).
Proof.
  intros Hc [Hs Hq]. split.
  - intros i j Hi Hj. rewrite (Hs i j) by assumption. reflexivity.
  - intros x. rewrite quad_scale. apply Rmult_le_pos; auto.
Qed.

Lemma psd_zero n : psd n (fun _ _ => 0).
Proof.
  split; [intros ? ? ? ?; reflexivity|].
  intros x. unfold quad. rewrite rsum_zero; [lra|].
  intros. apply rsum_zero. intros. ring.
Qed.

(** Diagonal matrices with non-negative entries. *)
Lemma quad_diag n (d : rvec) x :
  quad n (fun i j => if Nat.eqb i j then d i else 0) x = rsum n (fun i => d i * (x i * x i)).
Proof.
  unfold quad. apply rsum_ext. intros i Hi.
  rewrite (rsum_single n i); [|assumption|].
  - rewrite Nat.eqb_refl. ring.
  - intros j Hj Hne. destruct (Nat.eqb_spec i j); [congruence|]. ring.
Qed.

Lemma psd_diag n (d : rvec) :
  (forall i, (i < n)%nat -> 0 <= d i) ->
  psd n (fun i j => if Nat.eqb i j then d i else 0).
Proof.
  intros H. split.
  - intros i j Hi Hj. destruct (Nat.eqb_spec i j), (Nat.eqb_spec j i); congruence.
  - intros x. rewrite quad_diag. apply rsum_nonneg. intros i Hi.
    apply Rmult_le_pos; [auto|]. apply Rle_0_sqr.
Qed.

Lemma rmul_I_l n A i j : (i < n)%nat -> rmul n rI A i j = A i j.
Proof.
  intros Hi. unfold rmul, rI. rewrite (rsum_single n i); [|assumption|].
  - rewrite Nat.eqb_refl. ring.
  - intros k Hk Hne. destruct (Nat.eqb_spec i k); [congruence|]. ring.
Qed.

Lemma rmul_I_r n A i j : (j < n)%nat -> rmul n A rI i j = A i j.
Proof.
  intros Hj. unfold rmul, rI. rewrite (rsum_single n j); [|assumption|].
  - rewrite Nat.eqb_refl. ring.
  - intros k Hk Hne. destruct (Nat.eqb_spec k j); [congruence|]. ring.
Qed.

Lemma rmv_I n v i : (i < n)%nat -> rmv n rI v i = v i.
Proof.
  intros Hi. unfold rmv, rI. rewrite (rsum_single n i); [|assumption|].
  - rewrite Nat.eqb_refl. ring.
  - intros k Hk Hne. destruct (Nat.eqb_spec i k); [congruence|]. ring.
Qed.

Lemma rmul_plus_l n A B C :
  rmul n (fun i j => A i j + B i j) C = (fun i j => rmul n A C i j + rmul n B C i j).
Proof.
  extensionality i. extensionality j. unfold rmul. rewrite <- rsum_plus.
  apply rsum_ext. intros. ring.
Qed.
Lemma rmul_plus_r n A B C :
  rmul n C (fun i j => A i j + B i j) = (fun i j => rmul n C A i j + rmul n C B i j).
Proof.
  extensionality i. extensionality j. unfold rmul. rewrite <- rsum_plus.
  apply rsum_ext. intros. ring.
Qed.
Lemma rmul_minus_l n A B C :
  rmul n (fun i j => A i j - B i j) C = (fun i j => rmul n A C i j - rmul n B C i j).
Proof.
  extensionality i. extensionality j. unfold rmul. rewrite <- rsum_minus.
  apply rsum_ext. intros. ring.
Qed.
Lemma rmul_minus_r n A B C :
  rmul n C (fun i j => A i j - B i j) = (fun i j => rmul n C A i j - rmul n C B i j).
Proof.
  extensionality i. extensionality j. unfold rmul. rewrite <- rsum_minus.
  apply rsum_ext. intros. ring.
Qed.

Lemma rmul_ext n A A' B B' i j :
  (forall l, (l < n)%nat -> A i l = A' i l) ->
  (forall l, (l < n)%nat -> B l j = B' l j) ->
  rmul n A B i j = rmul n A' B' i j.
Proof.
  intros HA HB. unfold rmul. apply rsum_ext. intros. rewrite HA, HB by assumption. reflexivity.
Qed.

Lemma rmv_ext n A A' v v' i :
  (forall l, (l < n)%nat -> A i l = A' i l) ->
  (forall l, (l < n)%nat -> v l = v' l) ->
  rmv n A v i = rmv n A' v' i.
Proof.
  intros HA HB. unfold rmv. apply rsum_ext. intros. rewrite HA, HB by assumption. reflexivity.
Qed.
