(** * Turning vectors and matrices *)

From Coq Require Import Reals ZArith List Bool Lia Lra Arith FunctionalExtensionality.
From Verif Require Import SpecLin RLin SpecTurn.
Local Open Scope R_scope.

Section Turn.
Variable a : R.
Local Notation tv := (turn_vec a).
Local Notation tm := (turn_mat a).

Lemma unit_circle : cos a * cos a + sin a * sin a = 1.
Proof. pose proof (sin2_cos2 a) as H. unfold Rsqr in H. lra. Qed.

(** The turn of a selection of variables: the first two if [b]. *)
Definition tvs (b : bool) (x : rvec) : rvec := if b then tv x else x.
Definition Lt (b : bool) (A : rmat) : rmat := fun i j => tvs b (fun k => A k j) i.
Definition Rt (b : bool) (A : rmat) : rmat := fun i j => tvs b (A i) j.

Ltac cases2 i := destruct i as [|[|i]].

Lemma tv_high x k : (2 <= k)%nat -> tv x k = x k.
Proof. intros H. cases2 k; [lia|lia|reflexivity]. Qed.
Lemma tvs_high b x k : (2 <= k)%nat -> tvs b x k = x k.
Proof. destruct b; [apply tv_high|reflexivity]. Qed.
Lemma tvs_sum b n (f : nat -> rvec) k : rsum n (fun l => tvs b (f l) k) = tvs b (fun i => rsum n (fun l => f l i)) k.
Proof.
  destruct b; [|reflexivity]. cases2 k; cbn [tvs turn_vec]; [| |reflexivity];
    [rewrite rsum_minus|rewrite rsum_plus]; rewrite !rsum_scal_l; reflexivity.
Qed.
Lemma tvs_scal_r b f c k : tvs b f k * c = tvs b (fun i => f i * c) k.
Proof. destruct b; [|reflexivity]. cases2 k; cbn; ring. Qed.
Lemma tvs_scal_l b f c k : c * tvs b f k = tvs b (fun i => c * f i) k.
Proof. destruct b; [|reflexivity]. cases2 k; cbn; ring. Qed.
Lemma tvs_plus b f g k : tvs b f k + tvs b g k = tvs b (fun i => f i + g i) k.
Proof. destruct b; [|reflexivity]. cases2 k; cbn; ring. Qed.
Lemma tvs_minus b f g k : tvs b f k - tvs b g k = tvs b (fun i => f i - g i) k.
Proof. destruct b; [|reflexivity]. cases2 k; cbn; ring. Qed.
Lemma tvs_ext b n f g : (b = true -> (2 <= n)%nat) -> veq n f g -> veq n (tvs b f) (tvs b g).
Proof.
  intros Hb H k Hk. destruct b; [|apply H; exact Hk]. specialize (Hb eq_refl).
  cases2 k; cbn; rewrite ?(H 0%nat), ?(H 1%nat) by lia; [reflexivity|reflexivity|apply H; exact Hk].
Qed.

Lemma dot_turn b n u v : (b = true -> (2 <= n)%nat) -> rdot n (tvs b u) (tvs b v) = rdot n u v.
Proof.
  intros Hb. destruct b; [|reflexivity]. specialize (Hb eq_refl). unfold rdot.
  replace n with (2 + (n - 2))%nat by lia. rewrite !rsum_app. f_equal.
  cbn [rsum tvs turn_vec]. pose proof unit_circle as H.
  replace (0 + (cos a * u 0%nat - sin a * u 1%nat) * (cos a * v 0%nat - sin a * v 1%nat) +
    (sin a * u 0%nat + cos a * u 1%nat) * (sin a * v 0%nat + cos a * v 1%nat))
    with ((cos a * cos a + sin a * sin a) * (u 0%nat * v 0%nat + u 1%nat * v 1%nat)) by ring.
  rewrite H. ring.
Qed.

Lemma Lt_Rt b c A : Lt b (Rt c A) = Rt c (Lt b A).
Proof.
  extensionality i. extensionality j. unfold Lt, Rt. destruct b, c; try reflexivity.
  cases2 i; cases2 j; cbn; try reflexivity; ring.
Qed.
Lemma tm_eq A : tm A = Lt true (Rt true A).
Proof. reflexivity. Qed.
Lemma Lt_mul b n A B : rmul n (Lt b A) B = Lt b (rmul n A B).
Proof.
  extensionality i. extensionality j. unfold Lt, rmul. rewrite <- tvs_sum. apply rsum_ext. intros l _. apply tvs_scal_r.
Qed.
Lemma Rt_mul b n A B : rmul n A (Rt b B) = Rt b (rmul n A B).
Proof.
  extensionality i. extensionality j. unfold Rt, rmul. rewrite <- (tvs_sum b n (fun l j0 => A i l * B l j0)). apply rsum_ext. intros l _. apply tvs_scal_l.
Qed.
Lemma mid_mul b n A B : (b = true -> (2 <= n)%nat) -> rmul n (Rt b A) (Lt b B) = rmul n A B.
Proof. intros H. extensionality i. extensionality j. exact (dot_turn b n (A i) (fun k => B k j) H). Qed.
Lemma Lt_T b A : rT (Lt b A) = Rt b (rT A).
Proof. reflexivity. Qed.
Lemma Rt_T b A : rT (Rt b A) = Lt b (rT A).
Proof. reflexivity. Qed.
Lemma Lt_mv b n A v : rmv n (Lt b A) v = tvs b (rmv n A v).
Proof. extensionality i. unfold rmv, Lt. rewrite <- (tvs_sum b n (fun l i0 => A i0 l * v l)). apply rsum_ext. intros l _. apply tvs_scal_r. Qed.
Lemma Rt_mv b n A v : (b = true -> (2 <= n)%nat) -> rmv n (Rt b A) (tvs b v) = rmv n A v.
Proof. intros H. extensionality i. exact (dot_turn b n (A i) v H). Qed.

(** The turn of an [n] x 15 or 15 x [n] matrix. *)
Lemma mul_turn b c d n A B : (c = true -> (2 <= n)%nat) ->
  rmul n (Lt b (Rt c A)) (Lt c (Rt d B)) = Lt b (Rt d (rmul n A B)).
Proof. intros H. rewrite Lt_mul, mid_mul by exact H. rewrite Rt_mul. reflexivity. Qed.
Lemma mul_tm A B : rmul 15 (tm A) (tm B) = tm (rmul 15 A B).
Proof. apply (mul_turn true true true). lia. Qed.
Lemma T_tm A : rT (tm A) = tm (rT A).
Proof. rewrite !tm_eq, Lt_T, Rt_T. symmetry. apply Lt_Rt. Qed.
Lemma plus_turn b c A B : (fun i j => Lt b (Rt c A) i j + Lt b (Rt c B) i j) = Lt b (Rt c (fun i j => A i j + B i j)).
Proof.
  extensionality i. extensionality j. unfold Lt at 1 2. rewrite tvs_plus. unfold Lt. f_equal.
  extensionality k. unfold Rt. apply tvs_plus.
Qed.
Lemma minus_turn b c A B : (fun i j => Lt b (Rt c A) i j - Lt b (Rt c B) i j) = Lt b (Rt c (fun i j => A i j - B i j)).
Proof.
  extensionality i. extensionality j. unfold Lt at 1 2. rewrite tvs_minus. unfold Lt. f_equal.
  extensionality k. unfold Rt. apply tvs_minus.
Qed.
Lemma scale_tm c A : (fun i j => c * tm A i j) = tm (fun i j => c * A i j).
Proof.
  extensionality i. extensionality j. rewrite !tm_eq. unfold Lt at 1. rewrite tvs_scal_l. unfold Lt. f_equal.
  extensionality k. unfold Rt. apply tvs_scal_l.
Qed.
Lemma tm_I : tm rI = rI.
Proof.
  pose proof unit_circle as H. extensionality i. extensionality j.
  unfold turn_mat, rI. cases2 i; cases2 j; cbn; try lra; try reflexivity.
Qed.
(** Back by the same turn. *)
Lemma mul_turn_I b n : (b = true -> (2 <= n)%nat) -> Lt b (Rt b rI) = rI.
Proof. intros _. destruct b; [exact tm_I|reflexivity]. Qed.
End Turn.
