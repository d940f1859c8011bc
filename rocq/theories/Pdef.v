(** * Positive definite matrices are invertible *)

From Coq Require Import Reals List Arith Lra Lia.
From Verif Require Import Scalar Mat FilterBase SpecLin SpecFilter RLin.
Local Open Scope R_scope.

Lemma quad_S n A x :
  quad (S n) A x = quad n A x + rsum n (fun i => x i * A i n * x n)
                   + rsum n (fun j => x n * A n j * x j) + x n * A n n * x n.
Proof.
  unfold quad. cbn [rsum].
  rewrite (rsum_plus n (fun i => rsum n (fun j => x i * A i j * x j)) (fun i => x i * A i n * x n)).
  ring.
Qed.

Lemma pdef_restrict n A : pdef (S n) A -> pdef n A.
Proof.
  intros [Hs Hp]. split; [intros i j Hi Hj; apply Hs; lia|].
  intros x (i & Hi & Hx).
  set (y := fun k => if Nat.ltb k n then x k else 0).
  assert (Ey : forall k, (k < n)%nat -> y k = x k).
  { intros k Hk. unfold y. apply Nat.ltb_lt in Hk. rewrite Hk. reflexivity. }
  assert (Eyn : y n = 0) by (unfold y; rewrite Nat.ltb_irrefl; reflexivity).
  assert (H : 0 < quad (S n) A y).
  { apply Hp. exists i. split; [lia|]. rewrite Ey by assumption. assumption. }
  rewrite quad_S, Eyn in H.
  rewrite (rsum_zero n (fun i0 => y i0 * A i0 n * 0)) in H by (intros; ring).
  rewrite (rsum_zero n (fun j => 0 * A n j * y j)) in H by (intros; ring).
  rewrite (quad_ext_vec n A y x) in H by (intros k Hk; apply Ey; assumption).
  lra.
Qed.

Section Schur.
Variables (n : nat) (A Bi : rmat).
Hypothesis HA : pdef (S n) A.
Hypothesis HB : is_inverse n A Bi.
Let v : rvec := fun i => rsum n (fun l => Bi i l * A l n).
Let r : rvec := fun j => rsum n (fun l => A n l * Bi l j).
Let s := A n n - rsum n (fun l => A n l * v l).

Lemma schur_Av i : (i < n)%nat -> rsum n (fun l => A i l * v l) = A i n.
Proof.
  intros Hi. change (rmv n A (rmv n Bi (fun l => A l n)) i = A i n).
  rewrite <- rmv_mul.
  rewrite (rmv_ext n (rmul n A Bi) rI _ (fun l => A l n)); [apply (rmv_I n (fun l => A l n)); assumption| |reflexivity].
  intros l Hl. apply (HB i l); assumption.
Qed.

Lemma schur_rA j : (j < n)%nat -> rsum n (fun l => r l * A l j) = A n j.
Proof.
  intros Hj. change (rmul n (rmul n A Bi) A n j = A n j).
  rewrite rmul_assoc.
  rewrite (rmul_ext n A A (rmul n Bi A) rI); [apply rmul_I_r; assumption|reflexivity|].
  intros l Hl. apply (HB l j); assumption.
Qed.

Lemma schur_pos : 0 < s.
Proof.
  destruct HA as [Hs Hp].
  set (y := fun k => if Nat.ltb k n then - v k else 1).
  assert (Ey : forall k, (k < n)%nat -> y k = - v k).
  { intros k Hk. unfold y. apply Nat.ltb_lt in Hk. rewrite Hk. reflexivity. }
  assert (Eyn : y n = 1) by (unfold y; rewrite Nat.ltb_irrefl; reflexivity).
  assert (H : 0 < quad (S n) A y) by (apply Hp; exists n; split; [lia|rewrite Eyn; lra]).
  rewrite quad_S, Eyn in H.
  assert (E1 : quad n A y = rsum n (fun i => v i * A i n)).
  { unfold quad. apply rsum_ext. intros i Hi.
    rewrite (rsum_ext n _ (fun j => v i * (A i j * v j))).
    - rewrite rsum_scal_l, schur_Av by assumption. reflexivity.
    - intros j Hj. rewrite !Ey by assumption. ring. }
  assert (E2 : rsum n (fun i => y i * A i n * 1) = - rsum n (fun i => v i * A i n)).
  { rewrite <- rsum_opp. apply rsum_ext. intros i Hi. rewrite Ey by assumption. ring. }
  assert (E3 : rsum n (fun j => 1 * A n j * y j) = - rsum n (fun l => A n l * v l)).
  { rewrite <- rsum_opp. apply rsum_ext. intros i Hi. rewrite Ey by assumption. ring. }
  rewrite E1, E2, E3 in H. unfold s. lra.
Qed.

Definition schur_inv : rmat := fun i j =>
  if Nat.ltb i n then
    if Nat.ltb j n then Bi i j + v i * r j / s else - v i / s
  else if Nat.ltb j n then - r j / s else / s.

Lemma schur_is_inverse : is_inverse (S n) A schur_inv.
Proof.
  pose proof schur_pos as Hs. assert (Hs0 : s <> 0) by lra.
  assert (Cb : forall i j, (i < n)%nat -> (j < n)%nat -> schur_inv i j = Bi i j + v i * r j / s).
  { intros i j Hi Hj. unfold schur_inv. apply Nat.ltb_lt in Hi, Hj. rewrite Hi, Hj. reflexivity. }
  assert (Cc : forall i, (i < n)%nat -> schur_inv i n = - v i / s).
  { intros i Hi. unfold schur_inv. apply Nat.ltb_lt in Hi. rewrite Hi, Nat.ltb_irrefl. reflexivity. }
  assert (Cr : forall j, (j < n)%nat -> schur_inv n j = - r j / s).
  { intros j Hj. unfold schur_inv. apply Nat.ltb_lt in Hj. rewrite Hj, Nat.ltb_irrefl. reflexivity. }
  assert (Cd : schur_inv n n = / s) by (unfold schur_inv; rewrite Nat.ltb_irrefl; reflexivity).
  assert (I1 : rI n n = 1) by (unfold rI; rewrite Nat.eqb_refl; reflexivity).
  assert (I2 : forall i, (i < n)%nat -> rI i n = 0 /\ rI n i = 0).
  { intros i Hi. unfold rI. split; [destruct (Nat.eqb_spec i n)|destruct (Nat.eqb_spec n i)]; auto; lia. }
  assert (Ss : rsum n (fun l => A n l * v l) = A n n - s) by (unfold s; ring).
  assert (Sr : rsum n (fun l => r l * A l n) = A n n - s).
  { rewrite <- Ss. unfold r, v.
    change (rmul n (rmul n A Bi) A n n = rmul n A (rmul n Bi A) n n). rewrite rmul_assoc. reflexivity. }
  intros i j Hi Hj.
  assert (Hi' : (i < n)%nat \/ i = n) by lia. assert (Hj' : (j < n)%nat \/ j = n) by lia.
  unfold rmul. cbn [rsum].
  destruct Hi' as [Hi'| ->]; destruct Hj' as [Hj'| ->].
  - split.
    + rewrite (rsum_ext n _ (fun l => A i l * Bi l j + (A i l * v l) * (r j / s))).
      * rewrite rsum_plus, rsum_scal_r, schur_Av by assumption. rewrite Cr by assumption.
        change (rsum n (fun l => A i l * Bi l j)) with (rmul n A Bi i j).
        rewrite (proj1 (HB i j Hi' Hj')). field. assumption.
      * intros l Hl. rewrite Cb by assumption. field. assumption.
    + rewrite (rsum_ext n _ (fun l => Bi i l * A l j + (v i / s) * (r l * A l j))).
      * rewrite rsum_plus, rsum_scal_l, schur_rA by assumption. rewrite Cc by assumption.
        change (rsum n (fun l => Bi i l * A l j)) with (rmul n Bi A i j).
        rewrite (proj2 (HB i j Hi' Hj')). field. assumption.
      * intros l Hl. rewrite Cb by assumption. field. assumption.
  - rewrite (proj1 (I2 i Hi')). split.
    + rewrite (rsum_ext n _ (fun l => (A i l * v l) * (- / s))).
      * rewrite rsum_scal_r, schur_Av, Cd by assumption. field. assumption.
      * intros l Hl. rewrite Cc by assumption. field. assumption.
    + rewrite (rsum_ext n _ (fun l => Bi i l * A l n + (v i / s) * (r l * A l n))).
      * rewrite rsum_plus, rsum_scal_l, Sr, Cc by assumption. fold (v i). field. assumption.
      * intros l Hl. rewrite Cb by assumption. field. assumption.
  - rewrite (proj2 (I2 j Hj')). split.
    + rewrite (rsum_ext n _ (fun l => A n l * Bi l j + (A n l * v l) * (r j / s))).
      * rewrite rsum_plus, rsum_scal_r, Ss, Cr by assumption. fold (r j). field. assumption.
      * intros l Hl. rewrite Cb by assumption. field. assumption.
    + rewrite (rsum_ext n _ (fun l => (- / s) * (r l * A l j))).
      * rewrite rsum_scal_l, schur_rA, Cd by assumption. field. assumption.
      * intros l Hl. rewrite Cr by assumption. field. assumption.
  - rewrite I1. split.
    + rewrite (rsum_ext n _ (fun l => (A n l * v l) * (- / s))).
      * rewrite rsum_scal_r, Ss, Cd. field. assumption.
      * intros l Hl. rewrite Cc by assumption. field. assumption.
    + rewrite (rsum_ext n _ (fun l => (- / s) * (r l * A l n))).
      * rewrite rsum_scal_l, Sr, Cd. field. assumption.
      * intros l Hl. rewrite Cr by assumption. field. assumption.
Qed.
End Schur.

Lemma pdef_invertible n : forall A, pdef n A -> invertible n A.
Proof.
  induction n as [|n IH]; intros A HA; [exists rI; intros i j Hi; lia|].
  destruct (IH A (pdef_restrict n A HA)) as [Bi HB].
  exists (schur_inv n A Bi). apply schur_is_inverse; assumption.
Qed.

Lemma pdef_psd_plus n A B : psd n A -> pdef n B -> pdef n (fun i j => A i j + B i j).
Proof.
  intros [Hs Hq] [Hs' Hq']. split.
  - intros i j Hi Hj. rewrite (Hs i j), (Hs' i j) by assumption. reflexivity.
  - intros x Hx. rewrite quad_plus. specialize (Hq x). specialize (Hq' x Hx). lra.
Qed.

(** Diagonal matrices with positive entries are positive definite. *)
Lemma pdef_diag n (d : rvec) : (forall i, (i < n)%nat -> 0 < d i) ->
  pdef n (fun i j => if Nat.eqb i j then d i else 0).
Proof.
  intros Hd. split.
  - intros i j _ _. destruct (Nat.eqb_spec i j) as [->|H]; [rewrite Nat.eqb_refl; reflexivity|].
    destruct (Nat.eqb_spec j i); [congruence|reflexivity].
  - intros x (i & Hi & Hx). rewrite quad_diag.
    assert (H : forall k, (k <= n)%nat -> 0 <= rsum k (fun j => d j * (x j * x j))).
    { intros k Hk. apply rsum_nonneg. intros j Hj. apply Rmult_le_pos; [apply Rlt_le, Hd; lia|apply Rle_0_sqr]. }
    clear - Hi Hx Hd H.
    assert (G : forall k, (i < k)%nat -> (k <= n)%nat -> 0 < rsum k (fun j => d j * (x j * x j))).
    { induction k as [|k IH]; intros Hik Hk; [lia|]. cbn [rsum].
      assert (0 <= d k * (x k * x k)) by (apply Rmult_le_pos; [apply Rlt_le, Hd; lia|apply Rle_0_sqr]).
      destruct (Nat.eq_dec i k) as [->|Hne].
      - assert (0 < x k * x k) by (apply Rsqr_pos_lt; assumption).
        assert (0 < d k * (x k * x k)) by (apply Rmult_lt_0_compat; [apply Hd; lia|assumption]).
        specialize (H k ltac:(lia)). lra.
      - specialize (IH ltac:(lia) ltac:(lia)). lra. }
    apply G; lia.
Qed.
