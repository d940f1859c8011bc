(** * The assumptions about Eigen are satisfiable

    Every positive definite matrix has a Cholesky factor, so an [Eigen] record
    meeting [eigen_inverse_ok] and [eigen_llt_ok] exists (used only to show that
    theorems with these hypotheses are not vacuous). *)

From Coq Require Import Reals List Arith Lra Lia Classical ClassicalEpsilon.
From Verif Require Import Scalar Mat FilterBase SpecLin SpecFilter RLin Pdef.
Local Open Scope R_scope.

Lemma cholesky_exists n : forall A, pdef n A -> exists L,
  meq n n (rmul n L (rT L)) A /\ (forall i j, (i < j)%nat -> L i j = 0).
Proof.
  induction n as [|n IH]; intros A HA; [exists (fun _ _ => 0); split; [intros i j Hi; lia|reflexivity]|].
  pose proof (pdef_restrict n A HA) as HAn.
  destruct (IH A HAn) as (L & HL & HLt). destruct (pdef_invertible n A HAn) as [Bi HB].
  pose (z := fun i => rsum n (fun l => Bi i l * A l n)).
  pose (y := fun i => rsum n (fun l => L l i * z l)).
  pose (s := A n n - rsum n (fun l => A n l * z l)).
  assert (Hs : 0 < s) by exact (schur_pos n A Bi HA HB).
  assert (Hsym : symmetric (S n) A) by apply HA.
  assert (Hy : forall i, (i < n)%nat -> rsum n (fun l => L i l * y l) = A i n).
  { intros i Hi. change (rmv n L (rmv n (rT L) z) i = A i n). rewrite <- rmv_mul.
    rewrite (rmv_ext n (rmul n L (rT L)) A z z i) by (intros; auto).
    exact (schur_Av n A Bi HB i Hi). }
  assert (Hyy : rsum n (fun l => y l * y l) = A n n - s).
  { unfold s. replace (A n n - (A n n - rsum n (fun l => A n l * z l))) with (rsum n (fun l => A n l * z l)) by ring.
    transitivity (rsum n (fun l => rsum n (fun k => L k l * z k * y l))).
    - apply rsum_ext. intros l Hl. rewrite rsum_scal_r. reflexivity.
    - rewrite rsum_swap. apply rsum_ext. intros k Hk.
      rewrite (rsum_ext n _ (fun i => z k * (L k i * y i))) by (intros; ring).
      rewrite rsum_scal_l, Hy by assumption. rewrite (Hsym k n) by lia. ring. }
  exists (fun i j => if Nat.ltb i n then (if Nat.ltb j n then L i j else 0)
                     else if Nat.eqb i n then (if Nat.ltb j n then y j else if Nat.eqb j n then sqrt s else 0)
                     else 0).
  split.
  - intros i j Hi Hj. unfold rmul, rT. cbn [rsum].
    rewrite (Nat.ltb_irrefl n), Nat.eqb_refl.
    assert (Cn : forall k, (k < n)%nat -> Nat.ltb k n = true) by (intros; apply Nat.ltb_lt; assumption).
    assert (Hi' : (i < n)%nat \/ i = n) by lia. assert (Hj' : (j < n)%nat \/ j = n) by lia.
    destruct Hi' as [Hi'| ->]; destruct Hj' as [Hj'| ->];
      rewrite ?(Nat.ltb_irrefl n), ?Nat.eqb_refl;
      try rewrite (Cn i Hi'); try rewrite (Cn j Hj').
    + rewrite (rsum_ext n _ (fun l => L i l * L j l)) by (intros l Hl; rewrite (Cn l Hl); reflexivity).
      rewrite (HL i j Hi' Hj' : rsum n (fun l => L i l * L j l) = A i j). ring.
    + rewrite (rsum_ext n _ (fun l => L i l * y l)) by (intros l Hl; rewrite (Cn l Hl); reflexivity).
      rewrite Hy by assumption. ring.
    + rewrite (rsum_ext n _ (fun l => L j l * y l)) by (intros l Hl; rewrite (Cn l Hl); ring).
      rewrite Hy by assumption. rewrite (Hsym j n) by lia. ring.
    + rewrite (rsum_ext n _ (fun l => y l * y l)) by (intros l Hl; rewrite (Cn l Hl); reflexivity).
      rewrite Hyy, sqrt_sqrt by lra. ring.
  - intros i j Hij. destruct (Nat.ltb_spec i n).
    + destruct (Nat.ltb_spec j n); [apply HLt; assumption|reflexivity].
    + destruct (Nat.eqb_spec i n); [|reflexivity].
      destruct (Nat.ltb_spec j n); [lia|]. destruct (Nat.eqb_spec j n); [lia|reflexivity].
Qed.

Definition choose_inverse (n : nat) (A : rmat) : rmat :=
  epsilon (inhabits rI) (fun B => is_inverse n A B).
Definition choose_factor (n : nat) (A : rmat) : rmat :=
  epsilon (inhabits rI) (fun L => meq n n (rmul n L (rT L)) A /\ forall i j, (i < j)%nat -> L i j = 0).
Definition ideal_eigen : Eigen RScalar := @mkEigen RScalar choose_inverse choose_factor.

Lemma ideal_inverse : eigen_inverse_ok ideal_eigen.
Proof. intros n A H. exact (epsilon_spec (inhabits rI) (fun B => is_inverse n A B) H). Qed.
Lemma choose_factor_ok n A : pdef n A ->
  meq n n (rmul n (choose_factor n A) (rT (choose_factor n A))) A /\
  forall i j, (i < j)%nat -> choose_factor n A i j = 0.
Proof.
  intros H. apply (epsilon_spec (inhabits rI)
    (fun L => meq n n (rmul n L (rT L)) A /\ forall i j, (i < j)%nat -> L i j = 0)).
  exact (cholesky_exists n A H).
Qed.
Lemma ideal_llt : eigen_llt_ok ideal_eigen.
Proof. intros n A H. apply (choose_factor_ok n A H). Qed.
Lemma ideal_lower n A i j : pdef n A -> (i < j)%nat -> e_llt ideal_eigen n A i j = 0.
Proof. intros H Hij. apply (choose_factor_ok n A H). exact Hij. Qed.
