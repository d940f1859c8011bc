(** * Specification vocabulary: real matrices

    Plain definitions over [R], independent of the model. *)

From Coq Require Import Reals List Arith.
Local Open Scope R_scope.

Fixpoint rsum (n : nat) (f : nat -> R) : R :=
  match n with
  | O => 0
  | S m => rsum m f + f m
  end.

Definition rvec := nat -> R.
Definition rmat := nat -> nat -> R.

Definition rmul (n : nat) (A B : rmat) : rmat := fun i j => rsum n (fun l => A i l * B l j).
Definition rmv (n : nat) (A : rmat) (v : rvec) : rvec := fun i => rsum n (fun l => A i l * v l).
Definition rdot (n : nat) (u v : rvec) : R := rsum n (fun l => u l * v l).
Definition rT (A : rmat) : rmat := fun i j => A j i.
Definition rI : rmat := fun i j => if Nat.eqb i j then 1 else 0.

(** Quadratic form x' A x, symmetry, positive (semi-)definiteness, Loewner
    order, in dimension n. *)
Definition quad (n : nat) (A : rmat) (x : rvec) : R :=
  rsum n (fun i => rsum n (fun j => x i * A i j * x j)).
Definition symmetric (n : nat) (A : rmat) : Prop :=
  forall i j, (i < n)%nat -> (j < n)%nat -> A i j = A j i.
Definition psd (n : nat) (A : rmat) : Prop :=
  symmetric n A /\ forall x, 0 <= quad n A x.
Definition pdef (n : nat) (A : rmat) : Prop :=
  symmetric n A /\
  forall x, (exists i, (i < n)%nat /\ x i <> 0) -> 0 < quad n A x.
Definition loewner_le (n : nat) (A B : rmat) : Prop :=
  forall x, quad n A x <= quad n B x.

(** [B] is a two-sided inverse of [A] in dimension n. *)
Definition is_inverse (n : nat) (A B : rmat) : Prop :=
  forall i j, (i < n)%nat -> (j < n)%nat ->
    rmul n A B i j = rI i j /\ rmul n B A i j = rI i j.

(** Equality of matrices / vectors on their extent. *)
Definition meq (n m : nat) (A B : rmat) : Prop :=
  forall i j, (i < n)%nat -> (j < m)%nat -> A i j = B i j.
Definition veq (n : nat) (u v : rvec) : Prop := forall i, (i < n)%nat -> u i = v i.
