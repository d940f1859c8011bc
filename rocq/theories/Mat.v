(** * Vectors and matrices

    Eigen's [VectorXd] / [MatrixXd] are index functions; dimensions are passed
    to the operations that need them.  Entries outside the dimension are
    irrelevant (Eigen has none); theorems only speak about entries inside. *)

From Coq Require Import ZArith Bool List Arith.
From Verif Require Import Scalar.
Import ListNotations.

Section Mat.
Context {K : Scalar}.
Local Open Scope sc_scope.

Definition vec : Type := nat -> K.
Definition mat : Type := nat -> nat -> K.

(** Sum of [f 0 .. f (n-1)], left to right from 0. *)
Fixpoint sumn (n : nat) (f : nat -> K) : K :=
  match n with
  | O => 0
  | S m => sumn m f + f m
  end.

Definition vzero : vec := fun _ => 0.
Definition mzero : mat := fun _ _ => 0.
Definition meye : mat := fun i j => if Nat.eqb i j then 1 else 0.

Definition vadd (u v : vec) : vec := fun i => u i + v i.
Definition vsub (u v : vec) : vec := fun i => u i - v i.
Definition madd (A B : mat) : mat := fun i j => A i j + B i j.
Definition msub (A B : mat) : mat := fun i j => A i j - B i j.
Definition mscale (c : K) (A : mat) : mat := fun i j => c * A i j.
Definition mT (A : mat) : mat := fun i j => A j i.

(** [A * B] with inner dimension [n]. *)
Definition mmul (n : nat) (A B : mat) : mat :=
  fun i j => sumn n (fun l => A i l * B l j).
(** [A * v] with inner dimension [n]. *)
Definition mvmul (n : nat) (A : mat) (v : vec) : vec :=
  fun i => sumn n (fun l => A i l * v l).
(** [u.dot(v)] in dimension [n]. *)
Definition dot (n : nat) (u v : vec) : K := sumn n (fun l => u l * v l).
(** [u * v.transpose()]. *)
Definition outer (u v : vec) : mat := fun i j => u i * v j.

(** Single-cell assignment [v(i) = x], [A(i,j) = x]. *)
Definition vset (v : vec) (i : nat) (x : K) : vec :=
  fun k => if Nat.eqb k i then x else v k.
Definition mset (A : mat) (i j : nat) (x : K) : mat :=
  fun k l => if Nat.eqb k i && Nat.eqb l j then x else A k l.

(** [std::vector<bool>]: value of flag [i]; out of range reads are excluded by
    the callers' size checks and give [false] here. *)
Definition flag (l : list bool) (i : nat) : bool := nth i l false.

End Mat.

Arguments vec K : clear implicits.
Arguments mat K : clear implicits.
