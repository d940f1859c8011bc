(** * Specification vocabulary for predictions of the unscented filter *)

From Coq Require Import Reals List Arith.
From Verif Require Import Scalar Mat FilterBase SpecLin SpecFilter.
Local Open Scope R_scope.

(** Eigen's llt().matrixL() is lower triangular. *)
Definition eigen_llt_lower (eig : Eigen RScalar) : Prop :=
  forall n A i j, pdef n A -> (i < j)%nat -> (j < n)%nat -> e_llt eig n A i j = 0.

(** Level attitude, no rotation; position, heading and linear motion arbitrary. *)
Definition level_unturning (x : rvec) : Prop :=
  x 3%nat = 0 /\ x 4%nat = 0 /\ x 9%nat = 0 /\ x 10%nat = 0 /\ x 11%nat = 0.

(** Independent errors with positive variances. *)
Definition independent (P : rmat) : Prop :=
  (forall i j, (i < 15)%nat -> (j < 15)%nat -> i <> j -> P i j = 0) /\
  (forall i, (i < 15)%nat -> 0 < P i i).

(** Length of the weighted mean of the directions of sigma points spread with
    scale [c] over an angle of variance [v] that turns with a rate of variance
    [w] for [dt] seconds, relative to the direction of the mean. *)
Definition mean_direction (c v w dt : R) : R :=
  1 - ((1 - cos (sqrt (c * v))) + (1 - cos (sqrt (c * w) * dt))) / c.
