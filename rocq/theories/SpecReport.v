(** * Vocabulary for the covariance reports (C88) *)

From Coq Require Import ZArith List Bool String Arith Reals.
From Verif Require Import Scalar Mat FilterBase StrMap Diagnostics RosFilter RosConfig RosPrepare.
Import ListNotations.

(** What the next diagnostic message says about the covariances of a stream. *)
Definition reported {K : Scalar} {E : Type} (n : node K E) (topic : string) : option string :=
  sm_find (d_dynamic (n_diag n)) (topic ++ "_covariance").

(** An entry above 1000 of a variable that is used.  [cov] is the array of the
    message, [dim] rows of [dim] entries about the variables from [first] on. *)
Definition too_large {K : Scalar} (cov : nat -> K) (upd : list bool) (first dim : nat) : Prop :=
  exists i j, (i < dim)%nat /\ (j < dim)%nat /\ s_ltb (lit 1000 0) (cov (dim * i + j)%nat) = true /\
    (nth (first + i) upd false = true \/ nth (first + j) upd false = true).
(** A variance that is not positive, of a variable that is used. *)
Definition not_positive (cov : nat -> R) (upd : list bool) (first dim : nat) : Prop :=
  exists i, (i < dim)%nat /\ (cov (dim * i + i)%nat <= 0)%R /\ nth (first + i) upd false = true.

(** Velocity and acceleration streams of a subscription. *)
Definition velocity_stream {K : Scalar} (s : subscription K) (d : callback_data K) : Prop :=
  match s with
  | SubOdom _ _ b => d = b
  | SubPose _ => False
  | SubTwist a => d = a
  | SubImu _ _ b _ => d = b
  end.
Definition acceleration_stream {K : Scalar} (s : subscription K) (d : callback_data K) : Prop :=
  match s with SubImu _ _ _ b => d = b | _ => False end.
