(** * Specification vocabulary for the listener's service (C92) *)

From Coq Require Import Reals ZArith List Bool Arith String.
From Verif Require Import Scalar Mat FilterBase Tf RosFilter Estimator Listener SpecListener.
Import ListNotations.

Section SpecService.
Context {K : Scalar}.
(** The 225 numbers of a response hold the matrix row by row, as GetState.srv
    says, or column by column. *)
Definition by_rows (M : mat K) (a : nat -> K) : Prop := forall i j, (i < 15)%nat -> (j < 15)%nat -> a (15 * i + j)%nat = M i j.
Definition by_columns (M : mat K) (a : nat -> K) : Prop := forall i j, (i < 15)%nat -> (j < 15)%nat -> a (i + 15 * j)%nat = M i j.

Definition symmetric (M : mat K) : Prop := forall i j, (i < 15)%nat -> (j < 15)%nat -> M i j = M j i.
(** The covariances of a message pair are symmetric. *)
Definition symmetric6 (a : nat -> K) : Prop := forall i j, (i < 6)%nat -> (j < 6)%nat -> a (i * 6 + j)%nat = a (j * 6 + i)%nat.
Definition symmetric_pair (m : pair_msg (K := K)) : Prop :=
  symmetric6 (o_pose_cov (fst m)) /\ symmetric6 (o_twist_cov (fst m)) /\ symmetric6 (ac_cov (snd m)).

(** Predictions of a filter with symmetric process noise keep symmetry; the
    listener's filter has no dynamic process noise. *)
Definition plain_filter {E : Type} (f : fb K E) : Prop := symmetric (fb_Q f) /\ fb_use_dyn f = false.
Definition predicts_symmetric {E : Type} (vt : vtbl K E) : Prop :=
  forall f r d, plain_filter f -> symmetric (fb_P f) -> symmetric (fb_P (v_predict vt f r d)) /\ plain_filter (v_predict vt f r d).
End SpecService.
