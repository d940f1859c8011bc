(** * Vocabulary for dead reckoning (C108) *)

From Coq Require Import Reals ZArith List Bool Arith.
From Verif Require Import Scalar FilterBase FilterOps RosConfig SpecLin SpecConfig.
Import ListNotations.
Local Open Scope R_scope.

(** A quadratic form in the position x, y, z alone. *)
Definition position_only (S : rmat) : Prop :=
  forall i j, (i < 15)%nat -> (j < 15)%nat -> (3 <= i \/ 3 <= j)%nat -> S i j = 0.
(** The position block of a matrix, with zeros elsewhere. *)
Definition position_part (M : rmat) : rmat :=
  fun i j => if (Nat.ltb i 3 && Nat.ltb j 3)%bool then M i j else 0.

(** A measurement that says nothing about the position. *)
Definition no_position (m : meas RScalar) : Prop :=
  forall i, (i < 3)%nat -> nth i (m_upd m) false = false.

(** Calls that leave the filter to dead reckoning, with a process noise of at
    least [q]. *)
Definition reckoning (q : rmat) (o : fb_op RScalar) : Prop :=
  match o with
  | OpCorrect m | OpProcess m => no_position m
  | OpSetQ Q => loewner_le 15 q Q
  | OpSetP _ | OpReset => False
  | _ => True
  end.

(** The nanoseconds that a history predicts over. *)
Definition predicted_over {E} (s : fb RScalar E) (o : fb_op RScalar) : Z :=
  match o with
  | OpPredict _ d => d
  | OpProcess m => if fb_initialized s then Z.max 0 (m_time m - fb_last_time s) else 0
  | _ => 0
  end.
Fixpoint predicted {E} (vt : vtbl RScalar E) (s : fb RScalar E) (ops : list (fb_op RScalar)) : Z :=
  match ops with
  | [] => 0
  | o :: r => predicted_over s o + predicted vt (fb_exec vt s o) r
  end.

(** No input measures the position itself: odometry and poses are differential
    or have x, y and z switched off. *)
Definition unlocated (o : option (list bool)) : Prop := forall i, (i < 3)%nat -> configured o i = false.
Definition dead_reckoning (p : params RScalar) : Prop :=
  Forall (fun o => op_differential o = true \/ unlocated (op_config o)) (p_odoms p) /\
  Forall (fun o => pp_differential o = true \/ unlocated (pp_config o)) (p_poses p).
