(** * Specification vocabulary for tuning covariances (C101) *)

From Coq Require Import Reals ZArith List Arith.
From Verif Require Import Scalar FilterBase SpecLin SpecFilter SpecOrder.
Local Open Scope R_scope.

(** A measurement of any variables with positive definite noise. *)
Definition noisy_meas (m : meas RScalar) : Prop :=
  length (m_upd m) = 15%nat /\ pdef (length (selected m)) (selected_noise m).

(** [a] measures what [b] measures, with no more noise in any direction; the
    readings may differ. *)
Definition less_noisy (a b : meas RScalar) : Prop :=
  m_upd a = m_upd b /\ loewner_le (length (selected a)) (selected_noise a) (selected_noise b).

(** [m] measures the same variables with the same noise as [a]. *)
Definition same_kind (a m : meas RScalar) : Prop :=
  m_upd m = m_upd a /\ meq (length (selected a)) (length (selected a)) (selected_noise m) (selected_noise a).
