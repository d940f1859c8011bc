(** * Specification vocabulary for corrections as best estimates (C100) *)

From Coq Require Import Reals ZArith List Arith.
From Verif Require Import Scalar FilterBase SpecLin SpecFilter SpecOrder.
Local Open Scope R_scope.

(** [z] are the readings of [m], those of angles taken in the turn that is
    nearest to the state [x]. *)
Definition nearest_reading (x : rvec) (m : meas RScalar) (z : rvec) : Prop :=
  forall a, (a < length (selected m))%nat ->
    let i := nth a (selected m) 0%nat in
    (angular i -> - PI < z a - x i <= PI /\ exists k : Z, z a = m_value m i + IZR k * (2 * PI)) /\
    (~ angular i -> z a = m_value m i).

(** The misfit of a candidate state [v]: its distance from the state [x],
    weighted by the inverse covariance [L], plus its distance from the readings
    [z], weighted by the inverse noise [W]. *)
Definition misfit (x : rvec) (L : rmat) (m : meas RScalar) (z : rvec) (W : rmat) (v : rvec) : R :=
  quad 15 L (fun k => v k - x k) +
  quad (length (selected m)) W (fun a => z a - v (nth a (selected m) 0%nat)).

(** Covariance of the error after adding gain [G] times the innovation, for
    whatever gain: (I - G H) P (I - G H)' + G R G'. *)
Definition error_cov (P : rmat) (m : meas RScalar) (G : rmat) : rmat :=
  let A : rmat := fun i k => rI i k - at_selected m (fun a => G i a) k in
  fun i j => rmul 15 (rmul 15 A P) (rT A) i j +
    rmul (length (selected m)) (rmul (length (selected m)) G (selected_noise m)) (rT G) i j.

(** [m] is put together from [a] and [b]: they select disjoint sets of
    variables, [m] selects all of these, the readings and variances are the same
    and [m] knows no covariance between the two sets. *)
Definition selects (m : meas RScalar) (i : nat) : Prop := nth i (m_upd m) false = true.
Definition put_together (a b m : meas RScalar) : Prop :=
  forall i, (i < 15)%nat ->
    (selects m i <-> selects a i \/ selects b i) /\ ~ (selects a i /\ selects b i) /\
    (selects a i -> m_value a i = m_value m i) /\ (selects b i -> m_value b i = m_value m i) /\
    forall j, (j < 15)%nat ->
      (selects a i -> selects a j -> m_cov a i j = m_cov m i j) /\
      (selects b i -> selects b j -> m_cov b i j = m_cov m i j) /\
      (selects a i -> selects b j -> m_cov m i j = 0 /\ m_cov m j i = 0).
