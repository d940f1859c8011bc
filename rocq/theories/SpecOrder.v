(** * Specification vocabulary for sequences of corrections (C85) *)

From Coq Require Import Reals List Arith.
From Verif Require Import Scalar FilterBase Ekf SpecLin SpecFilter.
Local Open Scope R_scope.

(** Measurement noise of the selected variables. *)
Definition selected_noise (m : meas RScalar) : rmat :=
  fun a b => repaired_cov m (nth a (selected m) 0%nat) (nth b (selected m) 0%nat).

(** A measurement of variables other than angles with positive definite noise. *)
Definition linear_meas (m : meas RScalar) : Prop :=
  length (m_upd m) = 15%nat /\ no_angle_selected m /\ pdef (length (selected m)) (selected_noise m).

(** The innovation of [m] passes the gate for the estimate [x], [P]. *)
Definition passes_gate (x : rvec) (P : rmat) (m : meas RScalar) : Prop :=
  exists nu w, innovation_of x m nu /\
    veq (length (selected m)) (rmv (length (selected m)) (innovation_cov P m) w) nu /\
    rdot (length (selected m)) nu w < m_thresh m * m_thresh m.

(** H' v: the entries of [v] at the state variables they belong to. *)
Definition at_selected (m : meas RScalar) (v : rvec) : rvec := fun k =>
  rsum (length (selected m)) (fun a => if Nat.eqb k (nth a (selected m) 0%nat) then v a else 0).

(** H' W H for a weight [W] of the selected variables. *)
Definition information_of (m : meas RScalar) (W : rmat) : rmat := fun i j =>
  at_selected m (fun a => at_selected m (fun b => W a b) j) i.

(** [y] and [x] are the same state up to full turns of the angles. *)
Definition same_up_to_turns (y x : rvec) : Prop := forall k, (k < 15)%nat ->
  (angular k -> exists z : Z, x k = y k + IZR z * (2 * PI)) /\ (~ angular k -> x k = y k).

(** Corrections one after the other, by the filter's [correct]. *)
Definition correct_all (eig : Eigen RScalar) (ms : list (meas RScalar)) (s : ekf RScalar) : ekf RScalar :=
  fold_left (ekf_correct eig) ms s.

(** Every one of them passes the gate when its turn comes. *)
Fixpoint all_accepted (eig : Eigen RScalar) (s : ekf RScalar) (ms : list (meas RScalar)) : Prop :=
  match ms with
  | nil => True
  | cons m r => passes_gate (fb_state s) (fb_P s) m /\ all_accepted eig (ekf_correct eig s m) r
  end.
