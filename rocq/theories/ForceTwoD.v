(** * RosFilter::forceTwoD *)

From Coq Require Import ZArith Bool List Arith.
From Verif Require Import Scalar Mat FilterBase.
Import ListNotations.

Section TwoD.
Context {K : Scalar}.
Local Open Scope sc_scope.

(** [update_vector[i] = 1] on a std::vector<bool>; callers pass 15 flags. *)
Fixpoint set_flag (l : list bool) (i : nat) (b : bool) : list bool :=
  match l, i with
  | [], _ => []
  | _ :: r, O => b :: r
  | a :: r, S k => a :: set_flag r k b
  end.

Definition two_d_members : list nat :=
  [StateMemberZ; StateMemberRoll; StateMemberPitch; StateMemberVz; StateMemberVroll;
   StateMemberVpitch; StateMemberAz].

(** ros_filter.cpp 377-406: the statements in source order. *)
Definition forceTwoD (v : vec K) (c : mat K) (u : list bool) : vec K * mat K * list bool :=
  (fold_left (fun a i => vset a i 0) two_d_members v,
   fold_left (fun a i => mset a i i (lit 1 6)) two_d_members c,
   fold_left (fun a i => set_flag a i true) two_d_members u).

Definition force_meas (m : meas K) : meas K :=
  let '(v, c, u) := forceTwoD (m_value m) (m_cov m) (m_upd m) in
  mkMeas (m_topic m) (m_time m) v c u (m_thresh m) (m_control m) (m_control_time m).
End TwoD.
