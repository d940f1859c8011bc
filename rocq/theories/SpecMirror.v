(** * Specification vocabulary for mirror images (C106) *)

From Coq Require Import Reals ZArith List Bool.
From Verif Require Import Scalar Mat FilterBase FilterOps SpecLin SpecFilter SpecTurn.
Import ListNotations.
Local Open Scope R_scope.

(** The world and the robot in a mirror that exchanges front and back, left
    and right, or up and down. *)
Inductive mirror := Front_back | Left_right | Up_down.

(** Of positions, velocities and accelerations the component across the mirror
    changes its sign; of angles and angular velocities the other two.
    State order: x y z roll pitch yaw vx vy vz wroll wpitch wyaw ax ay az. *)
Definition flipped (p : mirror) : list nat :=
  match p with
  | Front_back => [0; 4; 5; 6; 10; 11; 12]
  | Left_right => [1; 3; 5; 7; 9; 11; 13]
  | Up_down => [2; 3; 4; 8; 9; 10; 14]
  end%nat.
Definition sign (p : mirror) (k : nat) : R := if existsb (Nat.eqb k) (flipped p) then -1 else 1.

Definition mirror_vec (p : mirror) (x : rvec) : rvec := fun k => sign p k * x k.
Definition mirror_mat (p : mirror) (A : rmat) : rmat := fun i j => sign p i * sign p j * A i j.

(** Angles count up to whole turns. *)
Definition mirrored_entry (p : mirror) (k : nat) (u u' : R) : Prop :=
  (angular k -> same_angle u' (sign p k * u)) /\ (~ angular k -> u' = sign p k * u).
Definition mirrored_state (p : mirror) (x x' : rvec) : Prop := forall k, mirrored_entry p k (x k) (x' k).

Definition mirrored_filter {E} (p : mirror) (f f' : fb RScalar E) : Prop :=
  fb_initialized f' = fb_initialized f /\ fb_last_time f' = fb_last_time f /\
  mirrored_state p (fb_state f) (fb_state f') /\ forall i j, fb_P f' i j = mirror_mat p (fb_P f) i j.

(** A measurement in the mirror; only what is selected counts. *)
Definition mirrored_meas (p : mirror) (m m' : meas RScalar) : Prop :=
  exists v C u,
    m' = mkMeas (m_topic m) (m_time m) v C (m_upd m) (m_thresh m) u (m_control_time m) /\
    let sel k := nth k (m_upd m) false = true in
    (forall k, sel k -> mirrored_entry p k (m_value m k) (v k)) /\
    (forall i j, sel i -> sel j -> C i j = mirror_mat p (m_cov m) i j).

(** No measured angle is opposite to the expected one: there, a turn to the
    left and one to the right are equally long. *)
Definition no_tie (x : rvec) (m : meas RScalar) : Prop :=
  forall k, angular k -> nth k (m_upd m) false = true -> ~ same_angle (m_value m k) (x k + PI).
(** The state with which processMeasurement compares a measurement. *)
Definition expected {E} (vt : vtbl RScalar E) (f : fb RScalar E) (m : meas RScalar) : rvec :=
  if (m_time m >? fb_last_time f)%Z
  then fb_state (v_predict vt f (m_time m) (m_time m - fb_last_time f)) else fb_state f.

(** Calls of the two filters. *)
Definition mirrored_op {E} (p : mirror) (vt : vtbl RScalar E) (f : fb RScalar E) (o o' : fb_op RScalar) : Prop :=
  match o, o' with
  | OpProcess m, OpProcess m' => mirrored_meas p m m' /\ noisy m /\
      (fb_initialized f = true -> no_tie (expected vt f m) m)
  | OpCorrect m, OpCorrect m' => mirrored_meas p m m' /\ noisy m /\ no_tie (fb_state f) m
  | OpSetControl u t, OpSetControl u' t' => t' = t /\ forall i, (i < 6)%nat -> u' i = sign p i * u i
  | OpSetControlParams _ _ al _ dl _, _ => o' = o /\ Forall (Rle 0) al /\ Forall (Rle 0) dl
  | OpSetP A, OpSetP A' | OpSetQ A, OpSetQ A' => forall i j, A' i j = mirror_mat p A i j
  | OpSetState x, OpSetState x' => mirrored_state p x x'
  | OpCorrect _, _ | OpProcess _, _ | OpSetControl _ _, _ | OpSetP _, _ | OpSetState _, _ | OpSetQ _, _ => False
  | _, _ => o' = o
  end.
Fixpoint mirrored_ops {E} (p : mirror) (vt : vtbl RScalar E) (f : fb RScalar E) (os os' : list (fb_op RScalar)) : Prop :=
  match os, os' with
  | [], [] => True
  | o :: r, o' :: r' => mirrored_op p vt f o o' /\ mirrored_ops p vt (fb_exec vt f o) r r'
  | _, _ => False
  end.
