(** * Specification vocabulary for the choice of the heading (C98) *)

From Coq Require Import Reals ZArith List Bool.
From Verif Require Import Scalar Mat FilterBase FilterOps SpecLin SpecFilter.
Import ListNotations.
Local Open Scope R_scope.

Section Turn.
(** The world frame turned about the vertical: directions gain [a]. *)
Variable a : R.

(** x and y (entries 0, 1) of a vector turn. *)
Definition turn_vec (x : rvec) : rvec := fun k =>
  match k with
  | 0%nat => cos a * x 0%nat - sin a * x 1%nat
  | 1%nat => sin a * x 0%nat + cos a * x 1%nat
  | _ => x k
  end.
(** Rows and columns of a matrix. *)
Definition turn_mat (A : rmat) : rmat := fun i j => turn_vec (fun k => turn_vec (A k) j) i.

(** Equal up to whole turns. *)
Definition same_angle (u v : R) : Prop := exists z : Z, u = v + IZR z * (2 * PI).

(** The yaw gains [a]; the remaining variables are the robot's own. *)
Definition turned_state (x x' : rvec) : Prop :=
  (forall k, k <> 5%nat -> x' k = turn_vec x k) /\ same_angle (x' 5%nat) (x 5%nat + a).

(** A covariance in which the horizontal directions are alike. *)
Definition isotropic (A : rmat) : Prop := forall i j, turn_mat A i j = A i j.

Definition turned_filter {E} (f f' : fb RScalar E) : Prop :=
  fb_initialized f' = fb_initialized f /\ fb_last_time f' = fb_last_time f /\
  (fb_initialized f = true ->
     turned_state (fb_state f) (fb_state f') /\ forall i j, fb_P f' i j = turn_mat (fb_P f) i j).

(** A measurement made in the turned frame: of x and y both or none; only what
    is selected counts.  The variances of x and y are not so small that they
    are raised. *)
Definition turned_meas (m m' : meas RScalar) : Prop :=
  exists v C,
    m' = mkMeas (m_topic m) (m_time m) v C (m_upd m) (m_thresh m) (m_control m) (m_control_time m) /\
    let sel k := nth k (m_upd m) false = true in
    (sel 0%nat <-> sel 1%nat) /\
    (forall k, sel k -> k <> 5%nat -> v k = turn_vec (m_value m) k) /\
    (sel 5%nat -> same_angle (v 5%nat) (m_value m 5%nat + a)) /\
    (forall i j, sel i -> sel j -> C i j = turn_mat (m_cov m) i j) /\
    (forall i, (i < 2)%nat -> sel i -> / 1000000000 <= m_cov m i i /\ / 1000000000 <= C i i).

(** A first measurement: it measures the yaw, and x and y unless they are zero. *)
Definition starts_headed (x : rvec) (m : meas RScalar) : Prop :=
  nth 5 (m_upd m) false = true /\
  (nth 0 (m_upd m) false = true \/ x 0%nat = 0 /\ x 1%nat = 0).
(** Its noise, in the sense in which it is used, is positive definite. *)
Definition noisy (m : meas RScalar) : Prop :=
  pdef (length (selected m)) (fun i j => repaired_cov m (nth i (selected m) 0%nat) (nth j (selected m) 0%nat)).

(** Calls of the filter in the two frames. *)
Definition turned_op {E} (f : fb RScalar E) (o o' : fb_op RScalar) : Prop :=
  match o, o' with
  | OpProcess m, OpProcess m' => turned_meas m m' /\ noisy m /\
      (fb_initialized f = false -> starts_headed (fb_state f) m)
  | OpCorrect m, OpCorrect m' => turned_meas m m' /\ noisy m /\ fb_initialized f = true
  | OpSetP P, OpSetP P' => (forall i j, P' i j = turn_mat P i j) /\ (fb_initialized f = false -> isotropic P)
  | OpSetState x, OpSetState x' =>
      (fb_initialized f = true -> turned_state x x') /\ (fb_initialized f = false -> x' = x)
  | OpSetQ Q, OpSetQ Q' => Q' = Q /\ isotropic Q
  | OpPredict _ _, _ => o' = o /\ fb_initialized f = true
  | OpCorrect _, _ | OpProcess _, _ | OpSetP _, _ | OpSetState _, _ | OpSetQ _, _ => False
  | _, _ => o' = o
  end.
Fixpoint turned_ops {E} (vt : vtbl RScalar E) (f : fb RScalar E) (os os' : list (fb_op RScalar)) : Prop :=
  match os, os' with
  | [], [] => True
  | o :: r, o' :: r' => turned_op f o o' /\ turned_ops vt (fb_exec vt f o) r r'
  | _, _ => False
  end.
End Turn.
