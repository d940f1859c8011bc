(** * Vocabulary for filters that are told the truth (C104) *)

From Coq Require Import Reals ZArith List Bool Arith.
From Verif Require Import Scalar Mat Tf FilterBase FilterOps RosFilter RosPrepare SpecLin SpecFilter SpecMotion SpecTurn SpecTf SpecPrepare SpecPublished.
Import ListNotations.
Local Open Scope R_scope.

(** A motion of the robot: with constant acceleration (in its own frame) along
    a straight or bent line without turning, or turning on the spot on level
    ground with a constant rate. *)
Record course : Type := mkCourse {
  co_position : nat -> R;        (* at time zero *)
  co_attitude : nat -> R;        (* roll, pitch, yaw at time zero *)
  co_velocity : nat -> R;        (* in the robot's frame, at time zero *)
  co_acceleration : nat -> R;    (* in the robot's frame *)
  co_rate : R                    (* of the yaw *)
}.
Definition possible (c : course) : Prop :=
  cos (co_attitude c 1%nat) <> 0 /\
  (co_rate c = 0 \/
   co_attitude c 0%nat = 0 /\ co_attitude c 1%nat = 0 /\
   forall l, (l < 3)%nat -> co_velocity c l = 0 /\ co_acceleration c l = 0).

Definition still (c : course) : Prop :=
  co_rate c = 0 /\ forall l, (l < 3)%nat -> co_velocity c l = 0 /\ co_acceleration c l = 0.

(** The fifteen variables at [t] seconds. *)
Definition course_at (c : course) (t : R) (k : nat) : R :=
  match k with
  | 0%nat | 1%nat | 2%nat =>
      co_position c k +
      rsum 3 (fun l => Rrpy (co_attitude c 0%nat) (co_attitude c 1%nat) (co_attitude c 2%nat) k l *
                       (co_velocity c l * t + / 2 * co_acceleration c l * (t * t)))
  | 3%nat => co_attitude c 0%nat
  | 4%nat => co_attitude c 1%nat
  | 5%nat => co_attitude c 2%nat + co_rate c * t
  | 6%nat => co_velocity c 0%nat + co_acceleration c 0%nat * t
  | 7%nat => co_velocity c 1%nat + co_acceleration c 1%nat * t
  | 8%nat => co_velocity c 2%nat + co_acceleration c 2%nat * t
  | 11%nat => co_rate c
  | 12%nat => co_acceleration c 0%nat
  | 13%nat => co_acceleration c 1%nat
  | 14%nat => co_acceleration c 2%nat
  | _ => 0
  end.
(** At a time in nanoseconds. *)
Definition truth (c : course) (T : Z) : rvec := course_at c (IZR T / 1000000000).

(** Equal, angles up to whole turns. *)
Definition same_value (k : nat) (u v : R) : Prop :=
  (angular k -> same_angle u v) /\ (~ angular k -> u = v).
Definition same_state (x y : rvec) : Prop := forall k, (k < 15)%nat -> same_value k (x k) (y k).

(** What the measurement measures is so. *)
Definition truthful (m : meas RScalar) (y : rvec) : Prop :=
  length (m_upd m) = 15%nat /\ forall k, nth k (m_upd m) false = true -> same_value k (m_value m k) (y k).
(** What it does not measure is so already. *)
Definition completes (x : rvec) (m : meas RScalar) (y : rvec) : Prop :=
  forall k, (k < 15)%nat -> nth k (m_upd m) false = false -> same_value k (x k) (y k).

Section Told.
Context {E : Type}.
Variable c : course.
(** A call that does not contradict the course; the estimate is one of time [t].
    Measurements come in order, unless the robot stands still; no control is
    configured. *)
Definition told_op (f : fb RScalar E) (t : Z) (o : fb_op RScalar) : Prop :=
  match o with
  | OpPredict _ _ => fb_initialized f = true
  | OpCorrect m => truthful m (truth c t) /\ fb_initialized f = true
  | OpProcess m => truthful m (truth c (m_time m)) /\
      (fb_initialized f = true -> still c \/ fb_last_time f = t /\ (t <= m_time m)%Z) /\
      (fb_initialized f = false -> completes (fb_state f) m (truth c (m_time m)))
  | OpSetState x => fb_initialized f = true -> same_state x (truth c t)
  | OpSetControlParams _ _ _ _ _ _ => False
  | _ => True
  end.
(** The time of the estimate after a call. *)
Definition time_of_estimate (t : Z) (o : fb_op RScalar) : Z :=
  match o with
  | OpPredict _ d => (t + d)%Z
  | OpProcess m => m_time m
  | _ => t
  end.
Fixpoint told (vt : vtbl RScalar E) (f : fb RScalar E) (t : Z) (os : list (fb_op RScalar)) : Prop :=
  match os with
  | [] => True
  | o :: r => told_op f t o /\ told vt (fb_exec vt f o) (time_of_estimate t o) r
  end.

(** ** Nodes *)
(** A fused measurement: a call of processMeasurement. *)
Definition told_output (o : output RScalar E) : Prop :=
  match o with OutFused f m => told_op f (fb_last_time f) (OpProcess m) | _ => True end.
(** A set_pose request says the truth as well; processing is not suspended,
    unless the robot stands still. *)
Definition told_input (pq : pqueue RScalar) (vt : vtbl RScalar E) (cfg : config RScalar)
    (n : node RScalar E) (i : input (K := RScalar) (E := E)) : Prop :=
  match i with
  | Event (EvSetPose stamp prep now) =>
      let f := filter_after pq vt cfg n (EvSetPose stamp prep now) in
      fb_initialized f = true -> same_state (fb_state f) (truth c (fb_last_time f))
  | Event (EvToggle on) => on = true \/ still c
  | _ => True
  end.
(** What is published is so at the time of its stamp. *)
Definition true_output (o : output RScalar E) : Prop :=
  match o with
  | OutOdom m => let y := truth c (o_stamp m) in
      o_position m = v3 (y 0%nat) (y 1%nat) (y 2%nat) /\
      (forall v, spin (o_orientation m) v = oriented (y 3%nat) (y 4%nat) (y 5%nat) v) /\
      o_linear m = v3 (y 6%nat) (y 7%nat) (y 8%nat) /\ o_angular m = v3 (y 9%nat) (y 10%nat) (y 11%nat)
  | OutAccel m => let y := truth c (ac_stamp m) in ac_linear m = v3 (y 12%nat) (y 13%nat) (y 14%nat)
  | _ => True
  end.
End Told.
