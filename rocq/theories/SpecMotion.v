(** * Specification of the motion model (real arithmetic)

    State order: x y z roll pitch yaw vx vy vz wroll wpitch wyaw ax ay az. *)

From Coq Require Import Reals List Arith.
From Verif Require Import SpecLin SpecFilter.
Local Open Scope R_scope.

(** Elementary rotations and the roll-pitch-yaw body-to-world rotation. *)
Definition mat3 (a b c d e f g h i : R) : rmat := fun r s =>
  match r, s with
  | 0%nat, 0%nat => a | 0%nat, 1%nat => b | 0%nat, 2%nat => c
  | 1%nat, 0%nat => d | 1%nat, 1%nat => e | 1%nat, 2%nat => f
  | 2%nat, 0%nat => g | 2%nat, 1%nat => h | 2%nat, 2%nat => i
  | _, _ => 0
  end.
Definition Rx (t : R) : rmat := mat3 1 0 0  0 (cos t) (- sin t)  0 (sin t) (cos t).
Definition Ry (t : R) : rmat := mat3 (cos t) 0 (sin t)  0 1 0  (- sin t) 0 (cos t).
Definition Rz (t : R) : rmat := mat3 (cos t) (- sin t) 0  (sin t) (cos t) 0  0 0 1.
Definition Rrpy (r p y : R) : rmat := rmul 3 (Rz y) (rmul 3 (Ry p) (Rx r)).

(** World position after [dt] with constant body acceleration, attitude frozen. *)
Definition next_position (x : rvec) (dt : R) (k : nat) : R :=
  x k + rsum 3 (fun l => Rrpy (x 3%nat) (x 4%nat) (x 5%nat) k l *
                         (x (6 + l)%nat * dt + / 2 * x (12 + l)%nat * (dt * dt))).

(** Euler-angle rates for body rates w (index 9, 10, 11). *)
Definition roll_rate (x : rvec) : R :=
  x 9%nat + sin (x 3%nat) * (sin (x 4%nat) / cos (x 4%nat)) * x 10%nat
          + cos (x 3%nat) * (sin (x 4%nat) / cos (x 4%nat)) * x 11%nat.
Definition pitch_rate (x : rvec) : R :=
  cos (x 3%nat) * x 10%nat - sin (x 3%nat) * x 11%nat.
Definition yaw_rate (x : rvec) : R :=
  sin (x 3%nat) / cos (x 4%nat) * x 10%nat + cos (x 3%nat) / cos (x 4%nat) * x 11%nat.

(** [x'] follows from [x] after [dt] seconds. *)
Definition motion_step (x : rvec) (dt : R) (x' : rvec) : Prop :=
  (forall k, (k < 3)%nat -> x' k = next_position x dt k) /\
  wrapped (x 3%nat + roll_rate x * dt) (x' 3%nat) /\
  wrapped (x 4%nat + pitch_rate x * dt) (x' 4%nat) /\
  wrapped (x 5%nat + yaw_rate x * dt) (x' 5%nat) /\
  (forall k, (k < 3)%nat -> x' (6 + k)%nat = x (6 + k)%nat + x (12 + k)%nat * dt) /\
  (forall k, (k < 3)%nat -> x' (9 + k)%nat = x (9 + k)%nat) /\
  (forall k, (k < 3)%nat -> x' (12 + k)%nat = x (12 + k)%nat).

(** Component [i] of the un-normalised motion model, as a function of the state. *)
Definition motion_fun (dt : R) (x : rvec) (i : nat) : R :=
  match i with
  | 0%nat | 1%nat | 2%nat => next_position x dt i
  | 3%nat => x 3%nat + roll_rate x * dt
  | 4%nat => x 4%nat + pitch_rate x * dt
  | 5%nat => x 5%nat + yaw_rate x * dt
  | 6%nat => x 6%nat + x 12%nat * dt
  | 7%nat => x 7%nat + x 13%nat * dt
  | 8%nat => x 8%nat + x 14%nat * dt
  | _ => x i
  end.

(** Acceleration commanded for one axis: proportional to the velocity error,
    clamped to the limit that applies (braking or accelerating). *)
Definition commanded_accel (vel target acc_lim acc_gain dec_lim dec_gain : R) (a : R) : Prop :=
  let err := target - vel in
  let reference := if Rle_dec (Rabs err) (Rabs target + / 100) then target else 0 in
  let braking := Rabs reference < Rabs vel in
  (braking -> a = Rmin (Rmax (dec_gain * err) (- dec_lim)) dec_lim) /\
  (~ braking -> a = Rmin (Rmax (acc_gain * err) (- acc_lim)) acc_lim).

(** The state that enters the motion model once control accelerations [acc]
    (six axes, [sel] tells which linear axes are commanded) are applied. *)
Definition controlled_state (sel : nat -> bool) (acc : rvec) (x : rvec) (dt : R) : rvec :=
  fun k =>
    if (Nat.leb 9 k && Nat.leb k 11)%bool then x k + acc (k - 6)%nat * dt
    else if (Nat.leb 12 k && Nat.leb k 14)%bool
    then (if sel (k - 12)%nat then acc (k - 12)%nat else x k)
    else x k.

(** The state [x] with variable [j] replaced by [t]. *)
Definition with_var (x : rvec) (j : nat) (t : R) : rvec := fun k => if Nat.eqb k j then t else x k.
