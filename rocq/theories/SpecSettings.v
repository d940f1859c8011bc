(** * What a filter has been told (C105)

    Read off the history of calls, newest call decides. *)

From Coq Require Import ZArith List Bool Arith.
From Verif Require Import Scalar Mat FilterBase FilterOps RosFilter SpecPrepare.
Import ListNotations.

Section SpecSettings.
Context {K : Scalar} {E : Type}.

(** The value given by the last call that gives one. *)
Fixpoint lastly {A : Type} (given : fb_op K -> option A) (before : A) (os : list (fb_op K)) : A :=
  match os with
  | [] => before
  | o :: r => lastly given (match given o with Some a => a | None => before end) r
  end.

(** How velocity commands are followed: for how long, on which axes, with which
    limits and gains when speeding up and when slowing down. *)
Record drive : Type := mkDrive {
  dr_timeout : Z; dr_axes : list bool;
  dr_up_limits : list K; dr_up_gains : list K; dr_down_limits : list K; dr_down_gains : list K }.
Definition drive_of (f : fb K E) : drive :=
  mkDrive (fb_control_timeout f) (fb_control_upd f) (fb_acc_limits f) (fb_acc_gains f) (fb_dec_limits f) (fb_dec_gains f).
Definition gives_drive (o : fb_op K) : option (bool * drive) :=
  match o with
  | OpSetControlParams axes timeout up_limits up_gains down_limits down_gains =>
      Some (true, mkDrive timeout axes up_limits up_gains down_limits down_gains)
  | _ => None
  end.
Definition no_drive : bool * drive :=
  let z := repeat (s_ofZ 0) 6 in (false, mkDrive 0 (repeat false 6) z z z z).

(** The command itself and its time: not forgotten by a reset. *)
Definition gives_command (o : fb_op K) : option (vec K * Z) :=
  match o with OpSetControl u t => Some (u, t) | _ => None end.
Definition gives_dynamic (o : fb_op K) : option bool :=
  match o with OpSetUseDyn b => Some b | _ => None end.
(** A reset sets the timeout to 0.033333333 s. *)
Definition gives_timeout (o : fb_op K) : option Z :=
  match o with OpSetTimeout d => Some d | OpReset => Some 33333333%Z | _ => None end.
(** A reset sets the process noise to the built-in one. *)
Definition built_in_noise : mat K :=
  fun i j => if Nat.eqb i j then
    nth i [lit 5 2; lit 5 2; lit 6 2; lit 3 2; lit 3 2; lit 6 2; lit 25 3; lit 25 3; lit 4 2; lit 1 2; lit 1 2; lit 2 2;
           lit 1 2; lit 1 2; lit 15 3] (s_ofZ 0) else s_ofZ 0.
Definition gives_noise (o : fb_op K) : option (mat K) :=
  match o with OpSetQ Q => Some Q | OpReset => Some built_in_noise | _ => None end.

(** A filter is initialised from its first measurement until the next reset. *)
Definition gives_initialised (o : fb_op K) : option bool :=
  match o with OpProcess _ => Some true | OpReset => Some false | _ => None end.

(** The time of the filter, newest call first: the first measurement after a
    reset sets it, later ones only advance it. *)
Fixpoint clock (newest_first : list (fb_op K)) : Z :=
  match newest_first with
  | [] => 0
  | OpSetLastTime t :: _ => t
  | OpReset :: _ => 0
  | OpProcess m :: r => if lastly gives_initialised false (rev r) then Z.max (clock r) (m_time m) else m_time m
  | _ :: r => clock r
  end.

(** Calls that touch neither estimate nor covariance. *)
Definition leaves_estimate (o : fb_op K) : Prop :=
  match o with
  | OpSetControl _ _ | OpSetControlParams _ _ _ _ _ _ | OpSetUseDyn _ | OpSetLastTime _ | OpSetQ _ | OpSetTimeout _ => True
  | _ => False
  end.

(** Everything a node configures in its filter, but for the process noise. *)
Definition same_settings (f f' : fb K E) : Prop :=
  fb_use_control f' = fb_use_control f /\ drive_of f' = drive_of f /\
  fb_use_dyn f' = fb_use_dyn f /\ fb_sensor_timeout f' = fb_sensor_timeout f.
Definition same_noise (f f' : fb K E) : Prop :=
  forall i j, (i < 15)%nat -> (j < 15)%nat -> fb_Q f' i j = fb_Q f i j.
Definition no_reset (is : list (input (K:=K) (E:=E))) : Prop := Forall (fun i => i <> Event EvReset) is.
End SpecSettings.
Arguments drive K : clear implicits.
