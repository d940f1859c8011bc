(** * Vocabulary for velocity commands (C89) *)

From Coq Require Import ZArith List Bool String.
From Verif Require Import Scalar Mat FilterBase Tf RosFilter.
Import ListNotations.

Section SpecCommand.
Context {K : Scalar} {E : Type}.

(** A command as the filter stores it: values and stamp. *)
Definition command_of (f : fb K E) : vec K * Z := (fb_control f, fb_control_time f).
(** Predictions and corrections leave it alone. *)
Definition keeps_command (vt : vtbl K E) : Prop :=
  (forall s r d, command_of (v_predict vt s r d) = command_of s) /\
  (forall s m, command_of (v_correct vt s m) = command_of s).

(** A command is meant for the robot if it names the body frame or no frame. *)
Definition in_body_frame (base frame : string) : Prop := frame = base \/ frame = EmptyString.

(** [last_command base u es v]: after the events [es] the last command given in
    the body frame is [v]; it is [u] if there was none. *)
Inductive last_command (base : string) (u : vec K * Z) : list (event K E) -> vec K * Z -> Prop :=
| no_command : last_command base u [] u
| taken : forall es v frame ctl stamp, last_command base u es v -> in_body_frame base frame ->
    last_command base u (es ++ [EvControl frame ctl stamp]) (ctl, stamp)
| refused : forall es v frame ctl stamp, last_command base u es v -> ~ in_body_frame base frame ->
    last_command base u (es ++ [EvControl frame ctl stamp]) v
| other : forall es v ev, last_command base u es v -> (forall frame ctl stamp, ev <> EvControl frame ctl stamp) ->
    last_command base u (es ++ [ev]) v.

(** The stamp that the node keeps is cleared by a reset. *)
Definition no_resets (es : list (event K E)) : Prop := Forall (fun ev => ev <> EvReset) es.
End SpecCommand.
