(** * Specification vocabulary for the unset velocity command (C91) *)

From Coq Require Import ZArith List Bool String.
From Verif Require Import Scalar Mat FilterBase Tf RosFilter.
Import ListNotations.
Local Open Scope list_scope.

Section SpecStale.
Context {K : Scalar} {E : Type}.

(** The same filter with another content of its command member. *)
Definition with_command (u : vec K) (f : fb K E) : fb K E := set_control f u.
(** The same node with another content of its filter's command member. *)
Definition other_memory (u : vec K) (n : node K E) : node K E := with_filter n (with_command u (n_filter n)).

(** The command counts as timed out for a prediction at [r]. *)
Definition timed_out_at (f : fb K E) (r : Z) : Prop :=
  fb_use_control f = false \/ (fb_control_timeout f <= r - fb_control_time f)%Z.

(** A filter class whose prediction does not read a command that has timed out
    and whose correction reads none; neither changes what decides about it. *)
Definition same_settings (f f' : fb K E) : Prop :=
  fb_use_control f' = fb_use_control f /\ fb_control_timeout f' = fb_control_timeout f /\ fb_control_time f' = fb_control_time f.
Definition blind_when_timed_out (vt : vtbl K E) : Prop :=
  (forall f u r d, timed_out_at f r -> v_predict vt (with_command u f) r d = with_command u (v_predict vt f r d)) /\
  (forall f u m, v_correct vt (with_command u f) m = with_command u (v_correct vt f m)) /\
  (forall f r d, same_settings f (v_predict vt f r d)) /\ (forall f m, same_settings f (v_correct vt f m)).

(** Preparation does not look at the filter's command or the saved states. *)
Definition blind_prep (prep : prepfun K E) : Prop :=
  forall n u hs, prep (with_state_hist (other_memory u n) hs) = prep n.
Definition blind_event (ev : event K E) : Prop :=
  match ev with EvSensor _ _ _ _ _ prep | EvSetPose _ prep _ => blind_prep prep | _ => True end.

(** Cycles run, and measurements are fused, at time [t] or later. *)
Definition cycles_from (t : Z) (es : list (event K E)) : Prop :=
  Forall (fun ev => match ev with EvCycle cur _ _ => (t <= cur)%Z | _ => True end) es.
Definition fused_from (t : Z) (os : list (output K E)) : Prop :=
  Forall (fun o => match o with OutFused _ m => (t <= m_time m)%Z | _ => True end) os.

(** What is compared: everything sent, queued and fused, the filter before each
    fusion without its command. *)
Definition observed (o : output K E) : output K E :=
  match o with OutFused f m => OutFused (with_command vzero f) m | _ => o end.
End SpecStale.
