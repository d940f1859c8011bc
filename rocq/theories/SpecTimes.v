(** * Where the times of a node come from (C97) *)

From Coq Require Import ZArith List.
From Verif Require Import Scalar FilterBase Tf RosFilter SpecNode.
Import ListNotations.
Local Open Scope Z_scope.

Section Times.
Context {K : Scalar} {E : Type}.

(** The stamps and clock readings an event brings.  The stamp of a set_pose
    request and of a velocity command are not among them. *)
Definition brought (e : event K E) : list Z :=
  match e with
  | EvSensor _ _ stamp _ _ _ => [stamp]
  | EvSetPose _ _ now => [now]
  | EvCycle cur later _ => [cur; later]
  | _ => []
  end.
Definition all_brought (es : list (event K E)) : list Z := concat (map brought es).

(** Every time an output shows is one of [T]. *)
Definition timed_by (c : config K) (T : list Z) (o : output K E) : Prop :=
  match o with
  | OutOdom m => In (o_stamp m) T
  | OutAccel m => In (ac_stamp m) T
  | OutTf m => In (tf_stamp m - c_tf_offset c) T
  | OutQueued m => In (m_time m) T
  | OutFused f m => In (m_time m) T /\ (fb_initialized f = true -> In (fb_last_time f) T)
  | OutPredict r d => In r T /\ In (r - d) T
  | _ => True
  end.

(** The same for what the node keeps. *)
Definition keeps_times (T : list Z) (n : node K E) : Prop :=
  (fb_initialized (n_filter n) = true -> In (fb_last_time (n_filter n)) T) /\
  (forall m, In m (n_queue n) -> In (m_time m) T) /\
  (forall m, In m (n_meas_hist n) -> In (m_time m) T) /\
  (forall s, In s (n_state_hist n) -> In (fs_time s) T).

(** Stamps shown by an output. *)
Definition stamps (c : config K) (o : output K E) : list Z :=
  match o with
  | OutOdom m => [o_stamp m]
  | OutAccel m => [ac_stamp m]
  | OutTf m => [tf_stamp m - c_tf_offset c]
  | _ => []
  end.
End Times.
