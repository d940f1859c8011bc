(** * Vocabulary for the node properties (C26-C41, C58)

    Nothing here refers to the node's own helper functions: a run is observed
    through its outputs, its events and the fields of the node. *)

From Coq Require Import ZArith List Permutation Sorting.Sorted Bool.
From Verif Require Import Scalar Mat FilterBase RosFilter.
Import ListNotations.
Local Open Scope Z_scope.

Section SpecNode.
Context {K : Scalar} {E : Type}.

(** What std::priority_queue promises for the comparison of measurements: push
    adds, pop takes out an element that does not have lower priority than any
    other, and only an empty queue has no top. *)
Definition pq_ok (pq : pqueue K) : Prop :=
  (forall m q, Permutation (pq_push pq m q) (m :: q)) /\
  (forall q, pq_pop pq q = None <-> q = []) /\
  (forall q m r, pq_pop pq q = Some (m, r) ->
     Permutation q (m :: r) /\ forall x, In x q -> meas_later m x = false).

(** Observations of a list of outputs. *)
Fixpoint fused (os : list (output K E)) : list (meas K) :=
  match os with
  | [] => []
  | OutFused _ m :: r => m :: fused r
  | _ :: r => fused r
  end.
Fixpoint queued (os : list (output K E)) : list (meas K) :=
  match os with
  | [] => []
  | OutQueued m :: r => m :: queued r
  | _ :: r => queued r
  end.
Fixpoint odoms (os : list (output K E)) : list (odom_msg K) :=
  match os with
  | [] => []
  | OutOdom m :: r => m :: odoms r
  | _ :: r => odoms r
  end.
Fixpoint accels (os : list (output K E)) : list (accel_msg K) :=
  match os with
  | [] => []
  | OutAccel m :: r => m :: accels r
  | _ :: r => accels r
  end.
Fixpoint tfs (os : list (output K E)) : list (tf_msg K) :=
  match os with
  | [] => []
  | OutTf m :: r => m :: tfs r
  | _ :: r => tfs r
  end.
(** intervals of the predictions requested by the node itself *)
Fixpoint intervals (os : list (output K E)) : list Z :=
  match os with
  | [] => []
  | OutPredict _ d :: r => d :: intervals r
  | _ :: r => intervals r
  end.

(** Stamp order. *)
Definition no_later (a b : meas K) : Prop := m_time a <= m_time b.
Definition in_order (l : list (meas K)) : Prop := StronglySorted no_later l.

(** Clock readings of an event, in order. *)
Definition readings (e : event K E) : list Z :=
  match e with
  | EvSetPose _ _ now => [now]
  | EvCycle cur later _ => [cur; later]
  | _ => []
  end.
(** The clock never goes backwards and never reads less than [t0]. *)
Definition monotone_clock (t0 : Z) (es : list (event K E)) : Prop :=
  StronglySorted Z.le (t0 :: concat (map readings es)).

(** What both filters guarantee: prediction and correction leave the last
    measurement time and the initialised flag alone. *)
Definition time_neutral (vt : vtbl K E) : Prop :=
  (forall s r d, fb_last_time (v_predict vt s r d) = fb_last_time s /\
                 fb_initialized (v_predict vt s r d) = fb_initialized s) /\
  (forall s m, fb_last_time (v_correct vt s m) = fb_last_time s /\
               fb_initialized (v_correct vt s m) = fb_initialized s).

(** Events that throw queued measurements away: reset, set_pose, and a cycle
    of an enabled node that is toggled off. *)
Definition discards (n : node K E) (e : event K E) : bool :=
  match e with
  | EvReset | EvSetPose _ _ _ => true
  | EvCycle _ _ _ => (n_enabled n && negb (n_toggled n))%bool
  | _ => false
  end.
End SpecNode.

(** Measurements thrown away along a run: the queue at every discarding event. *)
Section Dropped.
Context {K : Scalar} {E : Type}.
Fixpoint dropped (pq : pqueue K) (vt : vtbl K E) (c : config K) (n : node K E) (es : list (event K E))
    : list (meas K) :=
  match es with
  | [] => []
  | e :: r => (if discards n e then n_queue n else []) ++ dropped pq vt c (fst (node_step pq vt c n e)) r
  end.

(** The same configuration with another history length. *)
Definition with_history (c : config K) (h : Z) : config K :=
  mkConfig (c_smooth c) (c_predict_now c) (c_use_control c) (c_permit c) (c_publish_tf c)
    (c_publish_acc c) (c_print_diag c) h (c_sensor_timeout c) (c_tf_offset c) (c_diag_period c)
    (c_Q c) (c_P c) (c_world c) (c_map c) (c_odom c) (c_base c) (c_base_out c).

(** A filter that logs the interval of every prediction it is asked for, by
    whomever, in front of the subclass data. *)
Definition with_log {F : Type} (f : fb K E) (x : F) : fb K F :=
  mkFb (fb_initialized f) (fb_use_control f) (fb_use_dyn f) (fb_control_timeout f) (fb_last_time f)
    (fb_control_time f) (fb_sensor_timeout f) (fb_acc_gains f) (fb_acc_limits f) (fb_dec_gains f)
    (fb_dec_limits f) (fb_control_upd f) (fb_control_acc f) (fb_control f) (fb_predicted f) (fb_state f)
    (fb_dynQ f) (fb_P f) (fb_Q f) (fb_F f) (fb_J f) x.
End Dropped.

Section Recording.
Context {K : Scalar} {E : Type}.
Definition without_log (f : fb K (list Z * E)) : fb K E := with_log f (snd (fb_ext f)).
Definition recording (vt : vtbl K E) : vtbl K (list Z * E) :=
  mkVtbl
    (fun f r d => let g := v_predict vt (without_log f) r d in
                  with_log g (fst (fb_ext f) ++ [d], fb_ext g))
    (fun f m => let g := v_correct vt (without_log f) m in
                with_log g (fst (fb_ext f), fb_ext g)).
Definition logged (n : node K (list Z * E)) : list Z := fst (fb_ext (n_filter n)).
End Recording.

(** Events that neither reset the filter nor set its pose. *)
Definition no_reset {K : Scalar} {E : Type} (e : event K E) : Prop :=
  match e with EvReset => False | EvSetPose _ _ _ => False | _ => True end.

(** Enough history: at every cycle of an enabled node, each queued measurement
    older than the filter's time has an even older snapshot. *)
Section Deep.
Context {K : Scalar} {E : Type}.
Definition reaches_back (n : node K E) : Prop :=
  fb_initialized (n_filter n) = true ->
  forall m, In m (n_queue n) -> m_time m < fb_last_time (n_filter n) ->
  exists s, In s (n_state_hist n) /\ fs_time s < m_time m.
Fixpoint deep_enough (pq : pqueue K) (vt : vtbl K E) (c : config K) (n : node K E)
    (es : list (event K E)) : Prop :=
  match es with
  | [] => True
  | e :: r =>
      match e with EvCycle _ _ _ => n_enabled n = true -> reaches_back n | _ => True end /\
      deep_enough pq vt c (fst (node_step pq vt c n e)) r
  end.

(** Sensor messages, cycles, enabling and diagnostics: nothing that overrides
    the estimate, the control input or the processing switch. *)
Definition plain (e : event K E) : Prop :=
  match e with
  | EvSensor _ _ _ _ _ _ | EvCycle _ _ _ | EvEnable | EvDiagnostics => True
  | _ => False
  end.

(** The estimate proper. *)
Definition same_estimate (f g : fb K E) : Prop :=
  fb_initialized f = fb_initialized g /\ fb_state f = fb_state g /\ fb_P f = fb_P g /\
  fb_last_time f = fb_last_time g.
End Deep.

(** Control vectors with which the fused measurements were processed. *)
Section Controls.
Context {K : Scalar} {E : Type}.
Fixpoint controls (os : list (output K E)) : list (vec K) :=
  match os with
  | [] => []
  | OutFused f _ :: r => fb_control f :: controls r
  | _ :: r => controls r
  end.
(** Prediction and correction leave the control input alone. *)
Definition control_neutral (vt : vtbl K E) : Prop :=
  (forall s r d, fb_control (v_predict vt s r d) = fb_control s) /\
  (forall s m, fb_control (v_correct vt s m) = fb_control s).
End Controls.

(** Events by what they leave alone. *)
Section Kinds.
Context {K : Scalar} {E : Type}.
Definition no_hard_reset (e : event K E) : Prop := match e with EvReset => False | _ => True end.
Definition not_enable (e : event K E) : Prop := match e with EvEnable => False | _ => True end.
Definition keeps_queue (e : event K E) : Prop :=
  match e with EvReset => False | EvSetPose _ _ _ => False | EvEnable => False | _ => True end.

(** An odometry message that carries the estimate [f]: position, velocities and
    stamp (orientation and covariances are the subject of C42). *)
Definition carries (f : fb K E) (m : odom_msg K) : Prop :=
  let x := fb_state f in
  o_stamp m = fb_last_time f /\
  o_position m = Tf.mkV3 (x 0%nat) (x 1%nat) (x 2%nat) /\
  o_linear m = Tf.mkV3 (x 6%nat) (x 7%nat) (x 8%nat) /\
  o_angular m = Tf.mkV3 (x 9%nat) (x 10%nat) (x 11%nat).
End Kinds.
