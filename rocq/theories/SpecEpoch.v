(** * Specification vocabulary for the choice of the epoch (C99) *)

From Coq Require Import Reals ZArith List Bool String.
From Verif Require Import Scalar Mat FilterBase FilterOps StrMap Tf RosFilter RosConfig RosPrepare SpecPrepare.
Import ListNotations.
Local Open Scope Z_scope.

(** ** Queues that compare times only *)
(** Replacing the queued measurements by others in the same order replaces what
    is taken out accordingly. *)
Definition order_blind {K} (pq : pqueue K) : Prop :=
  forall R : meas K -> meas K -> Prop,
  (forall a a' b b', R a a' -> R b b' -> (m_time a' ?= m_time b') = (m_time a ?= m_time b)) ->
  (forall m m' q q', R m m' -> Forall2 R q q' -> Forall2 R (pq_push pq m q) (pq_push pq m' q')) /\
  (forall q q', Forall2 R q q' ->
     match pq_pop pq q, pq_pop pq q' with
     | None, None => True
     | Some (m, r), Some (m', r') => R m m' /\ Forall2 R r r'
     | _, _ => False
     end).

(** ** Every time [T] nanoseconds later *)
Section Later.
Context {K : Scalar}.
Variable T : Z.
(** Times from [lo] on, before and after, are compared. *)
Variable lo : Z.
Definition late (t : Z) : Prop := lo <= t /\ lo <= t + T.

(** The times of a filter, of a measurement, of a message. *)
Definition retimed {E} (f : fb K E) (last control : Z) : fb K E := set_control_time (set_last_time f last) control.
Definition delayed_meas (m m' : meas K) : Prop :=
  exists t, m' = mkMeas (m_topic m) (m_time m + T) (m_value m) (m_cov m) (m_upd m) (m_thresh m) (m_control m) t.
Definition delayed_odom (o : odom_msg K) : odom_msg K :=
  mkOdom (o_stamp o + T) (o_frame o) (o_child o) (o_position o) (o_orientation o) (o_linear o) (o_angular o) (o_pose_cov o) (o_twist_cov o).
Definition delayed_accel (a : accel_msg K) : accel_msg K :=
  mkAccel (ac_stamp a + T) (ac_frame a) (ac_linear a) (ac_angular a) (ac_cov a).
Definition delayed_tf (t : tf_msg K) : tf_msg K :=
  mkTfMsg (tf_stamp t + T) (tf_frame t) (tf_child t) (tf_translation t) (tf_rotation t).
Definition delayed_pose (p : pose_msg K) : pose_msg K :=
  mkPose (ps_stamp p + T) (ps_frame p) (ps_position p) (ps_orientation p) (ps_cov p).
Definition delayed_twist (t : twist_msg K) : twist_msg K :=
  mkTwist (tw_stamp t + T) (tw_frame t) (tw_linear t) (tw_angular t) (tw_cov t).
Definition delayed_imu (i : imu_msg K) : imu_msg K :=
  mkImu (im_stamp i + T) (im_frame i) (im_orientation i) (im_angular i) (im_linear i) (im_ori_cov i) (im_ang_cov i) (im_acc_cov i).
Definition delayed_msg (m : sensor_msg K) : sensor_msg K :=
  match m with
  | MsgOdom o => MsgOdom (delayed_odom o)
  | MsgPose p => MsgPose (delayed_pose p)
  | MsgTwist t => MsgTwist (delayed_twist t)
  | MsgImu i => MsgImu (delayed_imu i)
  end.
Definition stamp_of (m : sensor_msg K) : Z :=
  match m with MsgOdom o => o_stamp o | MsgPose p => ps_stamp p | MsgTwist t => tw_stamp t | MsgImu i => im_stamp i end.

(** What is observed: the stamps are [T] later, everything else is the same. *)
Definition delayed_output {E} (o o' : output K E) : Prop :=
  match o with
  | OutOdom m => o' = OutOdom (delayed_odom m)
  | OutAccel m => o' = OutAccel (delayed_accel m)
  | OutTf t => o' = OutTf (delayed_tf t)
  | OutQueued m => exists m', o' = OutQueued m' /\ delayed_meas m m'
  | OutFused f m => exists last control m', o' = OutFused (retimed f last control) m' /\ delayed_meas m m' /\
      (fb_initialized f = true -> last = fb_last_time f + T)
  | OutPredict r delta => o' = OutPredict (r + T) delta
  | _ => o' = o
  end.

(** Two environments in which the transforms looked up for a message stamped
    [t], respectively [t + T], are the same. *)
Definition same_view (e e' : penv K) (t : Z) : Prop :=
  e_two_d e' = e_two_d e /\ e_gravity e' = e_gravity e /\ e_remove e' = e_remove e /\
  (forall target source, lookupTransformSafe e' target source (t + T) = lookupTransformSafe e target source t) /\
  (forall target source, lookupTransformSafe e' target source (pose_lookup_time e' (t + T)) =
                         lookupTransformSafe e target source (pose_lookup_time e t)).

Inductive delayed_input {E} (c : config K) : @input K E -> @input K E -> Prop :=
| delayed_message : forall e e' s m, late (stamp_of m) -> same_view e e' (stamp_of m) ->
    delayed_input c (Message e s m) (Message e' s (delayed_msg m))
| delayed_set_pose : forall e e' p now, late now -> same_view e e' (ps_stamp p) ->
    delayed_input c
      (Event (EvSetPose (ps_stamp p) (preparePose e c p "set_pose" (c_world c) (c_base c) false false false) now))
      (Event (EvSetPose (ps_stamp p + T) (preparePose e' c (delayed_pose p) "set_pose" (c_world c) (c_base c) false false false) (now + T)))
| delayed_control : forall frame ctl stamp,
    delayed_input c (Event (EvControl frame ctl stamp)) (Event (EvControl frame ctl (stamp + T)))
| delayed_cycle : forall cur later lookup, late cur -> late later ->
    delayed_input c (Event (EvCycle cur later lookup)) (Event (EvCycle (cur + T) (later + T) lookup))
| delayed_other : forall ev, match ev with EvToggle _ | EvEnable | EvReset | EvDiagnostics => True | _ => False end ->
    delayed_input c (Event ev) (Event ev).

(** The same for calls of the filter's member functions. *)
Inductive delayed_op : fb_op K -> fb_op K -> Prop :=
| delayed_process : forall m m', late (m_time m) -> delayed_meas m m' -> delayed_op (OpProcess m) (OpProcess m')
| delayed_correct : forall m m', delayed_meas m m' -> delayed_op (OpCorrect m) (OpCorrect m')
| delayed_predict : forall r d, late r -> delayed_op (OpPredict r d) (OpPredict (r + T) d)
| delayed_set_control : forall u t, delayed_op (OpSetControl u t) (OpSetControl u (t + T))
| delayed_params : forall upd timeout al ag dl dg, timeout <= lo ->
    delayed_op (OpSetControlParams upd timeout al ag dl dg) (OpSetControlParams upd timeout al ag dl dg)
| delayed_last : forall t, delayed_op (OpSetLastTime t) (OpSetLastTime (t + T))
| delayed_setting : forall o, match o with OpSetUseDyn _ | OpSetP _ | OpSetQ _ | OpSetTimeout _ | OpSetState _ | OpReset => True | _ => False end ->
    delayed_op o o.
End Later.

(** The uninitialised time of the last differentiation, [T] later. *)
Definition delayed_ang (T : Z) (a : angular RScalar) : angular RScalar :=
  mkAng (a_acc a) (a_cov a) (a_last_twist a) (a_last_time a + IZR T / IZR 1000000000)%R.
