(** * Specification vocabulary for the choice of the origin (C95) *)

From Coq Require Import Reals ZArith List Bool String.
From Verif Require Import Scalar Mat FilterBase Ukf StrMap Tf RosFilter RosConfig RosPrepare SpecPrepare.
Import ListNotations.
Local Open Scope R_scope.
Local Open Scope list_scope.

(** ** Queues that look at times only *)
Section Blind.
Context {K : Scalar}.
(** Replacing the queued measurements by others of the same times replaces what
    is taken out accordingly. *)
Definition time_blind (pq : pqueue K) : Prop :=
  forall R : meas K -> meas K -> Prop, (forall m m', R m m' -> m_time m' = m_time m) ->
  (forall m m' q q', R m m' -> Forall2 R q q' -> Forall2 R (pq_push pq m q) (pq_push pq m' q')) /\
  (forall q q', Forall2 R q q' ->
     match pq_pop pq q, pq_pop pq q' with
     | None, None => True
     | Some (m, r), Some (m', r') => R m m' /\ Forall2 R r r'
     | _, _ => False
     end).
End Blind.

(** ** An origin moved by [d] *)
Section Shift.
Variable d : vec3 RScalar.
(** How far the raw positions of each pose topic move. *)
Variable D : string -> vec3 RScalar.

Definition along_axis (k : nat) : R := match k with O => v3x d | S O => v3y d | S (S O) => v3z d | _ => 0%R end.

Definition moved_vec (x x' : vec RScalar) : Prop := forall k, x' k = x k + along_axis k.

(** An estimate counts once the filter is initialised; what a filter keeps
    besides the common members is not compared. *)
Definition moved_filter {E} (f f' : fb RScalar E) : Prop :=
  exists x p e, f' = set_ext (set_predicted (set_state f x) p) e /\
    forall k, fb_initialized f = true \/ along_axis k = 0 -> x k = fb_state f k + along_axis k.

(** Only what the flags select counts. *)
Definition moved_meas (m m' : meas RScalar) : Prop :=
  exists v, m' = mkMeas (m_topic m) (m_time m) v (m_cov m) (m_upd m) (m_thresh m) (m_control m) (m_control_time m) /\
    forall k, flag (m_upd m) k = true -> v k = m_value m k + along_axis k.

Definition moved_place (t : trans RScalar) : trans RScalar := mkTrans (t_basis t) (v3add (t_origin t) d).

Definition moved_odom (o : odom_msg RScalar) : odom_msg RScalar :=
  mkOdom (o_stamp o) (o_frame o) (o_child o) (v3add (o_position o) d) (o_orientation o) (o_linear o) (o_angular o)
    (o_pose_cov o) (o_twist_cov o).
Definition moved_tf (t : tf_msg RScalar) : tf_msg RScalar :=
  mkTfMsg (tf_stamp t) (tf_frame t) (tf_child t) (v3add (tf_translation t) d) (tf_rotation t).

(** Positions move, everything else is the same. *)
Definition moved_output {E} (o o' : output RScalar E) : Prop :=
  match o with
  | OutOdom m => o' = OutOdom (moved_odom m)
  | OutTf t => o' = OutTf (moved_tf t)
  | OutQueued m => exists m', o' = OutQueued m' /\ moved_meas m m'
  | OutFused f m => exists f' m', o' = OutFused f' m' /\ moved_filter f f' /\ moved_meas m m'
  | _ => o' = o
  end.

(** A message with its position moved by [v]. *)
Definition moved_pose (v : vec3 RScalar) (p : pose_msg RScalar) : pose_msg RScalar :=
  mkPose (ps_stamp p) (ps_frame p) (v3add (ps_position p) v) (ps_orientation p) (ps_cov p).
Definition moved_odometry (v : vec3 RScalar) (o : odom_msg RScalar) : odom_msg RScalar :=
  mkOdom (o_stamp o) (o_frame o) (o_child o) (v3add (o_position o) v) (o_orientation o) (o_linear o) (o_angular o)
    (o_pose_cov o) (o_twist_cov o).

(** The transform into the world frame looked up for a pose message. *)
Definition looked_up (e : penv RScalar) (c : config RScalar) (p : pose_msg RScalar) : option (trans RScalar) :=
  let '(target, source) := pose_frames c (ps_frame p) (c_world c) false false in
  lookupTransformSafe e target source (pose_lookup_time e (ps_stamp p)).

Definition no_position (upd : list bool) : Prop := forall k, (k < 3)%nat -> flag upd k = false.

(** How a pose topic may move.  One that is fused as it is: by what is [d] in the
    world frame.  One that is differentiated, and one whose position is not
    fused: by anything.  One taken relative to its first message: only if [d]
    is zero. *)
Definition pose_moves (e : penv RScalar) (c : config RScalar) (cd : callback_data RScalar) (p : pose_msg RScalar) : Prop :=
  cd_differential cd = true \/ no_position (cd_upd cd) \/
  (cd_relative cd = true /\ d = v3zero) \/
  (cd_relative cd = false /\ forall t, looked_up e c p = Some t -> m3mv (t_basis t) (D (cd_topic cd)) = d).

(** two_d_mode holds the height at zero. *)
Definition level_move (e : penv RScalar) : Prop := e_two_d e = true -> v3z d = 0.

Inductive moved_input {E} (c : config RScalar) : @input RScalar E -> @input RScalar E -> Prop :=
| moved_pose_msg : forall e cd p, level_move e -> pose_moves e c cd p ->
    moved_input c (Message e (SubPose cd) (MsgPose p)) (Message e (SubPose cd) (MsgPose (moved_pose (D (cd_topic cd)) p)))
| moved_odom_msg : forall e topic a b o, level_move e -> pose_moves e c a (odom_pose o) -> no_position (cd_upd b) ->
    moved_input c (Message e (SubOdom topic a b) (MsgOdom o))
                  (Message e (SubOdom topic a b) (MsgOdom (moved_odometry (D (cd_topic a)) o)))
| moved_twist_msg : forall e a t, level_move e -> no_position (cd_upd a) ->
    moved_input c (Message e (SubTwist a) (MsgTwist t)) (Message e (SubTwist a) (MsgTwist t))
| moved_imu_msg : forall e topic a b g i, level_move e -> D (cd_topic a) = v3zero ->
    no_position (cd_upd a) -> no_position (cd_upd b) -> no_position (cd_upd g) ->
    moved_input c (Message e (SubImu topic a b g) (MsgImu i)) (Message e (SubImu topic a b g) (MsgImu i))
| moved_set_pose : forall e p v now t, level_move e -> looked_up e c p = Some t -> m3mv (t_basis t) v = d ->
    moved_input c
      (Event (EvSetPose (ps_stamp p) (preparePose e c p "set_pose" (c_world c) (c_base c) false false false) now))
      (Event (EvSetPose (ps_stamp p) (preparePose e c (moved_pose v p) "set_pose" (c_world c) (c_base c) false false false) now))
| moved_event : forall ev, match ev with EvSensor _ _ _ _ _ _ | EvSetPose _ _ _ => False | _ => True end ->
    moved_input c (Event ev) (Event ev).

(** Whenever an uninitialised filter is started, the measurement it starts from
    fixes the axes along which the origin moves. *)
Definition anchored {E} (os : list (output RScalar E)) : Prop :=
  Forall (fun o => match o with
                   | OutFused f m => fb_initialized f = false -> forall k, along_axis k <> 0 -> flag (m_upd m) k = true
                   | _ => True
                   end) os.
End Shift.

(** A correction without a prediction over the gap is not made with sigma points
    that have never been generated (all zero since the construction). *)
Definition points_generated (os : list (output RScalar (ukf_ext RScalar))) : Prop :=
  Forall (fun o => match o with
                   | OutFused f m => fb_initialized f = true -> u_uncorrected (fb_ext f) = true -> (m_time m <= fb_last_time f)%Z ->
                       exists i k, u_sigma (K := RScalar) (fb_ext f) i k <> 0
                   | _ => True
                   end) os.
