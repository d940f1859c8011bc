(** * RosFilter: the node around the filter

    Models src/ros_filter.cpp: measurement queue, history, update cycle,
    services, message output.  Measurement preparation (preparePose and the
    like) enters the callbacks as a function argument here and is modelled in
    RosPrepare.v; configuration loading is in RosConfig.v.

    Simplifications: [rclcpp::ok()] is true; callbacks run one at a time (the
    node uses a single-threaded executor); logging is omitted; times are
    nanoseconds in [Z] (no int64 overflow); texts of diagnostics omit
    interpolated numbers. *)

From Coq Require Import ZArith Bool List String Arith.
From Verif Require Import Scalar Mat FilterBase Tf StrMap Diagnostics.
Import ListNotations.

(** std::priority_queue<MeasurementPtr, std::vector<MeasurementPtr>, Measurement>
    (ros_filter.hpp 92-94): a container together with push and
    top-and-pop; [pq_ok] of SpecNode.v relates it to [meas_later].  Its contents are a list; which of several equally early
    measurements is on top is left to the implementation. *)
Record pqueue (K : Scalar) : Type := mkPq {
  pq_push : meas K -> list (meas K) -> list (meas K);
  pq_pop : list (meas K) -> option (meas K * list (meas K))
}.
Arguments mkPq {K} _ _.
Arguments pq_push {K} _ _ _.
Arguments pq_pop {K} _ _.

Section RosFilter.
Context {K : Scalar} {E : Type}.
Local Open Scope sc_scope.

(** filter_state.hpp 53-81 *)
Record fstate : Type := mkFs {
  fs_state : vec K;          (* state_ *)
  fs_P : mat K;              (* estimate_error_covariance_ *)
  fs_time : Z;               (* last_measurement_time_ *)
  fs_control : vec K;        (* latest_control_ *)
  fs_control_time : Z        (* latest_control_time_ *)
}.

(** ros_filter.hpp 560-700: parameters read by loadParams *)
Record config : Type := mkConfig {
  c_smooth : bool;           (* smooth_lagged_data_ *)
  c_predict_now : bool;      (* predict_to_current_time_ *)
  c_use_control : bool;      (* use_control_ *)
  c_permit : bool;           (* permit_corrected_publication_ *)
  c_publish_tf : bool;       (* publish_transform_ *)
  c_publish_acc : bool;      (* publish_acceleration_ *)
  c_print_diag : bool;       (* print_diagnostics_ *)
  c_history : Z;             (* history_length_ *)
  c_sensor_timeout : Z;      (* sensor_timeout_ *)
  c_tf_offset : Z;           (* tf_time_offset_ *)
  c_diag_period : Z;         (* diagnostic_updater_->getPeriod() *)
  c_Q : mat K;               (* process_noise_covariance_ *)
  c_P : mat K;               (* initial_estimate_error_covariance_ *)
  c_world : string;          (* world_frame_id_ *)
  c_map : string;            (* map_frame_id_ *)
  c_odom : string;           (* odom_frame_id_ *)
  c_base : string;           (* base_link_frame_id_ *)
  c_base_out : string        (* base_link_output_frame_id_ *)
}.

(** ros_filter.hpp: initial_measurements_, previous_measurements_,
    previous_measurement_covariances_ *)
Record streams : Type := mkStreams {
  st_initial : smap (trans K);
  st_previous : smap (trans K);
  st_prev_cov : smap (mat K)
}.
Definition no_streams : streams := mkStreams [] [] [].

(** ros_filter.hpp 677-689 *)
Record angular : Type := mkAng {
  a_acc : vec3 K;            (* angular_acceleration_ *)
  a_cov : mat K;             (* angular_acceleration_cov_ *)
  a_last_twist : vec3 K;     (* last_state_twist_rot_ *)
  a_last_time : K            (* last_diff_time_ *)
}.

(** ros_filter.hpp 500-853: mutable members *)
Record node : Type := mkNode {
  n_filter : fb K E  (* filter_ *);
  n_queue : list (meas K)  (* measurement_queue_ *);
  n_meas_hist : list (meas K)  (* measurement_history_, front first *);
  n_state_hist : list fstate  (* filter_state_history_, front first *);
  n_streams : streams  (* initial_/previous_measurements_, previous_measurement_covariances_ *);
  n_last_msg : smap Z  (* last_message_times_ *);
  n_set_pose : Z  (* last_set_pose_time_ *);
  n_last_diag : Z  (* last_diag_time_ *);
  n_ctl : vec K  (* latest_control_ *);
  n_ctl_time : Z  (* latest_control_time_ *);
  n_last_pub : Z  (* last_published_stamp_ *);
  n_toggled : bool  (* toggled_on_ *);
  n_enabled : bool  (* enabled_ *);
  n_ang : angular  (* angular_acceleration_ and its inputs *);
  n_diag : diag  (* diagnostics *)
}.

Definition with_filter (n : node) (x : fb K E) : node :=
  mkNode x (n_queue n) (n_meas_hist n) (n_state_hist n) (n_streams n) (n_last_msg n) (n_set_pose n) (n_last_diag n) (n_ctl n) (n_ctl_time n) (n_last_pub n) (n_toggled n) (n_enabled n) (n_ang n) (n_diag n).
Definition with_queue (n : node) (x : list (meas K)) : node :=
  mkNode (n_filter n) x (n_meas_hist n) (n_state_hist n) (n_streams n) (n_last_msg n) (n_set_pose n) (n_last_diag n) (n_ctl n) (n_ctl_time n) (n_last_pub n) (n_toggled n) (n_enabled n) (n_ang n) (n_diag n).
Definition with_meas_hist (n : node) (x : list (meas K)) : node :=
  mkNode (n_filter n) (n_queue n) x (n_state_hist n) (n_streams n) (n_last_msg n) (n_set_pose n) (n_last_diag n) (n_ctl n) (n_ctl_time n) (n_last_pub n) (n_toggled n) (n_enabled n) (n_ang n) (n_diag n).
Definition with_state_hist (n : node) (x : list fstate) : node :=
  mkNode (n_filter n) (n_queue n) (n_meas_hist n) x (n_streams n) (n_last_msg n) (n_set_pose n) (n_last_diag n) (n_ctl n) (n_ctl_time n) (n_last_pub n) (n_toggled n) (n_enabled n) (n_ang n) (n_diag n).
Definition with_streams (n : node) (x : streams) : node :=
  mkNode (n_filter n) (n_queue n) (n_meas_hist n) (n_state_hist n) x (n_last_msg n) (n_set_pose n) (n_last_diag n) (n_ctl n) (n_ctl_time n) (n_last_pub n) (n_toggled n) (n_enabled n) (n_ang n) (n_diag n).
Definition with_last_msg (n : node) (x : smap Z) : node :=
  mkNode (n_filter n) (n_queue n) (n_meas_hist n) (n_state_hist n) (n_streams n) x (n_set_pose n) (n_last_diag n) (n_ctl n) (n_ctl_time n) (n_last_pub n) (n_toggled n) (n_enabled n) (n_ang n) (n_diag n).
Definition with_set_pose (n : node) (x : Z) : node :=
  mkNode (n_filter n) (n_queue n) (n_meas_hist n) (n_state_hist n) (n_streams n) (n_last_msg n) x (n_last_diag n) (n_ctl n) (n_ctl_time n) (n_last_pub n) (n_toggled n) (n_enabled n) (n_ang n) (n_diag n).
Definition with_last_diag (n : node) (x : Z) : node :=
  mkNode (n_filter n) (n_queue n) (n_meas_hist n) (n_state_hist n) (n_streams n) (n_last_msg n) (n_set_pose n) x (n_ctl n) (n_ctl_time n) (n_last_pub n) (n_toggled n) (n_enabled n) (n_ang n) (n_diag n).
Definition with_ctl (n : node) (x : vec K) : node :=
  mkNode (n_filter n) (n_queue n) (n_meas_hist n) (n_state_hist n) (n_streams n) (n_last_msg n) (n_set_pose n) (n_last_diag n) x (n_ctl_time n) (n_last_pub n) (n_toggled n) (n_enabled n) (n_ang n) (n_diag n).
Definition with_ctl_time (n : node) (x : Z) : node :=
  mkNode (n_filter n) (n_queue n) (n_meas_hist n) (n_state_hist n) (n_streams n) (n_last_msg n) (n_set_pose n) (n_last_diag n) (n_ctl n) x (n_last_pub n) (n_toggled n) (n_enabled n) (n_ang n) (n_diag n).
Definition with_last_pub (n : node) (x : Z) : node :=
  mkNode (n_filter n) (n_queue n) (n_meas_hist n) (n_state_hist n) (n_streams n) (n_last_msg n) (n_set_pose n) (n_last_diag n) (n_ctl n) (n_ctl_time n) x (n_toggled n) (n_enabled n) (n_ang n) (n_diag n).
Definition with_toggled (n : node) (x : bool) : node :=
  mkNode (n_filter n) (n_queue n) (n_meas_hist n) (n_state_hist n) (n_streams n) (n_last_msg n) (n_set_pose n) (n_last_diag n) (n_ctl n) (n_ctl_time n) (n_last_pub n) x (n_enabled n) (n_ang n) (n_diag n).
Definition with_enabled (n : node) (x : bool) : node :=
  mkNode (n_filter n) (n_queue n) (n_meas_hist n) (n_state_hist n) (n_streams n) (n_last_msg n) (n_set_pose n) (n_last_diag n) (n_ctl n) (n_ctl_time n) (n_last_pub n) (n_toggled n) x (n_ang n) (n_diag n).
Definition with_ang (n : node) (x : angular) : node :=
  mkNode (n_filter n) (n_queue n) (n_meas_hist n) (n_state_hist n) (n_streams n) (n_last_msg n) (n_set_pose n) (n_last_diag n) (n_ctl n) (n_ctl_time n) (n_last_pub n) (n_toggled n) (n_enabled n) x (n_diag n).
Definition with_diag (n : node) (x : diag) : node :=
  mkNode (n_filter n) (n_queue n) (n_meas_hist n) (n_state_hist n) (n_streams n) (n_last_msg n) (n_set_pose n) (n_last_diag n) (n_ctl n) (n_ctl_time n) (n_last_pub n) (n_toggled n) (n_enabled n) (n_ang n) x.

Definition add_diag (n : node) (c : diag_call) : node := with_diag n (addDiagnostic (n_diag n) c).

(** nav_msgs/Odometry, as filled by the node.  Covariances are the flat arrays. *)
Record odom_msg : Type := mkOdom {
  o_stamp : Z; o_frame : string; o_child : string;
  o_position : vec3 K; o_orientation : quat K;
  o_linear : vec3 K; o_angular : vec3 K;
  o_pose_cov : nat -> K; o_twist_cov : nat -> K
}.
(** geometry_msgs/AccelWithCovarianceStamped *)
Record accel_msg : Type := mkAccel {
  ac_stamp : Z; ac_frame : string;
  ac_linear : vec3 K; ac_angular : vec3 K; ac_cov : nat -> K
}.
(** geometry_msgs/TransformStamped *)
Record tf_msg : Type := mkTfMsg {
  tf_stamp : Z; tf_frame : string; tf_child : string;
  tf_translation : vec3 K; tf_rotation : quat K
}.

(** What the outside sees.  [OutQueued], [OutFused] and [OutPredict] are not
    messages but a trace of the calls enqueueMeasurement, processMeasurement
    (with the filter it is called on) and predict. *)
Inductive output : Type :=
| OutOdom (m : odom_msg)
| OutAccel (m : accel_msg)
| OutTf (m : tf_msg)
| OutReport (r : diag_report)
| OutStatus (b : bool)
| OutNonFinite
| OutQueued (m : meas K)
| OutFused (f : fb K E) (m : meas K)
| OutPredict (reference : Z) (delta : Z).

(** ros_filter.cpp 408-466.  [message->pose.covariance[POSE_SIZE * i + j]] is
    entry [k = 6 i + j] of the array. *)
Definition flat6 (f : nat -> nat -> K) : nat -> K := fun k => f (Nat.div k 6) (Nat.modulo k 6).

Definition getFilteredOdometryMessage (c : config) (n : node) : option odom_msg :=
  let f := n_filter n in
  let state := fb_state f in
  let P := fb_P f in
  if fb_initialized f then
    Some (mkOdom (fb_last_time f) (c_world c) (c_base_out c)
      (mkV3 (state StateMemberX) (state StateMemberY) (state StateMemberZ))
      (quat_setRPY (state StateMemberRoll) (state StateMemberPitch) (state StateMemberYaw))
      (mkV3 (state StateMemberVx) (state StateMemberVy) (state StateMemberVz))
      (mkV3 (state StateMemberVroll) (state StateMemberVpitch) (state StateMemberVyaw))
      (flat6 (fun i j => P i j))
      (flat6 (fun i j => P (i + POSITION_V_OFFSET)%nat (j + POSITION_V_OFFSET)%nat)))
  else None.

(** ros_filter.cpp 468-510.  Entries not written keep the message's default 0. *)
Definition getFilteredAccelMessage (c : config) (n : node) : option accel_msg :=
  let f := n_filter n in
  let state := fb_state f in
  let P := fb_P f in
  if fb_initialized f then
    Some (mkAccel (fb_last_time f) (c_base_out c)
      (mkV3 (state StateMemberAx) (state StateMemberAy) (state StateMemberAz))
      (a_acc (n_ang n))
      (flat6 (fun i j =>
         if (Nat.ltb i ACCELERATION_SIZE && Nat.ltb j ACCELERATION_SIZE)%bool
         then P (i + POSITION_A_OFFSET)%nat (j + POSITION_A_OFFSET)%nat
         else if (Nat.leb ACCELERATION_SIZE i && Nat.leb ACCELERATION_SIZE j)%bool
         then a_cov (n_ang n) (i - ACCELERATION_SIZE)%nat (j - ACCELERATION_SIZE)%nat
         else 0)))
  else None.

(** ros_filter.cpp 3542-3571 *)
Definition finite (x : K) : bool := (negb (s_isnan x) && negb (s_isinf x))%bool.
Definition validateFilterOutput (o : odom_msg) : bool :=
  forallb finite
    [v3x (o_position o); v3y (o_position o); v3z (o_position o);
     qx (o_orientation o); qy (o_orientation o); qz (o_orientation o); qw (o_orientation o);
     v3x (o_linear o); v3y (o_linear o); v3z (o_linear o);
     v3x (o_angular o); v3y (o_angular o); v3z (o_angular o)].

(** ros_filter.cpp 3438-3455 *)
Definition saveFilterState (n : node) : node :=
  let f := n_filter n in
  with_state_hist n (n_state_hist n ++
    [mkFs (fb_state f) (fb_P f) (fb_last_time f) (fb_control f) (fb_control_time f)]).

(** [while (!d.empty() && p(d.back())) pop_back]: the remaining deque and the
    popped entries in the order they were popped. *)
Fixpoint pop_while {A : Type} (p : A -> bool) (l : list A) : list A * list A :=
  match l with
  | [] => ([], [])
  | x :: r => if p x then let (k, d) := pop_while p r in (k, x :: d) else (l, [])
  end.
Definition pop_back_while {A : Type} (p : A -> bool) (l : list A) : list A * list A :=
  let (k, d) := pop_while p (rev l) in (rev k, d).
(** the same from the front *)
Definition pop_front_while {A : Type} (p : A -> bool) (l : list A) : list A := fst (pop_while p l).

Definition last_opt {A : Type} (l : list A) : option A :=
  match rev l with [] => None | x :: _ => Some x end.

(** ros_filter.cpp 3496-3530: filter reset to the snapshot; measurements later
    than [t] leave the history, those not earlier than the snapshot are queued. *)
Definition restoreSnapshot (pq : pqueue K) (n : node) (s : fstate) (t : Z) : node :=
  let f := setLastMeasurementTime
             (setEstimateErrorCovariance (setState (n_filter n) (fs_state s)) (fs_P s))
             (fs_time s) in
  let '(kept, popped) := pop_back_while (fun m => Z.gtb (m_time m) t) (n_meas_hist n) in
  let q := fold_left (fun q m => if Z.leb (fs_time s) (m_time m) then pq_push pq m q else q)
             popped (n_queue n) in
  with_queue (with_meas_hist (with_filter n f) kept) q.

(** ros_filter.cpp 3457-3540 *)
Definition revertTo (pq : pqueue K) (n : node) (t : Z) : bool * node :=
  let '(kept, popped) := pop_back_while (fun s => Z.gtb (fs_time s) t) (n_state_hist n) in
  let n1 := with_state_hist n kept in
  match last_opt kept with
  | Some s => (true, restoreSnapshot pq n1 s t)
  | None => match last_opt popped with
            | Some s => (false, restoreSnapshot pq n1 s t)
            | None => (false, n1)
            end
  end.

(** ros_filter.cpp 3573-3603 *)
Definition clearExpiredHistory (n : node) (cutoff : Z) : node :=
  with_state_hist
    (with_meas_hist n (pop_front_while (fun m => Z.ltb (m_time m) cutoff) (n_meas_hist n)))
    (pop_front_while (fun s => Z.ltb (fs_time s) cutoff) (n_state_hist n)).

(** ros_filter.cpp 3605-3613 *)
Definition clearMeasurementQueue (n : node) : node := with_queue n [].

(** ros_filter.cpp 677-729: the loop over the queue; [fuel] is the number of
    queued measurements. *)
Fixpoint integrate_loop (pq : pqueue K) (vt : vtbl K E) (c : config) (fuel : nat) (now : Z)
    (restored : Z) (n : node) : node * list output :=
  match fuel with
  | O => (n, [])
  | Datatypes.S fuel' =>
      match pq_pop pq (n_queue n) with
      | None => (n, [])
      | Some (m, rest) =>
          if Z.ltb now (m_time m) then (n, [])
          else
            let use := (c_use_control c && Z.gtb restored 0)%bool in
            let f1 := if use then setControl (n_filter n) (m_control m) (m_control_time m)
                      else n_filter n in
            let restored' := if use then (restored - 1)%Z else restored in
            let n1 := with_filter (with_queue n rest) (processMeasurement vt f1 m) in
            let n2 :=
              if c_smooth c then
                let n1' := with_meas_hist n1 (n_meas_hist n1 ++ [m]) in
                match pq_pop pq rest with
                | None => saveFilterState n1'
                | Some (top, _) =>
                    if negb (Z.eqb (m_time top) (fb_last_time (n_filter n1')))
                    then saveFilterState n1' else n1'
                end
              else n1 in
            let '(n3, o) := integrate_loop pq vt c fuel' now restored' n2 in
            (n3, OutFused f1 m :: o)
      end
  end.

(** ros_filter.cpp 647-676: reversion before the loop. *)
Definition revert_if_lagged (pq : pqueue K) (c : config) (n : node) : Z * node :=
  match pq_pop pq (n_queue n) with
  | Some (first, _) =>
      if (c_smooth c && Z.ltb (m_time first) (fb_last_time (n_filter n)))%bool then
        let n1 := snd (revertTo pq n (m_time first - 1)) in
        ((Z.of_nat (List.length (n_queue n1)) - Z.of_nat (List.length (n_queue n)))%Z, n1)
      else (0%Z, n)
  | None => (0%Z, n)
  end.

(** ros_filter.cpp 629-766 *)
Definition integrateMeasurements (pq : pqueue K) (vt : vtbl K E) (c : config) (now : Z) (n : node)
    : node * list output :=
  let '(n1, o1, predict) :=
    match pq_pop pq (n_queue n) with
    | Some _ =>
        let '(restored, n0) := revert_if_lagged pq c n in
        let '(n1, o) := integrate_loop pq vt c (List.length (n_queue n0)) now restored n0 in
        (n1, o, c_predict_now c)
    | None =>
        if fb_initialized (n_filter n) then
          (n, [], (c_predict_now c ||
             Z.geb (now - fb_last_time (n_filter n)) (fb_sensor_timeout (n_filter n)))%bool)
        else (n, [], c_predict_now c)
    end in
  if (fb_initialized (n_filter n1) && predict)%bool then
    let delta := (now - fb_last_time (n_filter n1))%Z in
    let f := v_predict vt (n_filter n1) now delta in
    (with_filter n1 (setLastMeasurementTime f (fb_last_time f + delta)), o1 ++ [OutPredict now delta])
  else (n1, o1).

(** ros_filter.cpp 768-791 *)
Definition differentiateMeasurements (now : Z) (n : node) : node :=
  let f := n_filter n in
  if fb_initialized f then
    let time_now : K := toSec now in
    let dt := time_now - a_last_time (n_ang n) in
    let state := fb_state f in
    let rot := mkV3 (state StateMemberVroll) (state StateMemberVpitch) (state StateMemberVyaw) in
    with_ang n (mkAng
      (v3div (v3sub rot (a_last_twist (n_ang n))) dt)
      (fun i j => fb_P f (i + ORIENTATION_V_OFFSET)%nat (j + ORIENTATION_V_OFFSET)%nat * 2 / (dt * dt))
      rot time_now)
  else n.

(** ros_filter.cpp 2136-2226: the transform to broadcast.  [lookup] is the
    result of lookupTransform(base_link, odom, latest); [None] is an
    exception. *)
Definition broadcast (c : config) (o : odom_msg) (lookup : option (trans K)) : list output :=
  let stamp := (o_stamp o + c_tf_offset c)%Z in
  if String.eqb (o_frame o) (c_odom c) then
    [OutTf (mkTfMsg stamp (o_frame o) (o_child o) (o_position o) (o_orientation o))]
  else if String.eqb (o_frame o) (c_map c) then
    match lookup with
    | Some base_link_odom =>
        let map_odom := t_mult (t_of (o_orientation o) (o_position o)) base_link_odom in
        [OutTf (mkTfMsg stamp (c_map c) (c_odom c) (t_origin map_odom)
                 (m3_getRotation (t_basis map_odom)))]
    | None => []
    end
  else [].

(** ros_filter.cpp 2094-2284.  [cur] is the first reading of the clock, [later]
    the second one (2117).  For the frequency diagnostic and the loop time
    warning see Supervise.v. *)
Definition periodicUpdate (pq : pqueue K) (vt : vtbl K E) (c : config) (cur later : Z)
    (lookup : option (trans K)) (n : node) : node * list output :=
  if negb (n_enabled n) then (n, [])
  else
    let '(n1, o1) :=
      if n_toggled n then
        let '(n0, o) := integrateMeasurements pq vt c cur n in
        (differentiateMeasurements cur n0, o)
      else
        let n0 := clearMeasurementQueue n in
        ((if fb_initialized (n_filter n0)
          then with_filter n0 (setLastMeasurementTime (n_filter n0) later) else n0), []) in
    let '(n2, o2, corrected) :=
      match getFilteredOdometryMessage c n1 with
      | Some o =>
          let corrected := (negb (c_permit c) && Z.geb (n_last_pub n1) (o_stamp o))%bool in
          (with_last_pub n1 (o_stamp o),
           (if validateFilterOutput o then [] else [OutNonFinite]) ++
           (if (c_publish_tf c && negb corrected)%bool then broadcast c o lookup else []) ++
           (if corrected then [] else [OutOdom o]),
           corrected)
      | None => (n1, [], false)
      end in
    let o3 :=
      if (negb corrected && c_publish_acc c)%bool then
        match getFilteredAccelMessage c n2 with Some a => [OutAccel a] | None => [] end
      else [] in
    let duration := (cur - n_last_diag n2)%Z in
    let '(n3, o4) :=
      if (c_print_diag c && (Z.geb duration (c_diag_period c) || Z.ltb duration 0))%bool then
        let '(r, d) := aggregateDiagnostics (n_diag n2) in
        (with_last_diag (with_diag n2 d) cur, [OutReport r])
      else (n2, []) in
    let n4 := if c_smooth c
              then clearExpiredHistory n3 (fb_last_time (n_filter n3) - c_history c) else n3 in
    (n4, o1 ++ o2 ++ o3 ++ o4).

(** ros_filter.cpp 357-375 *)
Definition enqueueMeasurement (pq : pqueue K) (n : node) (topic : string) (v : vec K) (cov : mat K)
    (upd : list bool) (thresh : K) (t : Z) : node * list output :=
  let m := mkMeas topic t v cov upd thresh (n_ctl n) (n_ctl_time n) in
  (with_queue n (pq_push pq m (n_queue n)), [OutQueued m]).

(** Result of preparePose / prepareTwist / prepareAcceleration: return value,
    the three reference arguments, the per-stream maps and the diagnostics
    raised. *)
Record prepared : Type := mkPrep {
  pr_ok : bool;
  pr_upd : list bool;
  pr_val : vec K;
  pr_cov : mat K;
  pr_streams : streams;
  pr_diag : list diag_call
}.
Definition prepfun : Type := node -> list bool -> vec K -> mat K -> prepared.

Definition stale_call (topic : string) (text : string) : diag_call :=
  mkCall DIAG_WARN (topic ++ "_timestamp") text false.
Definition barrier_text : string :=
  "message has a timestamp equal to or before the last filter reset".
Definition backwards_text : string :=
  "message has a timestamp before that of the previous message received".

(** ros_filter.cpp 1938-2036 (poseCallback), 2381-2471 (twistCallback) and
    224-318 (accelerationCallback): the three have the same structure and
    differ in the prepare function and in whether a message before the
    barrier raises a diagnostic ([warn]). *)
Definition sensorCallback (pq : pqueue K) (warn : bool) (topic : string) (stamp : Z)
    (upd : list bool) (thresh : K) (prep : prepfun) (n : node) : node * list output :=
  if Z.geb (n_set_pose n) stamp then
    ((if warn then add_diag n (stale_call topic barrier_text) else n), [])
  else
    let n1 := if sm_mem (n_last_msg n) topic then n
              else with_last_msg n (sm_set (n_last_msg n) topic stamp) in
    match sm_find (n_last_msg n1) topic with
    | Some last =>
        if Z.leb last stamp then
          let r := prep n1 upd vzero mzero in
          let n2 := with_diag (with_streams n1 (pr_streams r))
                      (fold_left addDiagnostic (pr_diag r) (n_diag n1)) in
          let '(n3, o) :=
            if pr_ok r then enqueueMeasurement pq n2 topic (pr_val r) (pr_cov r) (pr_upd r) thresh stamp
            else (n2, []) in
          (with_last_msg n3 (sm_set (n_last_msg n3) topic stamp), o)
        else (add_diag n1 (stale_call topic backwards_text), [])
    | None => (n1, [])  (* unreachable: the key was just inserted *)
    end.

(** ros_filter.cpp 332-355; controlCallback (320-330) passes the base frame and
    the current time. *)
Definition controlStampedCallback (c : config) (frame : string) (ctl : vec K) (stamp : Z) (n : node)
    : node :=
  if (String.eqb frame (c_base c) || String.eqb frame "")%bool then
    let n1 := with_ctl_time (with_ctl n ctl) stamp in
    with_filter n1 (setControl (n_filter n1) ctl stamp)
  else n.
Definition controlCallback (c : config) (ctl : vec K) (now : Z) (n : node) : node :=
  controlStampedCallback c (c_base c) ctl now n.

(** ros_filter.cpp 200-221 *)
Definition toggleFilterProcessingCallback (on : bool) (n : node) : node * list output :=
  if Bool.eqb on (n_toggled n) then (n, [OutStatus false])
  else (with_toggled n on, [OutStatus true]).

(** ros_filter.cpp 2355-2379 *)
Definition enableFilterSrvCallback (n : node) : node * list output :=
  ((if n_enabled n then n else with_enabled n true), [OutStatus true]).

(** ros_filter.cpp 152-185.  Clearing the tf buffer is not modelled (lookups
    are arguments). *)
Definition reset (c : config) (n : node) : node :=
  let n1 := with_state_hist (with_meas_hist (clearMeasurementQueue (with_streams n no_streams)) []) [] in
  let n2 := with_last_pub (with_ctl_time (with_last_diag (with_set_pose n1 0%Z) 0%Z) 0%Z) 0%Z in
  let n3 := with_last_msg n2 [] in
  with_filter n3
    (setEstimateErrorCovariance
       (setProcessNoiseCovariance
          (setSensorTimeout (fb_reset (n_filter n3)) (c_sensor_timeout c)) (c_Q c)) (c_P c)).

(** ros_filter.cpp 2286-2339; setPoseSrvCallback (2341-2352) only calls it.
    [now] is the clock reading of line 2336.  The return value of preparePose
    is ignored by the code. *)
Definition setPoseCallback (stamp : Z) (prep : prepfun) (now : Z) (n : node) : node :=
  let n1 := with_state_hist (with_meas_hist (clearMeasurementQueue (with_streams n no_streams)) []) [] in
  let n2 := with_set_pose n1 stamp in
  let r := prep n2 (repeat true STATE_SIZE) vzero (mscale (lit 1 6) meye) in
  let n3 := with_diag (with_streams n2 (pr_streams r))
              (fold_left addDiagnostic (pr_diag r) (n_diag n2)) in
  with_filter n3
    (setLastMeasurementTime
       (setEstimateErrorCovariance (setState (n_filter n3) (pr_val r)) (pr_cov r)) now).

(** ** Events and runs *)
Inductive event : Type :=
| EvSensor (warn : bool) (topic : string) (stamp : Z) (upd : list bool) (thresh : K) (prep : prepfun)
| EvControl (frame : string) (ctl : vec K) (stamp : Z)
| EvToggle (on : bool)
| EvEnable
| EvReset
| EvSetPose (stamp : Z) (prep : prepfun) (now : Z)
| EvDiagnostics                      (* diagnostic_updater's own timer *)
| EvCycle (cur later : Z) (lookup : option (trans K)).

Definition node_step (pq : pqueue K) (vt : vtbl K E) (c : config) (n : node) (e : event)
    : node * list output :=
  match e with
  | EvSensor warn topic stamp upd thresh prep => sensorCallback pq warn topic stamp upd thresh prep n
  | EvControl frame ctl stamp => (controlStampedCallback c frame ctl stamp n, [])
  | EvToggle on => toggleFilterProcessingCallback on n
  | EvEnable => enableFilterSrvCallback n
  | EvReset => (reset c n, [])
  | EvSetPose stamp prep now => (setPoseCallback stamp prep now n, [])
  | EvDiagnostics => let '(r, d) := aggregateDiagnostics (n_diag n) in (with_diag n d, [OutReport r])
  | EvCycle cur later lookup => periodicUpdate pq vt c cur later lookup n
  end.

Fixpoint node_run (pq : pqueue K) (vt : vtbl K E) (c : config) (n : node) (es : list event)
    : node * list output :=
  match es with
  | [] => (n, [])
  | e :: r =>
      let '(n1, o1) := node_step pq vt c n e in
      let '(n2, o2) := node_run pq vt c n1 r in
      (n2, o1 ++ o2)
  end.

(** ros_filter.cpp 84-133 (constructor), 1094-1095 (enabled_), 1757-1777, 2064:
    the node after loadParams and initialize.  [f] is the configured filter,
    [ang] holds the members that the constructor leaves uninitialised, [ctl]
    the control vector (zero when control is used), [now] the clock at
    initialisation. *)
Definition node_init (f : fb K E) (ang : angular) (ctl : vec K) (disabled_at_startup : bool) (now : Z)
    : node :=
  mkNode f [] [] [] no_streams [] 0%Z now ctl 0%Z 0%Z true (negb disabled_at_startup) ang diag_init.

End RosFilter.

Arguments fstate K : clear implicits.
Arguments config K : clear implicits.
Arguments streams K : clear implicits.
Arguments angular K : clear implicits.
Arguments node K E : clear implicits.
Arguments output K E : clear implicits.
Arguments prepared K : clear implicits.
Arguments prepfun K E : clear implicits.
Arguments event K E : clear implicits.
Arguments odom_msg K : clear implicits.
Arguments accel_msg K : clear implicits.
Arguments tf_msg K : clear implicits.
