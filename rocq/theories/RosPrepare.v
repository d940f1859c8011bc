(** * From messages to measurements

    RosFilter::prepareAcceleration, preparePose, prepareTwist and the message
    callbacks that use them, with the transform lookup of
    ros_filter_utilities.

    Stamps are integers (nanoseconds); a header stamp whose nanosec field is
    10^9 or more does not occur.  Debug output, ROS log lines and the waiting
    time of a lookup are left out: a buffer is the answer it finally gives. *)

From Coq Require Import ZArith Bool List String Arith.
From Verif Require Import Scalar Mat FilterBase StrMap Tf Diagnostics RosFilter RosConfig ForceTwoD.
Import ListNotations.
Local Open Scope string_scope.

Section Prepare.
Context {K : Scalar} {E : Type}.
Local Open Scope sc_scope.

(** External: tf2_ros::Buffer::lookupTransform(target, source, time).  [None]
    is a TransformException; time 0 (tf2::TimePointZero) means the latest. *)
Definition tf_buffer : Type := string -> string -> Z -> option (trans K).

(** What the functions below read besides the node state and the
    configuration: two_d_mode_, gravitational_acceleration_,
    remove_gravitational_acceleration_, tf_buffer_, and the external
    conversions tf2::timeFromSec and tf2::timeToSec. *)
Record penv : Type := mkEnv {
  e_two_d : bool;
  e_gravity : K;
  e_remove : smap bool;
  e_buffer : tf_buffer;
  e_from_sec : K -> Z;
  e_to_sec : Z -> K
}.

(** ros_filter_utilities.cpp 122-196 *)
Definition lookupTransformSafe (e : penv) (target source : string) (time : Z) : option (trans K) :=
  let time_tf := e_from_sec e (toSec time) in
  match e_buffer e target source time_tf with
  | Some t => Some t
  | None =>
      match e_buffer e target source 0%Z with
      | Some t => Some t
      | None => if String.eqb target source then Some t_identity else None
      end
  end.

(** ros_filter_utilities.cpp 198-204 *)
Definition quatToRPY (q : quat K) : K * K * K := m3_getRPY (m3_of_quat q).

(** filter_utilities.hpp 105-108: toSec of a header stamp,
    double(sec) + nanosecToSec(nanosec); the overload for rclcpp::Time
    ([toSec] of FilterBase.v) converts the nanosecond count at once. *)
Definition stampToSec (t : Z) : K :=
  s_ofZ (t / 1000000000) + s_ofZ (t mod 1000000000) * lit 1 9.

(** geometry_msgs PoseWithCovarianceStamped, TwistWithCovarianceStamped,
    sensor_msgs Imu *)
Record pose_msg : Type := mkPose {
  ps_stamp : Z; ps_frame : string; ps_position : vec3 K; ps_orientation : quat K; ps_cov : nat -> K }.
Record twist_msg : Type := mkTwist {
  tw_stamp : Z; tw_frame : string; tw_linear : vec3 K; tw_angular : vec3 K; tw_cov : nat -> K }.
Record imu_msg : Type := mkImu {
  im_stamp : Z; im_frame : string; im_orientation : quat K; im_angular : vec3 K; im_linear : vec3 K;
  im_ori_cov : nat -> K; im_ang_cov : nat -> K; im_acc_cov : nat -> K }.

(** ros_filter.cpp 2549-2602: the matrix read from a message's array, and the
    diagnostics raised on the way.  The texts stand for the formatted ones. *)
Definition cov_call (topic text : string) : diag_call :=
  mkCall DIAG_WARN (topic ++ "_covariance") text false.
Definition covariance_calls (print : bool) (arr : nat -> K) (topic : string) (upd : list bool)
    (offset dimension : nat) : list diag_call :=
  if print then
    flat_map (fun i => flat_map (fun j =>
      let x := arr (dimension * i + j)%nat in
      if (s_ltb (lit 1000 0) x && (flag upd (offset + i) || flag upd (offset + j)))%bool
      then [cov_call topic "the value is extremely large"]
      else if (flag upd i && Nat.eqb i j && s_eqb x 0)%bool then [cov_call topic "was zero"]
      else if (flag upd i && Nat.eqb i j && s_ltb x 0)%bool then [cov_call topic "was negative"]
      else []) (seq 0 dimension)) (seq 0 dimension)
  else [].
Definition copyCovariance (arr : nat -> K) (dimension : nat) : mat K :=
  fun i j => arr (dimension * i + j)%nat.
(** 2604-2615: the other direction *)
Definition uncopyCovariance (m : mat K) (dimension : nat) : nat -> K :=
  fun k => m (Nat.div k dimension) (Nat.modulo k dimension).

(** A std::vector<bool> entry as a matrix entry. *)
Definition of_flag (b : bool) : K := if b then 1 else 0.
(** ros_filter.cpp 2660-2662, 2945-2951, 3322-3328: Matrix3x3 with three flags
    on the diagonal *)
Definition mask3 (upd : list bool) (offset : nat) : mat3 K :=
  mkM3 (mkV3 (of_flag (flag upd offset)) 0 0)
       (mkV3 0 (of_flag (flag upd (offset + 1))) 0)
       (mkV3 0 0 (of_flag (flag upd (offset + 2)))).
(** tf2::Vector3::length *)
Definition v3length (v : vec3 K) : K := s_sqrt (v3dot v v).
(** 2751-2758, 2981-2997, 3362-3382: the flags of the rows of a rotated mask *)
Definition significant (m : mat3 K) (i : nat) : bool :=
  s_leb (lit 1 6) (v3length (match i with O => m3r0 m | S O => m3r1 m | _ => m3r2 m end)).
Definition unmask (m : mat3 K) (offset : nat) (upd : list bool) : list bool :=
  set_flag (set_flag (set_flag upd offset (significant m 0)) (offset + 1) (significant m 1))
           (offset + 2) (significant m 2).

(** 2773-2783: a rotation as a 3x3 Eigen matrix *)
Definition rot3 (m : mat3 K) : mat K := fun i j => m3get m i j.
(** 3021-3028, 3045-3052, 3401-3411: the rotation twice on the diagonal of an
    identity matrix *)
Definition rot6 (m : mat3 K) : mat K :=
  fun i j =>
    if (Nat.ltb i 3 && Nat.ltb j 3)%bool then m3get m i j
    else if (Nat.leb 3 i && Nat.leb 3 j)%bool then m3get m (i - 3) (j - 3)
    else 0.
(** rot * C * rot.transpose() *)
Definition rotateCov (n : nat) (r c : mat K) : mat K := mmul n (mmul n r c) (mT r).
(** A.block(o, o, n, n) = B *)
Definition set_block (a : mat K) (o n : nat) (b : mat K) : mat K :=
  fun i j => if (Nat.leb o i && Nat.ltb i (o + n) && Nat.leb o j && Nat.ltb j (o + n))%bool
             then b (i - o)%nat (j - o)%nat else a i j.
(** three consecutive assignments measurement(o..o+2) *)
Definition set_vec3 (v : vec K) (o : nat) (x : vec3 K) : vec K :=
  vset (vset (vset v o (v3x x)) (o + 1) (v3y x)) (o + 2) (v3z x).
(** the two_d_mode_ tail of the three functions *)
Definition finish (two_d : bool) (v : vec K) (c : mat K) (u : list bool) : vec K * mat K * list bool :=
  if two_d then forceTwoD v c u else (v, c, u).

Definition state_angular (n : node K E) : vec3 K :=
  mkV3 (fb_state (n_filter n) StateMemberVroll) (fb_state (n_filter n) StateMemberVpitch)
       (fb_state (n_filter n) StateMemberVyaw).

(** tf2::Quaternion::length, normalize (this / length, as a product with the
    reciprocal) *)
Definition quat_length (q : quat K) : K := s_sqrt (quat_length2 q).
Definition quat_normalize (q : quat K) : quat K :=
  let s := 1 / quat_length q in mkQuat (qx q * s) (qy q * s) (qz q * s) (qw q * s).
(** 2723-2728, 2896-2902: normalise unless the length is within 0.01 of 1 *)
Definition checked_quat (q : quat K) : quat K :=
  if s_ltb (lit 1 2) (s_abs (quat_length q - 1)) then quat_normalize q else q.

(** |first covariance entry + 1| < 1e-9: the part is declared absent (2706, 551,
    583, 609) *)
Definition absent (cov : nat -> K) : bool := s_ltb (s_abs (cov 0%nat + 1)) (lit 1 9).

(** tf2::Matrix3x3::inverse: adjugate over determinant *)
Definition m3_cofac (m : mat3 K) (r1 c1 r2 c2 : nat) : K :=
  m3get m r1 c1 * m3get m r2 c2 - m3get m r1 c2 * m3get m r2 c1.
Definition m3_inverse (m : mat3 K) : mat3 K :=
  let co := mkV3 (m3_cofac m 1 1 2 2) (m3_cofac m 1 2 2 0) (m3_cofac m 1 0 2 1) in
  let s := 1 / v3dot (m3r0 m) co in
  mkM3 (mkV3 (v3x co * s) (m3_cofac m 0 2 2 1 * s) (m3_cofac m 0 1 1 2 * s))
       (mkV3 (v3y co * s) (m3_cofac m 0 0 2 2 * s) (m3_cofac m 0 2 1 0 * s))
       (mkV3 (v3z co * s) (m3_cofac m 0 1 2 0 * s) (m3_cofac m 0 0 1 1 * s)).

(** ros_filter.cpp 2703-2745: the gravity vector that is subtracted *)
Definition gravity_vector (e : penv) (n : node K E) (msg : imu_msg) (relative : bool) (r : mat3 K)
    : vec3 K :=
  let normAcc := mkV3 0 0 (e_gravity e) in
  if absent (im_ori_cov msg) then
    let stateTmp := m3_setRPY (fb_state (n_filter n) StateMemberRoll)
                      (fb_state (n_filter n) StateMemberPitch) (fb_state (n_filter n) StateMemberYaw) in
    m3mv (m3_inverse (m3mul stateTmp r)) normAcc
  else
    let basis := m3_of_quat (checked_quat (im_orientation msg)) in
    if relative then m3mv (m3mul (m3_inverse r) (m3_inverse basis)) normAcc
    else m3mv (m3_inverse basis) normAcc.

(** ros_filter.cpp 2628-2816 *)
Definition prepareAcceleration (e : penv) (c : config K) (msg : imu_msg) (topic target : string)
    (relative : bool) : prepfun K E :=
  fun n upd v0 c0 =>
    let msg_frame := if String.eqb (im_frame msg) "" then c_base c else im_frame msg in
    let calls := covariance_calls (c_print_diag c) (im_acc_cov msg) topic upd POSITION_A_OFFSET
                   ACCELERATION_SIZE in
    match lookupTransformSafe e target msg_frame (im_stamp msg) with
    | None => mkPrep false upd v0 c0 (n_streams n) calls
    | Some t =>
        let r := t_basis t in
        let o := t_origin t in
        let w := state_angular n in
        let acc1 := v3sub (v3add (m3mv r (im_linear msg)) (v3cross o (a_acc (n_ang n))))
                      (v3cross (v3cross o w) w) in
        let acc2 := match sm_find (e_remove e) topic with
                    | Some true => v3sub acc1 (gravity_vector e n msg relative r)
                    | _ => acc1
                    end in
        let upd1 := unmask (m3mul r (mask3 upd StateMemberAx)) StateMemberAx upd in
        let rot := rot3 (m3_of_quat (m3_getRotation r)) in
        let cov := rotateCov ACCELERATION_SIZE rot (copyCovariance (im_acc_cov msg) ACCELERATION_SIZE) in
        let '(v, cv, u) := finish (e_two_d e) (set_vec3 v0 StateMemberAx acc2)
                             (set_block c0 POSITION_A_OFFSET ACCELERATION_SIZE cov) upd1 in
        mkPrep true u v cv (n_streams n) calls
    end.

(** ros_filter.cpp 3283-3436 *)
Definition prepareTwist (e : penv) (c : config K) (msg : twist_msg) (topic target : string)
    : prepfun K E :=
  fun n upd v0 c0 =>
    let w := state_angular n in
    let msg_frame := if String.eqb (tw_frame msg) "" then target else tw_frame msg in
    let calls := covariance_calls (c_print_diag c) (tw_cov msg) topic upd POSITION_V_OFFSET TWIST_SIZE in
    match lookupTransformSafe e target msg_frame (tw_stamp msg) with
    | None => mkPrep false upd v0 c0 (n_streams n) calls
    | Some t =>
        let r := t_basis t in
        let ang := m3mv r (tw_angular msg) in
        let lin := v3add (m3mv r (tw_linear msg)) (v3cross (t_origin t) w) in
        let upd1 := unmask (m3mul r (mask3 upd StateMemberVroll)) StateMemberVroll
                      (unmask (m3mul r (mask3 upd StateMemberVx)) StateMemberVx upd) in
        let rot := rot6 (m3_of_quat (m3_getRotation r)) in
        let cov := rotateCov TWIST_SIZE rot (copyCovariance (tw_cov msg) TWIST_SIZE) in
        let '(v, cv, u) := finish (e_two_d e) (set_vec3 (set_vec3 v0 StateMemberVx lin) StateMemberVroll ang)
                             (set_block c0 POSITION_V_OFFSET TWIST_SIZE cov) upd1 in
        mkPrep true u v cv (n_streams n) calls
    end.

(** ros_filter.cpp 2873-2905: orientation of the message *)
Definition zero_quat (q : quat K) : bool :=
  (s_eqb (qx q) 0 && s_eqb (qy q) 0 && s_eqb (qz q) 0 && s_eqb (qw q) 0)%bool.
Definition pose_quat (q : quat K) : quat K :=
  if zero_quat q then quat_identity else checked_quat q.
Definition orientation_calls (topic : string) (q : quat K) (upd : list bool) : list diag_call :=
  if (zero_quat q && (flag upd StateMemberRoll || flag upd StateMemberPitch || flag upd StateMemberYaw))%bool
  then [mkCall DIAG_WARN (topic ++ "_orientation")
          "message contains an invalid orientation quaternion" false]
  else [].

(** 2839-2862: final_target_frame and pose_tmp.frame_id_ *)
Definition pose_frames (c : config K) (frame target : string) (differential imu_data : bool)
    : string * string :=
  if String.eqb target "" then
    if String.eqb frame "" then (c_world c, c_world c) else (frame, frame)
  else (target, if (differential && negb imu_data)%bool then target else frame).

(** 2866-2868, 2915, 2928: the time of the lookups,
    rclcpp::Time(tf2::timeToSec(stamp_)); the double converts to the int64
    nanosecond count. *)
Definition pose_lookup_time (e : penv) (stamp : Z) : Z :=
  let stamp_ := e_from_sec e (s_ofZ (stamp / 1000000000) + s_ofZ (stamp mod 1000000000) / s_ofZ 1000000000) in
  s_trunc (e_to_sec e stamp_).

Definition m3_yaw (m : mat3 K) : K := let '(_, _, y) := m3_getRPY m in y.

(** 3074-3101: IMU orientation with the mounting offsets removed *)
Definition imu_basis (target_basis pose_basis : mat3 K) : mat3 K :=
  let '(roll_offset, pitch_offset, yaw_offset) := quatToRPY (m3_getRotation target_basis) in
  let '(roll, pitch, yaw) := quatToRPY (m3_getRotation pose_basis) in
  let rpy := mkV3 (normalize_angle (roll - roll_offset)) (normalize_angle (pitch - pitch_offset))
                  (normalize_angle (yaw - yaw_offset)) in
  let rpy' := m3mv (m3_setRPY 0 0 yaw_offset) rpy in
  m3_setRPY (v3x rpy') (v3y rpy') (v3z rpy').

(** 3172-3186: the twist update vector of a differential pose; the copy
    replaces the first STATE_SIZE flags of the vector. *)
Definition differential_flags (upd : list bool) : list bool :=
  (repeat false POSITION_V_OFFSET ++ firstn POSE_SIZE upd ++ repeat false ACCELERATION_SIZE
   ++ skipn STATE_SIZE upd)%list.

(** ros_filter.cpp 2818-3281.  last_message_times_[topic] is read at 3149; the
    callback has inserted it, a missing entry would read as time zero. *)
Definition preparePose (e : penv) (c : config K) (msg : pose_msg) (topic target source : string)
    (differential relative imu_data : bool) : prepfun K E :=
  fun n upd v0 c0 =>
    let '(final_target, pose_frame) := pose_frames c (ps_frame msg) target differential imu_data in
    let q := pose_quat (ps_orientation msg) in
    let calls0 := orientation_calls topic (ps_orientation msg) upd in
    let pose0 := t_of q (ps_position msg) in
    let when := pose_lookup_time e (ps_stamp msg) in
    let src := if String.eqb source (c_base c) then None
               else lookupTransformSafe e source (c_base c) when in
    match lookupTransformSafe e final_target pose_frame when with
    | None => mkPrep false upd v0 c0 (n_streams n) calls0
    | Some t =>
        let yaw_rot := m3_setRPY 0 0 (m3_yaw (t_basis t)) in
        let mask_rot := if imu_data then yaw_rot else t_basis t in
        let upd1 := unmask (m3mul mask_rot (mask3 upd StateMemberRoll)) StateMemberRoll
                      (unmask (m3mul mask_rot (mask3 upd StateMemberX)) StateMemberX upd) in
        let calls := (calls0 ++ covariance_calls (c_print_diag c) (ps_cov msg) topic upd1 POSITION_OFFSET
                                POSE_SIZE)%list in
        let cov0 := copyCovariance (ps_cov msg) POSE_SIZE in
        let covariance := match src with
                          | Some s => rotateCov POSE_SIZE (mT (rot6 (m3_of_quat (m3_getRotation (t_basis s))))) cov0
                          | None => cov0
                          end in
        let rot6d := rot6 (if imu_data then yaw_rot else m3_of_quat (m3_getRotation (t_basis t))) in
        let covariance_rotated := rotateCov POSE_SIZE rot6d covariance in
        let pose1 := if imu_data then mkTrans (imu_basis (t_basis t) (t_basis pose0)) (t_origin pose0)
                     else pose0 in
        let t1 := if imu_data then t_identity else t in
        let st := n_streams n in
        if differential then
          let st' := mkStreams (st_initial st) (sm_set (st_previous st) topic pose1)
                       (sm_set (st_prev_cov st) topic covariance) in
          match sm_find (st_previous st) topic, sm_find (st_prev_cov st) topic with
          | Some prev, Some prev_cov =>
              let delta := t_mult (mkTrans (t_basis t1) v3zero) (t_inverseTimes prev pose1) in
              let last := match sm_find (n_last_msg n) topic with Some x => x | None => 0%Z end in
              let dt := stampToSec (ps_stamp msg) - toSec last in
              let lin := mkV3 (v3x (t_origin delta) / dt) (v3y (t_origin delta) / dt)
                              (v3z (t_origin delta) / dt) in
              let '(roll, pitch, yaw) := quatToRPY (m3_getRotation (t_basis delta)) in
              let cov := fun i j => (covariance_rotated i j + rotateCov POSE_SIZE rot6d prev_cov i j) * dt in
              let twist := mkTwist (ps_stamp msg) source lin (mkV3 (roll / dt) (pitch / dt) (yaw / dt))
                             (uncopyCovariance cov POSE_SIZE) in
              let r := prepareTwist e c twist (topic ++ "_twist") (c_base c) n
                         (differential_flags upd1) v0 c0 in
              mkPrep (pr_ok r) (pr_upd r) (pr_val r) (pr_cov r) st' (calls ++ pr_diag r)%list
          | _, _ => mkPrep false upd1 v0 c0 st' calls
          end
        else
          let pose2 := match src with Some s => t_mult pose1 s | None => pose1 end in
          let '(pose3, st') :=
            if relative then
              let st1 := match sm_find (st_initial st) topic with
                         | Some _ => st
                         | None => mkStreams (sm_set (st_initial st) topic pose2) (st_previous st) (st_prev_cov st)
                         end in
              (match sm_find (st_initial st1) topic with
               | Some initial => t_inverseTimes initial pose2
               | None => pose2   (* unreachable: just inserted *)
               end, st1)
            else (pose2, st) in
          let pose4 := t_mult t1 pose3 in
          let '(roll, pitch, yaw) := quatToRPY (m3_getRotation (t_basis pose4)) in
          let '(v, cv, u) := finish (e_two_d e)
                               (set_vec3 (set_vec3 v0 StateMemberX (t_origin pose4)) StateMemberRoll
                                  (mkV3 roll pitch yaw))
                               (set_block c0 0 POSE_SIZE covariance_rotated) upd1 in
          mkPrep true u v cv st' calls
    end.

(** ** Callbacks *)
(** ros_filter.cpp 1938-2036, 2381-2471, 224-318: the common structure is
    [sensorCallback]. *)
Definition poseCallback (pq : pqueue K) (e : penv) (c : config K) (cd : callback_data K) (msg : pose_msg)
    (target source : string) (imu_data : bool) (n : node K E) : node K E * list (output K E) :=
  sensorCallback pq true (cd_topic cd) (ps_stamp msg) (cd_upd cd) (cd_thresh cd)
    (preparePose e c msg (cd_topic cd) target source (cd_differential cd) (cd_relative cd) imu_data) n.
Definition twistCallback (pq : pqueue K) (e : penv) (c : config K) (cd : callback_data K) (msg : twist_msg)
    (target : string) (n : node K E) : node K E * list (output K E) :=
  sensorCallback pq true (cd_topic cd) (tw_stamp msg) (cd_upd cd) (cd_thresh cd)
    (prepareTwist e c msg (cd_topic cd) target) n.
Definition accelerationCallback (pq : pqueue K) (e : penv) (c : config K) (cd : callback_data K) (msg : imu_msg)
    (target : string) (n : node K E) : node K E * list (output K E) :=
  sensorCallback pq false (cd_topic cd) (im_stamp msg) (cd_upd cd) (cd_thresh cd)
    (prepareAcceleration e c msg (cd_topic cd) target (cd_relative cd)) n.

(** two callbacks in sequence *)
Definition andthen (a b : node K E -> node K E * list (output K E)) (n : node K E)
    : node K E * list (output K E) :=
  let '(n1, o1) := a n in let '(n2, o2) := b n1 in (n2, (o1 ++ o2)%list).
Definition skip_callback (n : node K E) : node K E * list (output K E) := (n, []).

(** ros_filter.cpp 1900-1919, 1921-1931: the two messages made from an odometry
    message *)
Definition odom_pose (msg : odom_msg K) : pose_msg :=
  mkPose (o_stamp msg) (o_frame msg) (o_position msg) (o_orientation msg) (o_pose_cov msg).
Definition odom_twist (msg : odom_msg K) : twist_msg :=
  mkTwist (o_stamp msg) (o_child msg) (o_linear msg) (o_angular msg) (o_twist_cov msg).

(** ros_filter.cpp 1876-1936 *)
Definition odometryCallback (pq : pqueue K) (e : penv) (c : config K) (topic : string)
    (pose_cd twist_cd : callback_data K) (msg : odom_msg K) (n : node K E) : node K E * list (output K E) :=
  if Z.geb (n_set_pose n) (o_stamp msg) then (add_diag n (stale_call topic barrier_text), [])
  else
    andthen
      (if Z.gtb (cd_sum pose_cd) 0
       then poseCallback pq e c pose_cd (odom_pose msg) (c_world c)
              (if cd_child pose_cd then o_child msg else c_base c) false
       else skip_callback)
      (if Z.gtb (cd_sum twist_cd) 0
       then twistCallback pq e c twist_cd (odom_twist msg) (c_base c) else skip_callback) n.

(** ros_filter.cpp 557-571, 590-603: a 3x3 covariance in the lower right block
    of a 6x6 one, zeros elsewhere *)
Definition angular_block (cov : nat -> K) : nat -> K :=
  uncopyCovariance (fun i j => if (Nat.leb 3 i && Nat.leb 3 j)%bool then cov (3 * (i - 3) + (j - 3))%nat else 0)
    POSE_SIZE.
Definition imu_pose (msg : imu_msg) : pose_msg :=
  mkPose (im_stamp msg) (im_frame msg) v3zero (im_orientation msg) (angular_block (im_ori_cov msg)).
Definition imu_twist (msg : imu_msg) : twist_msg :=
  mkTwist (im_stamp msg) (im_frame msg) v3zero (im_angular msg) (angular_block (im_ang_cov msg)).

(** ros_filter.cpp 512-627 *)
Definition imuCallback (pq : pqueue K) (e : penv) (c : config K) (topic : string)
    (pose_cd twist_cd accel_cd : callback_data K) (msg : imu_msg) (n : node K E)
    : node K E * list (output K E) :=
  if Z.geb (n_set_pose n) (im_stamp msg) then (add_diag n (stale_call topic barrier_text), [])
  else
    andthen
      (if (Z.gtb (cd_sum pose_cd) 0 && negb (absent (im_ori_cov msg)))%bool
       then poseCallback pq e c pose_cd (imu_pose msg) (c_base c) (c_base c) true else skip_callback)
      (andthen
         (if (Z.gtb (cd_sum twist_cd) 0 && negb (absent (im_ang_cov msg)))%bool
          then twistCallback pq e c twist_cd (imu_twist msg) (c_base c) else skip_callback)
         (if (Z.gtb (cd_sum accel_cd) 0 && negb (absent (im_acc_cov msg)))%bool
          then accelerationCallback pq e c accel_cd msg (c_base c) else skip_callback)) n.

(** The messages of a subscription (ros_filter.cpp 1253-1260, 1391-1397,
    1486-1492, 1695-1701): pose topics use the world frame as target, twist
    topics the base frame. *)
Inductive sensor_msg : Type :=
| MsgOdom (m : odom_msg K) | MsgPose (m : pose_msg) | MsgTwist (m : twist_msg) | MsgImu (m : imu_msg).
Definition receive (pq : pqueue K) (e : penv) (c : config K) (s : subscription K) (m : sensor_msg)
    (n : node K E) : node K E * list (output K E) :=
  match s, m with
  | SubOdom topic a b, MsgOdom x => odometryCallback pq e c topic a b x n
  | SubPose a, MsgPose x => poseCallback pq e c a x (c_world c) (c_base c) false n
  | SubTwist a, MsgTwist x => twistCallback pq e c a x (c_base c) n
  | SubImu topic a b d, MsgImu x => imuCallback pq e c topic a b d x n
  | _, _ => (n, [])   (* excluded by the message type of the subscription *)
  end.

(** ros_filter.cpp 2286-2339 with its preparePose call *)
Definition setPose (e : penv) (c : config K) (msg : pose_msg) (now : Z) (n : node K E) : node K E :=
  setPoseCallback (ps_stamp msg)
    (preparePose e c msg "set_pose" (c_world c) (c_base c) false false false) now n.

End Prepare.

Arguments tf_buffer K : clear implicits.
Arguments penv K : clear implicits.
Arguments pose_msg K : clear implicits.
Arguments twist_msg K : clear implicits.
Arguments imu_msg K : clear implicits.
Arguments sensor_msg K : clear implicits.
