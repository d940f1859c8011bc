(** * navsat_transform node (navsat_transform.cpp, navsat_transform.hpp)

    Line numbers refer to /repo/src/navsat_transform.cpp unless a file is named.

    GeographicLib, the tf2 buffer and the clock are parameters.  A
    GeographicLib::GeographicErr that no code catches ends the node; that is the
    outcome [Thrown].  Members and locals that the C++ code leaves uninitialised
    hold arbitrary values ([uninit], [junk]).  Not modelled: log output, QoS,
    timeouts of lookups (they only delay), publishing to no subscribers, the
    start-up delay and the timer period. *)

From Coq Require Import ZArith Bool List String.
From Verif Require Import Scalar Mat FilterBase Tf StrMap RosFilter RosPrepare.
Import ListNotations.
Open Scope string_scope.

Section Navsat.
Context {K : Scalar}.
Local Open Scope sc_scope.

(** The result of a C++ call that may end in an uncaught exception. *)
Inductive result (A : Type) : Type := Done (a : A) | Thrown.
Arguments Done {A} a.
Arguments Thrown {A}.

(** External: GeographicLib.  [g_forward lat lon zone]: UTMUPS::Forward with
    setzone (-1: UTMUPS::STANDARD), giving zone, hemisphere, easting, northing
    and convergence in degrees; [None] is a GeographicErr, which leaves the
    outputs unchanged.  [g_reverse zone northp x y]: UTMUPS::Reverse, latitude
    and longitude.  [g_local lat0 lon0 lat lon alt]: LocalCartesian::Forward
    with origin (lat0, lon0, 0), its x and y.  [g_mgrs]: zone and hemisphere
    from MGRS::Reverse. *)
Record geolib : Type := mkGeo {
  g_forward : K -> K -> Z -> option (Z * bool * K * K * K);
  g_reverse : Z -> bool -> K -> K -> option (K * K);
  g_local : K -> K -> K -> K -> K -> K * K;
  g_mgrs : string -> option (Z * bool)
}.

(** geographic_msgs/GeoPose *)
Record geopose : Type := mkGeoPose { gp_lat : K; gp_lon : K; gp_alt : K; gp_orientation : quat K }.
(** sensor_msgs/NavSatFix; status -1 is STATUS_NO_FIX.
    position_covariance_type is not modelled. *)
Record fix_msg : Type := mkFix {
  fx_stamp : Z; fx_frame : string; fx_status : Z; fx_lat : K; fx_lon : K; fx_alt : K; fx_cov : nat -> K }.

(** 105-144, 159: the parameters used below; [p_datum] is the parameter "datum".
    p_manual: wait_for_datum. *)
Record nav_params : Type := mkNavPar {
  p_declination : K; p_yaw_offset : K; p_zero_alt : bool; p_publish : bool; p_odom_yaw : bool;
  p_manual : bool; p_local : bool; p_broadcast : bool; p_as_parent : bool; p_datum : list K }.

(** The members of NavSatTransform. *)
Record nav : Type := mkNav {
  nv_world_frame : string;         (* world_frame_id_ *)
  nv_base_frame : string;          (* base_link_frame_id_ *)
  nv_gps_frame : string;           (* gps_frame_id_ *)
  nv_has_gps : bool;               (* has_transform_gps_ *)
  nv_has_imu : bool;               (* has_transform_imu_ *)
  nv_has_odom : bool;              (* has_transform_odom_ *)
  nv_good : bool;                  (* transform_good_ *)
  nv_manual : bool;                (* use_manual_datum_ *)
  nv_force_zone : bool;            (* force_user_utm_ *)
  nv_imu_sub : bool;               (* imu_sub_ is not null *)
  nv_zone : Z;                     (* utm_zone_ *)
  nv_northp : bool;                (* northp_ *)
  nv_convergence : K;              (* utm_meridian_convergence_ *)
  nv_local : K * K;                (* origin of gps_local_cartesian_, at height 0 *)
  nv_datum : geopose;              (* manual_datum_geopose_ *)
  nv_orientation : quat K;         (* transform_orientation_ *)
  nv_cart : trans K;               (* transform_cartesian_pose_ *)
  nv_world : trans K;              (* transform_world_pose_ *)
  nv_cw : trans K;                 (* cartesian_world_transform_ *)
  nv_cwi : trans K;                (* cartesian_world_trans_inverse_ *)
  nv_gps_updated : bool;           (* gps_updated_ *)
  nv_gps_time : Z;                 (* gps_update_time_ *)
  nv_gps_pose : trans K;           (* latest_cartesian_pose_ *)
  nv_gps_cov : mat K;              (* latest_cartesian_covariance_ *)
  nv_odom_updated : bool;          (* odom_updated_ *)
  nv_odom_time : Z;                (* odom_update_time_ *)
  nv_odom_pose : trans K;          (* latest_world_pose_ *)
  nv_odom_cov : mat K              (* latest_odom_covariance_ *)
}.

(** Values of the members that the constructor does not initialise. *)
Record uninit : Type := mkUninit {
  u_datum : geopose; u_orientation : quat K; u_cart : trans K; u_world : trans K; u_cw : trans K; u_cwi : trans K;
  u_gps : trans K; u_gps_cov : mat K; u_odom : trans K; u_odom_cov : mat K }.

(** 161-179: the datum from the parameters *)
Definition configured_datum (p : nav_params) : geopose :=
  match p_datum p with
  | [lat; lon; yaw] => mkGeoPose lat lon 0 (quat_setRPY 0 0 yaw)
  | _ => mkGeoPose 0 0 0 (quat_setRPY 0 0 0)
  end.
(** 67-198 *)
Definition nav_init (p : nav_params) (u : uninit) : nav :=
  mkNav ("odom") ("base_link") ("") (false) (false) (false) (false) (p_manual p) (false) ((negb (p_odom_yaw
    p) && negb (p_manual p))%bool) (0%Z) (true) (0) (0, 0) (if p_manual p then configured_datum p else
    u_datum u) (u_orientation u) (u_cart u) (u_world u) (u_cw u) (u_cwi u) (false) (0%Z) (u_gps u)
    (u_gps_cov u) (false) (0%Z) (u_odom u) (u_odom_cov u).

(** ** Updates of the members *)
(** odomCallback 739-740 *)
Definition set_frames (w b : string) (n : nav) : nav :=
  mkNav (w) (b) (nv_gps_frame n) (nv_has_gps n) (nv_has_imu n) (nv_has_odom n) (nv_good n) (nv_manual n)
    (nv_force_zone n) (nv_imu_sub n) (nv_zone n) (nv_northp n) (nv_convergence n) (nv_local n) (nv_datum n)
    (nv_orientation n) (nv_cart n) (nv_world n) (nv_cw n) (nv_cwi n) (nv_gps_updated n) (nv_gps_time n)
    (nv_gps_pose n) (nv_gps_cov n) (nv_odom_updated n) (nv_odom_time n) (nv_odom_pose n) (nv_odom_cov n).

(** 640 *)
Definition set_gps_frame (f : string) (n : nav) : nav :=
  mkNav (nv_world_frame n) (nv_base_frame n) (f) (nv_has_gps n) (nv_has_imu n) (nv_has_odom n) (nv_good n)
    (nv_manual n) (nv_force_zone n) (nv_imu_sub n) (nv_zone n) (nv_northp n) (nv_convergence n) (nv_local n)
    (nv_datum n) (nv_orientation n) (nv_cart n) (nv_world n) (nv_cw n) (nv_cwi n) (nv_gps_updated n)
    (nv_gps_time n) (nv_gps_pose n) (nv_gps_cov n) (nv_odom_updated n) (nv_odom_time n) (nv_odom_pose n)
    (nv_odom_cov n).

(** 689-731: transform_orientation_ and has_transform_imu_ *)
Definition set_orientation (q : quat K) (has : bool) (n : nav) : nav :=
  mkNav (nv_world_frame n) (nv_base_frame n) (nv_gps_frame n) (nv_has_gps n) (has) (nv_has_odom n) (nv_good
    n) (nv_manual n) (nv_force_zone n) (nv_imu_sub n) (nv_zone n) (nv_northp n) (nv_convergence n) (nv_local
    n) (nv_datum n) (q) (nv_cart n) (nv_world n) (nv_cw n) (nv_cwi n) (nv_gps_updated n) (nv_gps_time n)
    (nv_gps_pose n) (nv_gps_cov n) (nv_odom_updated n) (nv_odom_time n) (nv_odom_pose n) (nv_odom_cov n).

(** 918-919 *)
Definition set_world (t : trans K) (n : nav) : nav :=
  mkNav (nv_world_frame n) (nv_base_frame n) (nv_gps_frame n) (nv_has_gps n) (nv_has_imu n) (true) (nv_good
    n) (nv_manual n) (nv_force_zone n) (nv_imu_sub n) (nv_zone n) (nv_northp n) (nv_convergence n) (nv_local
    n) (nv_datum n) (nv_orientation n) (nv_cart n) (t) (nv_cw n) (nv_cwi n) (nv_gps_updated n) (nv_gps_time
    n) (nv_gps_pose n) (nv_gps_cov n) (nv_odom_updated n) (nv_odom_time n) (nv_odom_pose n) (nv_odom_cov n).

(** 746-756 *)
Definition set_latest_odom (t : trans K) (c : mat K) (stamp : Z) (n : nav) : nav :=
  mkNav (nv_world_frame n) (nv_base_frame n) (nv_gps_frame n) (nv_has_gps n) (nv_has_imu n) (nv_has_odom n)
    (nv_good n) (nv_manual n) (nv_force_zone n) (nv_imu_sub n) (nv_zone n) (nv_northp n) (nv_convergence n)
    (nv_local n) (nv_datum n) (nv_orientation n) (nv_cart n) (nv_world n) (nv_cw n) (nv_cwi n)
    (nv_gps_updated n) (nv_gps_time n) (nv_gps_pose n) (nv_gps_cov n) (true) (stamp) (t) (c).

(** 669-681 *)
Definition set_latest_gps (o : vec3 K) (c : mat K) (stamp : Z) (n : nav) : nav :=
  mkNav (nv_world_frame n) (nv_base_frame n) (nv_gps_frame n) (nv_has_gps n) (nv_has_imu n) (nv_has_odom n)
    (nv_good n) (nv_manual n) (nv_force_zone n) (nv_imu_sub n) (nv_zone n) (nv_northp n) (nv_convergence n)
    (nv_local n) (nv_datum n) (nv_orientation n) (nv_cart n) (nv_world n) (nv_cw n) (nv_cwi n) (true)
    (stamp) (mkTrans (t_basis (nv_gps_pose n)) o) (c) (nv_odom_updated n) (nv_odom_time n) (nv_odom_pose n)
    (nv_odom_cov n).

(** 874, 884: gps_local_cartesian_ and no convergence *)
Definition set_local (lat lon : K) (n : nav) : nav :=
  mkNav (nv_world_frame n) (nv_base_frame n) (nv_gps_frame n) (nv_has_gps n) (nv_has_imu n) (nv_has_odom n)
    (nv_good n) (nv_manual n) (nv_force_zone n) (nv_imu_sub n) (nv_zone n) (nv_northp n) (0) (lat, lon)
    (nv_datum n) (nv_orientation n) (nv_cart n) (nv_world n) (nv_cw n) (nv_cwi n) (nv_gps_updated n)
    (nv_gps_time n) (nv_gps_pose n) (nv_gps_cov n) (nv_odom_updated n) (nv_odom_time n) (nv_odom_pose n)
    (nv_odom_cov n).

(** 891-899: zone, hemisphere and convergence of the datum *)
Definition set_utm (zone : Z) (northp : bool) (convergence : K) (n : nav) : nav :=
  mkNav (nv_world_frame n) (nv_base_frame n) (nv_gps_frame n) (nv_has_gps n) (nv_has_imu n) (nv_has_odom n)
    (nv_good n) (nv_manual n) (nv_force_zone n) (nv_imu_sub n) (zone) (northp) (convergence) (nv_local n)
    (nv_datum n) (nv_orientation n) (nv_cart n) (nv_world n) (nv_cw n) (nv_cwi n) (nv_gps_updated n)
    (nv_gps_time n) (nv_gps_pose n) (nv_gps_cov n) (nv_odom_updated n) (nv_odom_time n) (nv_odom_pose n)
    (nv_odom_cov n).

(** 910-912 *)
Definition set_cart (o : vec3 K) (n : nav) : nav :=
  mkNav (nv_world_frame n) (nv_base_frame n) (nv_gps_frame n) (true) (nv_has_imu n) (nv_has_odom n) (nv_good
    n) (nv_manual n) (nv_force_zone n) (nv_imu_sub n) (nv_zone n) (nv_northp n) (nv_convergence n) (nv_local
    n) (nv_datum n) (nv_orientation n) (t_of quat_identity o) (nv_world n) (nv_cw n) (nv_cwi n)
    (nv_gps_updated n) (nv_gps_time n) (nv_gps_pose n) (nv_gps_cov n) (nv_odom_updated n) (nv_odom_time n)
    (nv_odom_pose n) (nv_odom_cov n).

(** 371-379 *)
Definition set_datum (g : geopose) (n : nav) : nav :=
  mkNav (nv_world_frame n) (nv_base_frame n) (nv_gps_frame n) (nv_has_gps n) (nv_has_imu n) (nv_has_odom n)
    (false) (true) (nv_force_zone n) (nv_imu_sub n) (nv_zone n) (nv_northp n) (nv_convergence n) (nv_local
    n) (g) (nv_orientation n) (nv_cart n) (nv_world n) (nv_cw n) (nv_cwi n) (nv_gps_updated n) (nv_gps_time
    n) (nv_gps_pose n) (nv_gps_cov n) (nv_odom_updated n) (nv_odom_time n) (nv_odom_pose n) (nv_odom_cov n).

(** 487-494 *)
Definition set_zone (zone : Z) (northp : bool) (n : nav) : nav :=
  mkNav (nv_world_frame n) (nv_base_frame n) (nv_gps_frame n) (false) (nv_has_imu n) (nv_has_odom n) (false)
    (false) (true) (nv_imu_sub n) (zone) (northp) (nv_convergence n) (nv_local n) (nv_datum n)
    (nv_orientation n) (nv_cart n) (nv_world n) (nv_cw n) (nv_cwi n) (nv_gps_updated n) (nv_gps_time n)
    (nv_gps_pose n) (nv_gps_cov n) (nv_odom_updated n) (nv_odom_time n) (nv_odom_pose n) (nv_odom_cov n).

(** 338-344 *)
Definition set_transform (cw cwi : trans K) (n : nav) : nav :=
  mkNav (nv_world_frame n) (nv_base_frame n) (nv_gps_frame n) (nv_has_gps n) (nv_has_imu n) (nv_has_odom n)
    (true) (nv_manual n) (nv_force_zone n) (nv_imu_sub n) (nv_zone n) (nv_northp n) (nv_convergence n)
    (nv_local n) (nv_datum n) (nv_orientation n) (nv_cart n) (nv_world n) (cw) (cwi) (nv_gps_updated n)
    (nv_gps_time n) (nv_gps_pose n) (nv_gps_cov n) (nv_odom_updated n) (nv_odom_time n) (nv_odom_pose n)
    (nv_odom_cov n).

(** 232 *)
Definition drop_imu  (n : nav) : nav :=
  mkNav (nv_world_frame n) (nv_base_frame n) (nv_gps_frame n) (nv_has_gps n) (nv_has_imu n) (nv_has_odom n)
    (nv_good n) (nv_manual n) (nv_force_zone n) (false) (nv_zone n) (nv_northp n) (nv_convergence n)
    (nv_local n) (nv_datum n) (nv_orientation n) (nv_cart n) (nv_world n) (nv_cw n) (nv_cwi n)
    (nv_gps_updated n) (nv_gps_time n) (nv_gps_pose n) (nv_gps_cov n) (nv_odom_updated n) (nv_odom_time n)
    (nv_odom_pose n) (nv_odom_cov n).

(** 784-785, 803 *)
Definition set_filtered (c : mat K) (n : nav) : nav :=
  mkNav (nv_world_frame n) (nv_base_frame n) (nv_gps_frame n) (nv_has_gps n) (nv_has_imu n) (nv_has_odom n)
    (nv_good n) (nv_manual n) (nv_force_zone n) (nv_imu_sub n) (nv_zone n) (nv_northp n) (nv_convergence n)
    (nv_local n) (nv_datum n) (nv_orientation n) (nv_cart n) (nv_world n) (nv_cw n) (nv_cwi n)
    (nv_gps_updated n) (nv_gps_time n) (nv_gps_pose n) (nv_gps_cov n) (false) (nv_odom_time n) (nv_odom_pose
    n) (c).

(** 842-843, 859 *)
Definition set_published (c : mat K) (n : nav) : nav :=
  mkNav (nv_world_frame n) (nv_base_frame n) (nv_gps_frame n) (nv_has_gps n) (nv_has_imu n) (nv_has_odom n)
    (nv_good n) (nv_manual n) (nv_force_zone n) (nv_imu_sub n) (nv_zone n) (nv_northp n) (nv_convergence n)
    (nv_local n) (nv_datum n) (nv_orientation n) (nv_cart n) (nv_world n) (nv_cw n) (nv_cwi n) (false)
    (nv_gps_time n) (nv_gps_pose n) (c) (nv_odom_updated n) (nv_odom_time n) (nv_odom_pose n) (nv_odom_cov
    n).

(** ** Helpers *)
(** External: tf2::quatRotate, q * v * conj(q) *)
Definition quatRotate (q : quat K) (v : vec3 K) : vec3 K :=
  let ax := qw q * v3x v + qy q * v3z v - qz q * v3y v in
  let ay := qw q * v3y v + qz q * v3x v - qx q * v3z v in
  let az := qw q * v3z v + qx q * v3y v - qy q * v3x v in
  let aw := - qx q * v3x v - qy q * v3y v - qz q * v3z v in
  let bx := - qx q in let by' := - qy q in let bz := - qz q in let bw := qw q in
  mkV3 (aw * bx + ax * bw + ay * bz - az * by')
       (aw * by' + ay * bw + az * bx - ax * bz)
       (aw * bz + az * bw + ax * by' - ay * bx).
(** tf2::Transform::setRotation, setOrigin *)
Definition with_rotation (t : trans K) (q : quat K) : trans K := mkTrans (m3_of_quat q) (t_origin t).
Definition with_origin (t : trans K) (o : vec3 K) : trans K := mkTrans (t_basis t) o.
Definition zero_z (zero : bool) (v : vec3 K) : vec3 K := if zero then mkV3 (v3x v) (v3y v) 0 else v.
(** tf2::Matrix3x3::getRPY of a quaternion's matrix *)
Definition rpy_of (q : quat K) : K * K * K := m3_getRPY (m3_of_quat q).

(** ** Services and callbacks *)
(** 685-734 *)
Definition navImuCallback (e : penv K) (stamp : Z) (frame : string) (orientation : quat K) (n : nav) : nav :=
  if nv_has_odom n then
    match lookupTransformSafe e (nv_base_frame n) frame stamp with
    | None => set_orientation orientation (nv_has_imu n) n
    | Some t =>
        let '(roll_offset, pitch_offset, yaw_offset) := quatToRPY (m3_getRotation (t_basis t)) in
        let '(roll, pitch, yaw) := quatToRPY orientation in
        let rpy := mkV3 (normalize_angle (roll - roll_offset)) (normalize_angle (pitch - pitch_offset))
                        (normalize_angle (yaw - yaw_offset)) in
        let rpy' := m3mv (m3_setRPY 0 0 yaw_offset) rpy in
        set_orientation (quat_setRPY (v3x rpy') (v3y rpy') (v3z rpy')) true n
    end
  else n.

(** 866-913.  The z of LocalCartesian::Forward is not used. *)
Definition setTransformGps (g : geolib) (p : nav_params) (lat lon alt : K) (n : nav) : nav :=
  if p_local p then
    let n := set_local lat lon n in
    let '(x, y) := g_local g lat lon lat lon alt in
    set_cart (mkV3 x y alt) n
  else
    match g_forward g lat lon (if nv_force_zone n then nv_zone n else (-1)%Z) with
    | None => n
    | Some (zone, northp, x, y, gamma) =>
        set_cart (mkV3 x y alt) (set_utm zone northp (gamma * (s_pi / lit 180 0)) n)
    end.

(** 915-937 *)
Definition setTransformOdometry (e : penv K) (p : nav_params) (stamp : Z) (child : string)
    (position : vec3 K) (orientation : quat K) (n : nav) : nav :=
  let n := set_world (t_of orientation position) n in
  if (negb (nv_good n) && p_odom_yaw p && negb (nv_manual n))%bool
  then navImuCallback e stamp child orientation n else n.

(** 637-683; STATUS_NO_FIX is -1 *)
Definition good_gps (m : fix_msg) : bool :=
  (negb (Z.eqb (fx_status m) (-1)) && negb (s_isnan (fx_alt m)) && negb (s_isnan (fx_lat m))
   && negb (s_isnan (fx_lon m)))%bool.
Definition gps_covariance (cov : nat -> K) : mat K :=
  fun i j => if (Nat.ltb i 3 && Nat.ltb j 3)%bool then cov (3 * i + j)%nat else 0.
Definition gpsFixCallback (g : geolib) (p : nav_params) (m : fix_msg) (n : nav) : result nav :=
  let n := set_gps_frame (fx_frame m) n in
  if good_gps m then
    let n := if (negb (nv_good n) && negb (nv_manual n))%bool
             then setTransformGps g p (fx_lat m) (fx_lon m) (fx_alt m) n else n in
    match g_forward g (fx_lat m) (fx_lon m) (-1)%Z with
    | None => Thrown
    | Some (_, _, x, y, _) =>
        Done (set_latest_gps (mkV3 x y (fx_alt m)) (gps_covariance (fx_cov m)) (fx_stamp m) n)
    end
  else Done n.

(** 736-757 *)
Definition odomCallback (e : penv K) (p : nav_params) (m : odom_msg K) (n : nav) : nav :=
  let n := set_frames (o_frame m) (o_child m) n in
  let n := if nv_good n then n
           else setTransformOdometry e p (o_stamp m) (o_child m) (o_position m) (o_orientation m) n in
  set_latest_odom (t_of (o_orientation m) (o_position m))
    (fun i j => if (Nat.ltb i 6 && Nat.ltb j 6)%bool then o_pose_cov m (6 * i + j)%nat else 0) (o_stamp m) n.

(** 383-418.  The fix is stamped now, the IMU message with time zero. *)
Definition setManualDatum (e : penv K) (g : geolib) (p : nav_params) (n : nav) : nav :=
  let d := nv_datum n in
  let n := setTransformGps g p (gp_lat d) (gp_lon d) (gp_alt d) n in
  let n := setTransformOdometry e p 0 (nv_base_frame n) v3zero quat_identity n in
  navImuCallback e 0 (nv_base_frame n) (gp_orientation d) n.

(** 548-593 *)
Definition getRobotOriginCartesianPose (e : penv K) (p : nav_params) (n : nav) (pose : trans K) (time : Z)
    : trans K :=
  match lookupTransformSafe e (nv_base_frame n) (nv_gps_frame n) time with
  | Some offset =>
      let '(roll, pitch, yaw) := rpy_of (nv_orientation n) in
      let q := quat_setRPY roll pitch (yaw + (p_declination p + p_yaw_offset p + nv_convergence n)) in
      let offset := with_rotation (with_origin offset (quatRotate q (t_origin offset))) quat_identity in
      t_mult (t_inverse offset) pose
  | None => pose
  end.

(** 595-635 *)
Definition getRobotOriginWorldPose (e : penv K) (n : nav) (pose : trans K) (time : Z) : trans K :=
  match lookupTransformSafe e (nv_base_frame n) (nv_gps_frame n) time with
  | Some offset =>
      match lookupTransformSafe e (nv_world_frame n) (nv_base_frame n) time with
      | Some robot =>
          let offset := with_rotation
            (with_origin offset (quatRotate (m3_getRotation (t_basis robot)) (t_origin offset))) quat_identity in
          t_mult (t_inverse offset) pose
      | None => t_identity
      end
  | None => t_identity
  end.

(** 346-362: the transform broadcast *)
Record static_tf : Type := mkStaticTf {
  st_stamp : Z; st_frame : string; st_child : string; st_translation : vec3 K; st_rotation : quat K }.
(** What the node sends or answers.  [AnsLL None], [AnsMap None]: the service
    callback returned false. *)
Inductive nav_out : Type :=
| PubGps (m : odom_msg K)
| PubFix (m : fix_msg)
| PubTf (m : static_tf)
| AnsLL (r : option (K * K * K))
| AnsMap (r : option (vec3 K)).

Definition cartesian_broadcast (p : nav_params) (now : Z) (n : nav) : list nav_out :=
  if p_broadcast p then
    let cart := if p_local p then "local_enu" else "utm" in
    let world := nv_world_frame n in
    let t := if p_as_parent p then nv_cwi n else nv_cw n in
    [PubTf (mkStaticTf now (if p_as_parent p then cart else world) (if p_as_parent p then world else cart)
              (zero_z (p_zero_alt p) (t_origin t)) (m3_getRotation (t_basis t)))]
  else [].

(** 266-342 *)
Definition corrected_pose (e : penv K) (p : nav_params) (n : nav) : trans K :=
  if nv_manual n then nv_cart n else getRobotOriginCartesianPose e p n (nv_cart n) 0.
Definition world_transform (e : penv K) (p : nav_params) (n : nav) : trans K :=
  let corrected := corrected_pose e p n in
  let '(_, _, imu_yaw) := rpy_of (nv_orientation n) in
  let imu_yaw := imu_yaw + (p_declination p + p_yaw_offset p + nv_convergence n) in
  let cart := t_of (quat_setRPY 0 0 imu_yaw) (t_origin corrected) in
  let '(_, _, odom_yaw) := rpy_of (m3_getRotation (t_basis (nv_world n))) in
  t_mult (with_rotation (nv_world n) (quat_setRPY 0 0 odom_yaw)) (t_inverse cart).

(** 249-364 *)
Definition computeTransform (e : penv K) (g : geolib) (p : nav_params) (now : Z) (n : nav) : nav * list nav_out :=
  let n := if (negb (nv_good n) && nv_has_odom n && nv_manual n)%bool then setManualDatum e g p n else n in
  if (negb (nv_good n) && nv_has_odom n && nv_has_gps n && nv_has_imu n)%bool then
    let cw := world_transform e p n in
    let n := set_transform cw (t_inverse cw) n in
    (n, cartesian_broadcast p now n)
  else (n, []).

(** 499-520; position only, the rest of the message is set by the caller *)
Definition cartesianToMap (p : nav_params) (n : nav) (pose : trans K) : vec3 K :=
  zero_z (p_zero_alt p) (t_origin (with_rotation (t_mult (nv_cw n) pose) quat_identity)).

(** 522-546 *)
Definition mapToLL (g : geolib) (n : nav) (point : vec3 K) : result (K * K * K) :=
  let t := t_mult (nv_cwi n) (t_of quat_identity point) in
  match g_reverse g (nv_zone n) (nv_northp n) (v3x (t_origin t)) (v3y (t_origin t)) with
  | None => Thrown
  | Some (lat, lon) => Done (lat, lon, v3z (t_origin t))
  end.

(** 759-808; STATUS_GBAS_FIX is 2 *)
Definition prepareFilteredGps (g : geolib) (n : nav) : result (nav * option fix_msg) :=
  if (nv_good n && nv_odom_updated n)%bool then
    match mapToLL g n (t_origin (nv_odom_pose n)) with
    | Thrown => Thrown
    | Done (lat, lon, alt) =>
        let rot := m3_of_quat (m3_getRotation (t_basis (nv_cwi n))) in
        let cov := rotateCov 6 (rot6 rot) (nv_odom_cov n) in
        Done (set_filtered cov n,
              Some (mkFix (nv_odom_time n) (nv_base_frame n) 2 lat lon alt
                      (fun k => cov (Nat.div k 3) (Nat.modulo k 3))))
    end
  else Done (n, None).

(** 822-824: the double of the stamp in seconds converts to the int64 of
    rclcpp::Time, a nanosecond count. *)
Definition gps_lookup_time (stamp : Z) : Z :=
  @s_trunc K (s_ofZ (stamp / 1000000000) + s_ofZ (stamp mod 1000000000) / s_ofZ 1000000000).

(** 810-864.  fromMsg of the identity orientation written by cartesianToMap. *)
Definition prepareGpsOdometry (e : penv K) (p : nav_params) (n : nav) : nav * option (odom_msg K) :=
  if (nv_good n && nv_gps_updated n && nv_odom_updated n)%bool then
    let gps := t_of (m3_getRotation (m3_of_quat quat_identity)) (cartesianToMap p n (nv_gps_pose n)) in
    let robot := getRobotOriginWorldPose e n gps (gps_lookup_time (nv_gps_time n)) in
    let rot := m3_of_quat (m3_getRotation (t_basis (nv_cw n))) in
    let cov := rotateCov 6 (rot6 rot) (nv_gps_cov n) in
    (set_published cov n,
     Some (mkOdom (nv_gps_time n) (nv_world_frame n) ""
             (zero_z (p_zero_alt p) (t_origin robot)) (m3_getRotation (t_basis robot))
             v3zero v3zero (fun k => cov (Nat.div k 6) (Nat.modulo k 6)) (fun _ => 0)))
  else (n, None).

(** 225-247 *)
Definition transformCallback (e : penv K) (g : geolib) (p : nav_params) (now : Z) (n : nav)
    : result (nav * list nav_out) :=
  if nv_good n then
    let '(n, gps) := prepareGpsOdometry e p n in
    let out := match gps with Some m => [PubGps m] | None => [] end in
    if p_publish p then
      match prepareFilteredGps g n with
      | Thrown => Thrown
      | Done (n, fix_) => Done (n, (out ++ match fix_ with Some m => [PubFix m] | None => [] end)%list)
      end
    else Done (n, out)
  else
    let '(n, out) := computeTransform e g p now n in
    Done (if (nv_good n && negb (p_odom_yaw p) && negb (nv_manual n))%bool then drop_imu n else n, out).

(** 366-381 *)
Definition datumCallback (d : geopose) (n : nav) : nav := set_datum d n.
(** 420-434 *)
Definition toLLCallback (g : geolib) (point : vec3 K) (n : nav) : result (option (K * K * K)) :=
  if nv_good n then match mapToLL g n point with Thrown => Thrown | Done r => Done (Some r) end
  else Done None.
(** 436-478.  [junk]: the rotation of the local transform, never set. *)
Definition fromLLCallback (g : geolib) (p : nav_params) (junk : mat3 K) (lat lon alt : K) (n : nav)
    : result (option (vec3 K)) :=
  let answer x y :=
    Done (if nv_good n then Some (cartesianToMap p n (mkTrans junk (mkV3 x y alt))) else None) in
  if p_local p then
    let '(x, y) := g_local g (fst (nv_local n)) (snd (nv_local n)) lat lon alt in answer x y
  else
    match g_forward g lat lon (nv_zone n) with
    | None => Thrown
    | Some (_, _, x, y, _) => answer x y
    end.
(** 480-497 *)
Definition setUTMZoneCallback (g : geolib) (zone : string) (n : nav) : result nav :=
  match g_mgrs g zone with None => Thrown | Some (z, northp) => Done (set_zone z northp n) end.

(** ** Executions *)
(** One callback; the executor runs them one at a time.  Each comes with the
    transforms known at that moment. *)
Inductive nav_event : Type :=
| EvGps (m : fix_msg)
| EvImu (m : imu_msg K)
| EvOdom (m : odom_msg K)
| EvTick (now : Z)
| EvDatum (d : geopose)
| EvZone (zone : string)
| EvToLL (point : vec3 K)
| EvFromLL (lat lon alt : K).

Definition nav_step (g : geolib) (p : nav_params) (junk : mat3 K) (e : penv K) (ev : nav_event) (n : nav)
    : result (nav * list nav_out) :=
  match ev with
  | EvGps m => match gpsFixCallback g p m n with Thrown => Thrown | Done n => Done (n, []) end
  | EvImu m =>
      Done (if nv_imu_sub n then navImuCallback e (im_stamp m) (im_frame m) (im_orientation m) n else n, [])
  | EvOdom m => Done (odomCallback e p m n, [])
  | EvTick now => transformCallback e g p now n
  | EvDatum d => Done (datumCallback d n, [])
  | EvZone z => match setUTMZoneCallback g z n with Thrown => Thrown | Done n => Done (n, []) end
  | EvToLL v => match toLLCallback g v n with Thrown => Thrown | Done r => Done (n, [AnsLL r]) end
  | EvFromLL lat lon alt =>
      match fromLLCallback g p junk lat lon alt n with Thrown => Thrown | Done r => Done (n, [AnsMap r]) end
  end.

(** The outputs of a run, one list per event. *)
Fixpoint nav_run (g : geolib) (p : nav_params) (junk : mat3 K) (evs : list (penv K * nav_event)) (n : nav)
    : result (nav * list (list nav_out)) :=
  match evs with
  | [] => Done (n, [])
  | (e, ev) :: r =>
      match nav_step g p junk e ev n with
      | Thrown => Thrown
      | Done (n', o) =>
          match nav_run g p junk r n' with
          | Thrown => Thrown
          | Done (n'', os) => Done (n'', o :: os)
          end
      end
  end.

End Navsat.

Arguments Done {A} a.
Arguments Thrown {A}.
Arguments geolib K : clear implicits.
Arguments geopose K : clear implicits.
Arguments fix_msg K : clear implicits.
Arguments nav_params K : clear implicits.
Arguments nav K : clear implicits.
Arguments uninit K : clear implicits.
Arguments static_tf K : clear implicits.
Arguments nav_out K : clear implicits.
Arguments nav_event K : clear implicits.
