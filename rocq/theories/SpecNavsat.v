(** * Specification vocabulary for the navsat_transform node

    Uses the data types of Navsat.v (messages, events, outputs, node state) and
    [nav_run]; none of its helper functions. *)

From Coq Require Import Reals ZArith List Bool String.
From Verif Require Import Scalar Mat Tf RosFilter RosPrepare Navsat SpecFilter SpecTf SpecPrepare.
Import ListNotations.

Section Traces.
Context {K : Scalar}.

(** A fix that may be used: it has a fix status and three numbers. *)
Definition usable (m : fix_msg K) : Prop :=
  fx_status m <> (-1)%Z /\ s_isnan (fx_lat m) = false /\ s_isnan (fx_lon m) = false /\ s_isnan (fx_alt m) = false.

Definition trace : Type := list (penv K * nav_event K).
Definition event_at (evs : trace) (k : nat) (ev : nav_event K) : Prop := exists e, nth_error evs k = Some (e, ev).
Definition output_at (outs : list (list (nav_out K))) (k : nat) (o : nav_out K) : Prop :=
  exists l, nth_error outs k = Some l /\ In o l.
(** The execution of the node from its start; uninitialised memory holds [u], [junk]. *)
Definition execution (g : geolib K) (p : nav_params K) (u : uninit K) (junk : mat3 K) (evs : trace)
    (n : nav K) (outs : list (list (nav_out K))) : Prop :=
  nav_run g p junk evs (nav_init p u) = Done (n, outs).
Definition reachable (g : geolib K) (p : nav_params K) (n : nav K) : Prop :=
  exists u junk evs outs, execution g p u junk evs n outs.

Definition is_request (ev : nav_event K) : Prop :=
  match ev with EvDatum _ | EvZone _ => True | _ => False end.
Definition no_request (evs : trace) : Prop := forall x, In x evs -> ~ is_request (snd x).

(** [x] is the last event with property [P]. *)
Definition last_with (P : nav_event K -> Prop) (evs : trace) (x : penv K * nav_event K) : Prop :=
  exists a b, evs = (a ++ x :: b)%list /\ P (snd x) /\ forall y, In y b -> ~ P (snd y).
Definition usable_fix (ev : nav_event K) : Prop := exists m, ev = EvGps m /\ usable m.
Definition any_fix (ev : nav_event K) : Prop := exists m, ev = EvGps m.
Definition odometry (ev : nav_event K) : Prop := exists m, ev = EvOdom m.

Definition imu_event (ev : nav_event K) : Prop := exists m, ev = EvImu m.

(** The cartesian position of a fix taken as datum. *)
Definition datum_position (g : geolib K) (p : nav_params K) (lat lon alt : K) (v : vec3 K) : Prop :=
  if p_local p then v = mkV3 (fst (g_local g lat lon lat lon alt)) (snd (g_local g lat lon lat lon alt)) alt
  else exists zone northp x y gamma,
    g_forward g lat lon (-1)%Z = Some (zone, northp, x, y, gamma) /\ v = mkV3 x y alt.

End Traces.

Local Open Scope R_scope.
Definition distance3 (a b : V3) : R :=
  sqrt ((X a - X b) * (X a - X b) + (Y a - Y b) * (Y a - Y b) + (Z3 a - Z3 b) * (Z3 a - Z3 b)).
Definition plane (zero : bool) (v : V3) : V3 := if zero then v3 (X v) (Y v) 0 else v.

(** GeographicLib: the projection of a point in the given zone and hemisphere
    is undone by the inverse projection. *)
Definition undone (g : geolib RScalar) (lat lon : R) (zone : Z) (northp : bool) : Prop :=
  exists x y gamma, g_forward g lat lon zone = Some (zone, northp, x, y, gamma) /\
                    g_reverse g zone northp x y = Some (lat, lon).

(** The transform [r] known at a stamp (nanoseconds); stamp 0 asks for the
    latest. *)
Definition asked (e : penv RScalar) (target source : string) (stamp : Z) (r : option T4) : Prop :=
  answer (e_buffer e) target source (e_from_sec e (IZR stamp / 1000000000)) r.

(** The quaternion is the orientation with these angles, pitch below 90 degrees. *)
Definition attitude (q : Q4) (roll pitch yaw : R) : Prop :=
  unit_quat q /\ - (PI / 2) < pitch < PI / 2 /\ forall v, spin q v = oriented roll pitch yaw v.

(** The angles the node takes for the robot when a sensor in [frame] reports
    [q]: those of [q] if the mounting is unknown, else the differences of roll,
    pitch and yaw, the first two turned by the yaw of the mounting. *)
Inductive robot_attitude (e : penv RScalar) (base frame : string) (stamp : Z) (q : Q4) : R -> R -> R -> Prop :=
| ra_raw r pt y : asked e base frame stamp None -> attitude q r pt y -> robot_attitude e base frame stamp q r pt y
| ra_mounted t ro po yo ri pi yi dr dp : asked e base frame stamp (Some t) ->
    (forall v, turn (t_basis t) v = oriented ro po yo v) -> - (PI / 2) < po < PI / 2 ->
    attitude q ri pi yi -> wrapped (ri - ro) dr -> wrapped (pi - po) dp ->
    - (PI / 2) < sin yo * dr + cos yo * dp < PI / 2 ->
    robot_attitude e base frame stamp q (cos yo * dr - sin yo * dp) (sin yo * dr + cos yo * dp) (yi - yo).

(** The orientation recorded for the datum: of the last odometry message with
    use_odometry_yaw, else of the last IMU message, once odometry has named the
    base frame. *)
Definition recorded_attitude (p : nav_params RScalar) (evs : @trace RScalar) (r pt y : R) : Prop :=
  if p_odom_yaw p then exists e o, last_with odometry evs (e, EvOdom o) /\
    robot_attitude e (o_child o) (o_child o) (o_stamp o) (o_orientation o) r pt y
  else exists a e m b eo o, evs = (a ++ (e, EvImu m) :: b)%list /\ (forall x, In x b -> ~ imu_event (snd x)) /\
    last_with odometry a (eo, EvOdom o) /\
    robot_attitude e (o_child o) (im_frame m) (im_stamp m) (im_orientation m) r pt y.

(** The angle between grid north and true north at the datum. *)
Definition datum_convergence (g : geolib RScalar) (p : nav_params RScalar) (lat lon : R) (c : R) : Prop :=
  if p_local p then c = 0
  else exists zone northp x y gamma,
    g_forward g lat lon (-1)%Z = Some (zone, northp, x, y, gamma) /\ c = gamma * PI / 180.

(** The datum in force when none comes from a fix: of the last datum request, or
    of the parameters (latitude, longitude, heading) if there has been none. *)
Inductive given_datum (p : nav_params RScalar) (evs : @trace RScalar) : R -> R -> R -> R -> R -> R -> Prop :=
| gd_request a e d b r pt y : evs = (a ++ (e, EvDatum d) :: b)%list -> no_request b ->
    attitude (gp_orientation d) r pt y -> given_datum p evs (gp_lat d) (gp_lon d) (gp_alt d) r pt y
| gd_configured lat lon yaw : no_request evs -> p_manual p = true -> p_datum p = [lat; lon; yaw] ->
    given_datum p evs lat lon 0 0 0 yaw.
Definition no_zone (evs : @trace RScalar) : Prop := forall x z, In x evs -> snd x <> EvZone z.

(** Calls of the two conversion services and their answers. *)
Definition from_ll (g : geolib RScalar) (p : nav_params RScalar) (junk : M3) (n : nav RScalar) (lat lon alt : R) (v : V3) : Prop := forall e,
  nav_step g p junk e (EvFromLL (K := RScalar) lat lon alt) n = Done (n, [AnsMap (Some v)]).
Definition to_ll (g : geolib RScalar) (p : nav_params RScalar) (junk : M3) (n : nav RScalar) (v : V3) (lat lon alt : R) : Prop := forall e,
  nav_step g p junk e (EvToLL v) n = Done (n, [AnsLL (K := RScalar) (Some (lat, lon, alt))]).
