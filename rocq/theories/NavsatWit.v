(** * Concrete executions of the navsat_transform node (C57, C63-C69) *)

From Coq Require Import Reals ZArith List Bool String Lia Lra Arith.
From Verif Require Import Scalar Mat FilterBase Tf StrMap RosFilter RosPrepare Navsat SpecFilter SpecLin SpecTf SpecPrepare SpecNavsat
  RBridge Angles Trig TfReal TfRot TfQuat PrepareProofs PrepareReal PrepareFacts PrepareThm PrepareGoals PrepareWit
  NavsatProofs NavsatTrace NavsatLife NavsatReal NavsatDatum NavsatGoals NavsatSim NavsatGoals2.
Import ListNotations.
Local Open Scope list_scope.
Local Open Scope R_scope.

(** A flat earth with two zones (31: west of 6 degrees, 32: the rest), 100 km to
    the degree, and UTM's false easting and northing. *)
Definition flat_zone (lon : R) : Z := if Rlt_dec lon 6 then 31%Z else 32%Z.
Definition flat_x (lon : R) (zone : Z) : R := 500000 + 100000 * (lon - IZR (6 * zone - 183)).
Definition flat_north (lat : R) : bool := if Rle_dec 0 lat then true else false.
Definition flat_y (lat : R) (north : bool) : R := 100000 * lat + (if north then 0 else 10000000).
Definition flat_geo : geolib RScalar :=
  @mkGeo RScalar
    (fun lat lon zone => let z := if Z.eqb zone (-1) then flat_zone lon else zone in
       Some (z, flat_north lat, flat_x lon z, flat_y lat (flat_north lat), 0))
    (fun zone north x y => Some ((y - (if north then 0 else 10000000)) / 100000, (x - 500000) / 100000 + IZR (6 * zone - 183)))
    (fun lat0 lon0 lat lon _ => ((lon - lon0) * 100000, (lat - lat0) * 100000))
    (fun _ => Some (32%Z, true)).
Lemma flat_zone_west lon : lon < 6 -> flat_zone lon = 31%Z.
Proof. intros H. unfold flat_zone. destruct (Rlt_dec lon 6); [reflexivity|lra]. Qed.
Lemma flat_zone_east lon : 6 <= lon -> flat_zone lon = 32%Z.
Proof. intros H. unfold flat_zone. destruct (Rlt_dec lon 6); [lra|reflexivity]. Qed.
Lemma flat_n lat : 0 <= lat -> flat_north lat = true.
Proof. intros H. unfold flat_north. destruct (Rle_dec 0 lat); [reflexivity|lra]. Qed.
Lemma flat_s lat : lat < 0 -> flat_north lat = false.
Proof. intros H. unfold flat_north. destruct (Rle_dec 0 lat); [lra|reflexivity]. Qed.
Lemma flat_undone lat lon zone : zone <> (-1)%Z -> undone flat_geo lat lon zone (flat_north lat).
Proof.
  intros H. exists (flat_x lon zone), (flat_y lat (flat_north lat)), 0. cbn [flat_geo g_forward g_reverse].
  rewrite (proj2 (Z.eqb_neq _ _) H). split; [reflexivity|]. do 2 f_equal.
  - unfold flat_y. lra.
  - unfold flat_x. lra.
Qed.

Definition wit_par (local zero publish : bool) : nav_params RScalar :=
  @mkNavPar RScalar 0 0 zero publish true false local false false [].
Definition wit_u : uninit RScalar :=
  let t := t_identity in mkUninit (@mkGeoPose RScalar 0 0 0 quat_identity) quat_identity t t t t t mzero t mzero.
Definition blind : penv RScalar := plain_env false 0 [] no_buffer.
Definition seeing (b : tf_buffer RScalar) : penv RScalar := plain_env false 0 [] b.
Definition level : Q4 := @mkQuat RScalar 0 0 0 1.
Definition wit_odom (stamp : Z) (pos : V3) : odom_msg RScalar :=
  mkOdom stamp "odom" "base_link" pos level (v3 0 0 0) (v3 0 0 0) (fun _ => 0) (fun _ => 0).
Definition wit_fix (stamp : Z) (lat lon alt : R) : fix_msg RScalar := @mkFix RScalar stamp "gps" 0 lat lon alt (fun _ => 0).

Lemma wit_usable s lat lon alt : usable (wit_fix s lat lon alt).
Proof. repeat split; discriminate. Qed.
Lemma level_unit : unit_quat level.
Proof. exact one_unit. Qed.
Lemma level_attitude : attitude level 0 0 0.
Proof.
  split; [exact level_unit|]. split; [pose proof PI_RGT_0; lra|]. intros v. rewrite oriented_yaw, about_z_0. apply one_spin.
Qed.
Lemma blind_self f s : asked blind f f s (Some no_motion).
Proof. apply no_buffer_self. Qed.
Lemma blind_none a b s : a <> b -> asked blind a b s None.
Proof. intros H. apply unavailable; [reflexivity|reflexivity|exact H]. Qed.
Lemma no_motion_turn v : turn (t_basis (@no_motion RScalar)) v = v.
Proof. apply turn_eye. Qed.

(** ** The first part: odometry, a fix, and the transform *)
Definition first_part (lat lon alt : R) : @trace RScalar :=
  [(blind, EvOdom (wit_odom 5000000000 (v3 0 0 0))); (blind, EvGps (wit_fix 5000000000 lat lon alt))].
Definition wit_start (lat lon alt : R) : @trace RScalar := first_part lat lon alt ++ [(blind, EvTick 1)].

Lemma wit_attitude local zero publish lat lon alt : recorded_attitude (wit_par local zero publish) (first_part lat lon alt) 0 0 0.
Proof.
  exists blind, (wit_odom 5000000000 (v3 0 0 0)). split.
  - exists [], [(blind, EvGps (wit_fix 5000000000 lat lon alt))]. split; [reflexivity|]. split; [eexists; reflexivity|].
    intros y [<-|[]] (m & Q). discriminate.
  - cbn [o_child o_stamp o_orientation wit_odom].
    replace (robot_attitude blind "base_link" "base_link" 5000000000 level 0 0 0)
      with (robot_attitude blind "base_link" "base_link" 5000000000 level (cos 0 * 0 - sin 0 * 0) (sin 0 * 0 + cos 0 * 0) (0 - 0))
      by (rewrite sin_0, cos_0; f_equal; ring).
    pose proof PI_RGT_0. apply (ra_mounted _ _ _ _ _ no_motion 0 0 0 0 0 0 0 0); try lra.
    + apply blind_self.
    + intros v. now rewrite no_motion_turn, oriented_yaw, about_z_0.
    + exact level_attitude.
    + rewrite Rminus_0_r. apply wrapped_id. lra.
    + rewrite Rminus_0_r. apply wrapped_id. lra.
Qed.
Lemma no_request_first lat lon alt : no_request (first_part lat lon alt).
Proof. intros x [<-|[<-|[]]]; cbn; auto. Qed.

(** The datum's coordinates. *)
Definition wit_cart (local : bool) (lat lon alt : R) : V3 :=
  if local then v3 ((lon - lon) * 100000) ((lat - lat) * 100000) alt
  else v3 (flat_x lon (flat_zone lon)) (flat_y lat (flat_north lat)) alt.

Lemma wit_odom_step local zero publish s pos : exists q,
  odomCallback blind (wit_par local zero publish) (wit_odom s pos) (nav_init (wit_par local zero publish) wit_u) =
  set_latest_odom (t_of level pos)
    (fun i j => if (Nat.ltb i 6 && Nat.ltb j 6)%bool then 0 else 0) s
    (set_orientation q true (set_world (t_of level pos) (set_frames "odom" "base_link" (nav_init (wit_par local zero publish) wit_u)))).
Proof.
  exists (reading blind "base_link" s "base_link" level).
  unfold odomCallback. cbn [nv_good set_frames nav_init]. rewrite setOdom_eq. cbn zeta.
  cbn [nv_good set_world set_frames nav_init negb p_odom_yaw wit_par nv_manual p_manual andb nv_base_frame o_frame o_child o_stamp o_position o_orientation wit_odom].
  rewrite mounted_self. reflexivity.
Qed.

Lemma wit_first local zero publish lat lon alt : exists n,
  execution flat_geo (wit_par local zero publish) wit_u m3eye (first_part lat lon alt) n [[]; []] /\ nv_good n = false /\
  nv_has_imu n = true /\ nv_has_gps n = true /\ nv_has_odom n = true /\ nv_manual n = false /\
  nv_gps_updated n = true /\ nv_odom_updated n = true /\
  nv_zone n = (if local then 0%Z else flat_zone lon) /\ nv_northp n = (if local then true else flat_north lat) /\
  (local = true -> nv_local n = (lat, lon)).
Proof.
  destruct (wit_odom_step local zero publish 5000000000 (v3 0 0 0)) as (q & Q).
  set (n1 := odomCallback _ _ _ _) in Q.
  assert (S : exists n, nav_step flat_geo (wit_par local zero publish) m3eye blind (EvGps (wit_fix 5000000000 lat lon alt)) n1 = Done (n, []) /\ nv_good n = false /\
    nv_has_imu n = true /\ nv_has_gps n = true /\ nv_has_odom n = true /\ nv_manual n = false /\
    nv_gps_updated n = true /\ nv_odom_updated n = true /\
    nv_zone n = (if local then 0%Z else flat_zone lon) /\ nv_northp n = (if local then true else flat_north lat) /\
    (local = true -> nv_local n = (lat, lon))).
  { rewrite Q. clear Q n1. cbn [nav_step]. unfold gpsFixCallback. change (good_gps (wit_fix 5000000000 lat lon alt)) with true. cbn iota.
    cbn [nv_good nv_manual set_gps_frame set_latest_odom set_orientation set_world set_frames nav_init wit_par p_manual negb andb].
    unfold setTransformGps. cbn [p_local wit_par flat_geo g_forward g_local Z.eqb nv_force_zone set_gps_frame set_latest_odom set_orientation set_world set_frames nav_init].
    eexists. split; [reflexivity|]. destruct local; cbn; repeat split; discriminate. }
  destruct S as (n & S & F). exists n. split; [|exact F].
  apply (execution_snoc _ _ _ _ [(blind, EvOdom (wit_odom 5000000000 (v3 0 0 0)))]). exists n1, [[]], []. split; [|auto].
  apply (execution_snoc _ _ _ _ []). exists (nav_init (wit_par local zero publish) wit_u), [], []. split; [apply execution_nil; auto|]. auto.
Qed.
Lemma wit_started local zero publish lat lon alt :
  exists n outs, execution flat_geo (wit_par local zero publish) wit_u m3eye (wit_start lat lon alt) n outs /\
    nv_good n = true /\ nv_gps_updated n = true /\ nv_odom_updated n = true /\
    nv_zone n = (if local then 0%Z else flat_zone lon) /\ nv_northp n = (if local then true else flat_north lat) /\
    (local = true -> nv_local n = (lat, lon)) /\
    move (nv_cw n) (wit_cart local lat lon alt) = v3 0 0 0 /\ forall v, turn (t_basis (nv_cw n)) v = v.
Proof.
  destruct (wit_first local zero publish lat lon alt) as (n0 & E0 & G0 & HI & HG & HO & MA & GU0 & OU0 & ZN0 & NP0 & LC0).
  assert (E : exists n outs, execution flat_geo (wit_par local zero publish) wit_u m3eye (wit_start lat lon alt) n outs /\ nv_good n = true /\
    nv_gps_updated n = true /\ nv_odom_updated n = true /\
    nv_zone n = (if local then 0%Z else flat_zone lon) /\ nv_northp n = (if local then true else flat_north lat) /\
    (local = true -> nv_local n = (lat, lon))).
  { assert (S : exists n, nav_step flat_geo (wit_par local zero publish) m3eye blind (EvTick 1) n0 = Done (n, []) /\ nv_good n = true /\
      nv_gps_updated n = nv_gps_updated n0 /\ nv_odom_updated n = nv_odom_updated n0 /\ nv_zone n = nv_zone n0 /\ nv_northp n = nv_northp n0 /\ nv_local n = nv_local n0).
    { cbn [nav_step]. unfold transformCallback, computeTransform. rewrite G0, HO, MA. cbn [negb andb]. rewrite G0, HO, HG, HI. cbn [negb andb].
      unfold cartesian_broadcast. cbn [p_broadcast wit_par nv_good set_transform p_odom_yaw negb andb]. eexists. split; [reflexivity|]. cbn. auto 10. }
    destruct S as (n & S & F1 & F2 & F3 & F4 & F5 & F6). exists n, [[]; []; []]. split.
    - apply execution_snoc. exists n0, [[]; []], []. auto.
    - rewrite F2, F3, F4, F5, F6. auto 10. }
  destruct E as (n & outs & E & G & GU & OU & Zn & Np & Lc). exists n, outs. do 7 (split; [assumption|]).
  destruct (automatic_datum _ _ _ _ _ _ _ _ _ _ _ E0 G0 E G eq_refl (no_request_first _ _ _))
    as (ef & f & eo & o & ex & ff & c & k & Lf & Lo & Lx & D & Kc & U & RA).
  assert (Ff : f = wit_fix 5000000000 lat lon alt).
  { destruct Lf as (a & b & Q & _). cbn in Q. destruct a as [|x [|y a]]; inversion Q; subst; [reflexivity|]. destruct a; discriminate. }
  assert (Fx : ff = wit_fix 5000000000 lat lon alt).
  { destruct Lx as (a & b & Q & _). cbn in Q. destruct a as [|x [|y a]]; inversion Q; subst; [reflexivity|]. destruct a; discriminate. }
  assert (Fo : o = wit_odom 5000000000 (v3 0 0 0)).
  { destruct Lo as (a & b & Q & _). cbn in Q. destruct a as [|x [|y a]]; inversion Q; subst; [reflexivity|]. destruct a; discriminate. }
  subst f ff o. cbn [fx_lat fx_lon fx_alt fx_frame wit_fix o_child o_position wit_odom] in *.
  assert (Ec : c = wit_cart local lat lon alt).
  { unfold datum_position in D. cbn [p_local wit_par] in D. destruct local.
    - rewrite D. reflexivity.
    - destruct D as (z & np & x & y & gm & Q & ->). cbn [flat_geo g_forward Z.eqb] in Q. inversion Q. reflexivity. }
  assert (Ek : k = 0).
  { unfold datum_convergence in Kc. cbn [p_local wit_par] in Kc. destruct local; [exact Kc|].
    destruct Kc as (z & np & x & y & gm & Q & ->). cbn [flat_geo g_forward Z.eqb] in Q. inversion Q. lra. }
  subst c k. split.
  - apply U. apply blind_none. discriminate.
  - intros v. destruct (RA 0 0 0 (wit_attitude _ _ _ _ _ _)) as (_ & V). cbn [p_declination p_yaw_offset wit_par] in V.
    rewrite (V 0 0 0 level_attitude). replace (0 - (0 + (0 + 0 + 0))) with 0 by ring. apply about_z_0.
Qed.
Lemma wit_move local lat lon alt n v : move (nv_cw n) (wit_cart local lat lon alt) = v3 0 0 0 ->
  (forall v, turn (t_basis (nv_cw n)) v = v) -> move (nv_cw n) v = minus3 v (wit_cart local lat lon alt).
Proof.
  intros A T. unfold move in *. rewrite T in *. set (c := wit_cart local lat lon alt) in *. clearbody c.
  generalize dependent (t_origin (nv_cw n)). intros o A.
  assert (E : o = minus3 (v3 0 0 0) c) by (rewrite <- A; revert o c A; clear; intros o c _; revert o c; tf_ring).
  rewrite E. clear. revert v c. tf_ring.
Qed.

