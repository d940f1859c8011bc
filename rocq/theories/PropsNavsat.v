(** * Properties of navsat_transform (C57, C63-C70, C76-C81) *)

From Coq Require Import Reals ZArith List Bool String Lia Lra Arith.
From Verif Require Import Scalar Mat FilterBase Tf StrMap RosFilter RosPrepare Navsat Conversions SpecFilter SpecLin SpecTf SpecPrepare SpecNavsat
  TfReal PrepareGoals PrepareWit NavsatProofs NavsatTrace NavsatLife NavsatReal NavsatDatum NavsatGoals NavsatSim NavsatGoals2
  NavsatWit NavsatWit2 NavsatMore NavsatWit3 ConversionsProofs.
Import ListNotations.
Local Open Scope list_scope.
Local Open Scope R_scope.

(** ** C57 (GPS odometry; for poses see PropsPrepare.v) *)
Theorem C57_gps_lookup : forall (g : geolib RScalar) p u junk evs n outs e e' now, execution g p u junk evs n outs -> nv_good n = true ->
  exact_clock e -> same_settings e e' ->
  (forall ef f, last_with usable_fix evs (ef, EvGps f) -> stamp_range (fx_stamp f) /\
     forall a b, e_buffer e' a b (fx_stamp f / 1000000000)%Z = e_buffer e a b (fx_stamp f / 1000000000)%Z) ->
  (forall a b, e_buffer e' a b 0%Z = e_buffer e a b 0%Z) ->
  nav_step g p junk e' (EvTick now) n = nav_step g p junk e (EvTick now) n.
Proof. exact gps_depends. Qed.
Print Assumptions C57_gps_lookup.
Theorem C57_gps_refuted : exists (g : geolib RScalar) p u junk evs e now n' outs o m f off,
  execution g p u junk (evs ++ [(e, EvTick now)]) n' (outs ++ [o]) /\ In (PubGps m) o /\ exact_clock e /\
  event_at evs 3 (EvGps f) /\ o_stamp m = fx_stamp f /\ e_buffer e "base_link"%string "gps"%string (fx_stamp f) = Some off /\
  X (t_origin off) = 1 /\ o_position m = v3 (-2) 0 0.
Proof. exact gps_wrong_time. Qed.
Print Assumptions C57_gps_refuted.

(** ** C63 *)
Theorem C63_automatic : forall (g : geolib RScalar) p u junk evs n0 outs0 e now n outs,
  execution g p u junk evs n0 outs0 -> nv_good n0 = false ->
  execution g p u junk (evs ++ [(e, EvTick now)]) n outs -> nv_good n = true ->
  p_manual p = false -> no_request evs ->
  exists ef f eo o ex ff c k,
    last_with usable_fix evs (ef, EvGps f) /\ last_with odometry evs (eo, EvOdom o) /\ last_with any_fix evs (ex, EvGps ff) /\
    datum_position g p (fx_lat f) (fx_lon f) (fx_alt f) c /\ datum_convergence g p (fx_lat f) (fx_lon f) k /\
    (asked e (o_child o) (fx_frame ff) 0 None -> move (nv_cw n) c = o_position o) /\
    forall r pt y, recorded_attitude p evs r pt y ->
      let total := y + (p_declination p + p_yaw_offset p + k) in
      (forall off, asked e (o_child o) (fx_frame ff) 0 (Some off) ->
         move (nv_cw n) (minus3 c (oriented r pt total (t_origin off))) = o_position o) /\
      (forall ro po yo, attitude (o_orientation o) ro po yo ->
         forall v, turn (t_basis (nv_cw n)) v = about_z (yo - total) v).
Proof. exact automatic_datum. Qed.
Print Assumptions C63_automatic.
Theorem C63_manual : forall (g : geolib RScalar) p u junk evs n0 outs0 e now n outs lat lon alt r pt y,
  execution g p u junk evs n0 outs0 -> nv_good n0 = false ->
  execution g p u junk (evs ++ [(e, EvTick now)]) n outs -> nv_good n = true ->
  given_datum p evs lat lon alt r pt y -> no_zone evs -> p_local p = true \/ g_forward g lat lon (-1)%Z <> None ->
  exists c k, datum_position g p lat lon alt c /\ datum_convergence g p lat lon k /\
    move (nv_cw n) c = v3 0 0 0 /\
    ((forall base, exists t, asked e base base 0 (Some t) /\ forall v, turn (t_basis t) v = v) ->
     forall v, turn (t_basis (nv_cw n)) v = about_z (- (y + (p_declination p + p_yaw_offset p + k))) v).
Proof. exact manual_datum. Qed.
Print Assumptions C63_manual.
Example C63_case : exists n0 outs0 n outs, execution flat_geo (wit_par false false true) wit_u m3eye (first_part 1 3 0) n0 outs0 /\ nv_good n0 = false /\
  execution flat_geo (wit_par false false true) wit_u m3eye (first_part 1 3 0 ++ [(blind, EvTick 1)]) n outs /\ nv_good n = true /\
  no_request (first_part 1 3 0) /\ recorded_attitude (wit_par false false true) (first_part 1 3 0) 0 0 0.
Proof.
  destruct (wit_first false false true 1 3 0) as (n0 & E0 & G0 & _). destruct (wit_started false false true 1 3 0) as (n & outs & E & G & _).
  exists n0, [[]; []], n, outs. split; [exact E0|]. split; [exact G0|]. split; [exact E|]. split; [exact G|].
  split; [apply no_request_first|apply wit_attitude].
Qed.
Example C63_manual_case : exists n0 outs0 n outs,
  execution flat_geo manual_par wit_u m3eye manual_part n0 outs0 /\ nv_good n0 = false /\ nv_manual n0 = true /\
  execution flat_geo manual_par wit_u m3eye (manual_part ++ [(blind, EvTick 1)]) n outs /\ nv_good n = true /\
  given_datum manual_par manual_part 1 3 0 0 0 1 /\ no_zone manual_part /\ g_forward flat_geo 1 3 (-1)%Z <> None.
Proof. exact manual_case. Qed.

(** ** C64 *)
Theorem C64_round_trip : forall (g : geolib RScalar) p junk n lat lon alt, reachable g p n -> nv_good n = true -> p_local p = false ->
  undone g lat lon (nv_zone n) (nv_northp n) ->
  exists v alt', from_ll g p junk n lat lon alt v /\ to_ll g p junk n v lat lon alt' /\ (p_zero_alt p = false -> alt' = alt).
Proof. exact round_trip. Qed.
Print Assumptions C64_round_trip.
(** In local-cartesian mode the answer is that of the UTM inverse at the local
    coordinates, in zone 0 (none) if no zone was ever requested. *)
Theorem C64_local : forall (g : geolib RScalar) p junk n lat lon alt x y, reachable g p n -> nv_good n = true -> p_local p = true ->
  g_local g (fst (nv_local n)) (snd (nv_local n)) lat lon alt = (x, y) ->
  exists v, from_ll g p junk n lat lon alt v /\
    (g_reverse g (nv_zone n) (nv_northp n) x y = None -> forall e, nav_step g p junk e (EvToLL v) n = Thrown) /\
    (forall lat' lon', g_reverse g (nv_zone n) (nv_northp n) x y = Some (lat', lon') -> exists alt', to_ll g p junk n v lat' lon' alt').
Proof. exact local_round_trip. Qed.
Print Assumptions C64_local.
Theorem C64_local_zone : forall (g : geolib RScalar) p u junk evs n outs, execution g p u junk evs n outs -> p_local p = true -> no_zone evs ->
  nv_zone n = 0%Z /\ nv_northp n = true.
Proof. exact local_zone. Qed.
Print Assumptions C64_local_zone.
Theorem C64_local_refuted : exists (g : geolib RScalar) p junk n, reachable g p n /\ nv_good n = true /\ p_local p = true /\ nv_local n = (1, 3) /\
  from_ll g p junk n 1 3 0 (v3 0 0 0) /\ to_ll g p junk n (v3 0 0 0) 0 (-188) 0.
Proof. exact local_not_back. Qed.
Print Assumptions C64_local_refuted.
Theorem C64_distance : forall (g : geolib RScalar) p junk n lat lon alt lat' lon' alt' z np x y gm z' np' x' y' gm', reachable g p n -> nv_good n = true ->
  p_local p = false -> p_zero_alt p = false ->
  g_forward g lat lon (nv_zone n) = Some (z, np, x, y, gm) -> g_forward g lat' lon' (nv_zone n) = Some (z', np', x', y', gm') ->
  exists v v', from_ll g p junk n lat lon alt v /\ from_ll g p junk n lat' lon' alt' v' /\
    distance3 v v' = distance3 (v3 x y alt) (v3 x' y' alt').
Proof. exact map_distance. Qed.
Print Assumptions C64_distance.
Theorem C64_hemisphere : forall (g : geolib RScalar) p junk n lat lon alt lat' lon' alt' z np x y gm z' np' x' y' gm' d, reachable g p n -> nv_good n = true ->
  p_local p = false -> p_zero_alt p = false ->
  g_forward g lat lon (nv_zone n) = Some (z, np, x, y, gm) -> g_forward g lat' lon' (nv_zone n) = Some (z', np', x', y', gm') ->
  0 <= d <= y - y' ->
  exists v v', from_ll g p junk n lat lon alt v /\ from_ll g p junk n lat' lon' alt' v' /\ d <= distance3 v v'.
Proof. exact hemisphere. Qed.
Print Assumptions C64_hemisphere.
Theorem C64_equator_refuted : exists (g : geolib RScalar) p junk n v, reachable g p n /\ nv_good n = true /\ p_local p = false /\ p_zero_alt p = false /\
  (forall lat, 0 <= lat -> undone g lat 3 (nv_zone n) (nv_northp n)) /\
  (exists w, from_ll g p junk n 0 3 0 w /\ 9999900 <= distance3 v w) /\
  from_ll g p junk n (-1 / 1000) 3 0 v /\ to_ll g p junk n v (99.999) 3 0.
Proof. exact equator_not_back. Qed.
Print Assumptions C64_equator_refuted.
Example C64_case : exists n, reachable flat_geo (wit_par false false true) n /\ nv_good n = true /\ undone flat_geo 2 4 (nv_zone n) (nv_northp n).
Proof.
  destruct (wit_started false false true 1 3 0) as (n & outs & E & G & _ & _ & ZN & NP & _). exists n.
  split; [eexists _, _, _, _; exact E|]. split; [exact G|]. rewrite ZN, NP, flat_zone_west, (flat_n 1), <- (flat_n 2) by lra. apply flat_undone. discriminate.
Qed.

(** ** C65 *)
Theorem C65_publication : forall (K : Scalar) (g : geolib K) p u junk evs e ev n' outs o m,
  execution g p u junk (evs ++ [(e, ev)]) n' (outs ++ [o]) -> In (PubGps m) o ->
  (exists now, ev = EvTick now) /\
  (exists n, execution g p u junk evs n outs /\ nv_good n = true) /\
  (exists j e' f, nth_error evs j = Some (e', EvGps f) /\ usable f /\ o_stamp m = fx_stamp f /\
     (forall i f', (j < i)%nat -> event_at evs i (EvGps f') -> ~ usable f') /\
     (forall i m', (j < i)%nat -> ~ output_at outs i (PubGps m'))) /\
  (exists j e' q, nth_error evs j = Some (e', EvOdom q) /\ o_frame m = o_frame q /\
     (forall i q', (j < i)%nat -> ~ event_at evs i (EvOdom q')) /\
     (p_publish p = true -> forall i m', (j < i)%nat -> ~ output_at outs i (PubGps m'))).
Proof. exact (@publication). Qed.
Print Assumptions C65_publication.
Theorem C65_unusable : forall (K : Scalar) (g : geolib K) p junk l l', same_usable l l' -> forall n, nav_run g p junk l n = nav_run g p junk l' n.
Proof. exact (@same_usable_run). Qed.
Print Assumptions C65_unusable.
(** With publish_filtered_gps off one odometry message serves two publications. *)
Theorem C65_odometry_refuted : exists (g : geolib RScalar) p u junk evs n outs,
  execution g p u junk evs n outs /\ (forall i q, event_at evs i (EvOdom q) -> i = 0%nat) /\
  (exists m, output_at outs 4 (PubGps m)) /\ (exists m, output_at outs 6 (PubGps m)).
Proof. exact stale_odometry. Qed.
Print Assumptions C65_odometry_refuted.
Example C65_case : exists n' outs o m f,
  execution flat_geo (wit_par false false true) wit_u m3eye (wit_events 1 3 0 2 3 0 ++ [(seeing (mount (Some (ahead 1)) (Some (ahead 2))), EvTick 2)])
    n' (outs ++ [o]) /\ In (PubGps m) o /\ In (PubFix f) o.
Proof. exact publish_case. Qed.

(** ** C66 *)
Theorem C66_antenna : forall (g : geolib RScalar) p u junk evs e ev n' outs o m,
  execution g p u junk (evs ++ [(e, ev)]) n' (outs ++ [o]) -> In (PubGps m) o ->
  exists n ef f ex ff eo q z np x y gm, execution g p u junk evs n outs /\ nv_good n = true /\
    last_with usable_fix evs (ef, EvGps f) /\ last_with any_fix evs (ex, EvGps ff) /\ last_with odometry evs (eo, EvOdom q) /\
    g_forward g (fx_lat f) (fx_lon f) (-1)%Z = Some (z, np, x, y, gm) /\ o_stamp m = fx_stamp f /\
    ((0 <= fx_stamp f)%Z ->
     (forall off robot, asked e (o_child q) (fx_frame ff) (fx_stamp f / 1000000000) (Some off) ->
        asked e (o_frame q) (o_child q) (fx_stamp f / 1000000000) (Some robot) -> rigid robot ->
        o_position m = plane (p_zero_alt p)
          (minus3 (plane (p_zero_alt p) (move (nv_cw n) (v3 x y (fx_alt f)))) (turn (t_basis robot) (t_origin off)))) /\
     (asked e (o_child q) (fx_frame ff) (fx_stamp f / 1000000000) None \/
      asked e (o_frame q) (o_child q) (fx_stamp f / 1000000000) None -> o_position m = v3 0 0 0)).
Proof. exact gps_position. Qed.
Print Assumptions C66_antenna.
Theorem C66_unknown_refuted : exists g p u junk evs e now n outs n' o m f z np x y gm,
  execution g p u junk evs n outs /\ execution g p u junk (evs ++ [(e, EvTick now)]) n' (outs ++ [o]) /\ In (PubGps m) o /\
  (exists ef, last_with usable_fix evs (ef, EvGps f)) /\ g_forward g (fx_lat f) (fx_lon f) (-1)%Z = Some (z, np, x, y, gm) /\
  move (nv_cw n) (v3 x y (fx_alt f)) = v3 0 100000 0 /\ o_position m = v3 0 0 0.
Proof. exact unknown_mount. Qed.
Print Assumptions C66_unknown_refuted.

(** ** C67 *)
Theorem C67_projections : forall (g : geolib RScalar) p u junk evs e ev n' outs o m,
  execution g p u junk (evs ++ [(e, ev)]) n' (outs ++ [o]) -> In (PubGps m) o -> p_zero_alt p = false ->
  exists n ef f ex ff eo q z np x y gm, execution g p u junk evs n outs /\ nv_good n = true /\
    last_with usable_fix evs (ef, EvGps f) /\ last_with any_fix evs (ex, EvGps ff) /\ last_with odometry evs (eo, EvOdom q) /\
    g_forward g (fx_lat f) (fx_lon f) (-1)%Z = Some (z, np, x, y, gm) /\
    ((0 <= fx_stamp f)%Z ->
     forall off robot, asked e (o_child q) (fx_frame ff) (fx_stamp f / 1000000000) (Some off) ->
        asked e (o_frame q) (o_child q) (fx_stamp f / 1000000000) (Some robot) -> rigid robot ->
        let antenna := plus3 (o_position m) (turn (t_basis robot) (t_origin off)) in
        (p_local p = false -> forall z' np' x' y' gm',
           g_forward g (fx_lat f) (fx_lon f) (nv_zone n) = Some (z', np', x', y', gm') ->
           exists a, from_ll g p junk n (fx_lat f) (fx_lon f) (fx_alt f) a /\
             distance3 antenna a = distance3 (v3 x y (fx_alt f)) (v3 x' y' (fx_alt f))) /\
        (p_local p = true -> forall x' y',
           g_local g (fst (nv_local n)) (snd (nv_local n)) (fx_lat f) (fx_lon f) (fx_alt f) = (x', y') ->
           exists a, from_ll g p junk n (fx_lat f) (fx_lon f) (fx_alt f) a /\
             distance3 antenna a = distance3 (v3 x y (fx_alt f)) (v3 x' y' (fx_alt f)))).
Proof. exact gps_vs_map. Qed.
Print Assumptions C67_projections.
Theorem C67_local_refuted : exists g p u junk evs e now n outs n' o m,
  execution g p u junk evs n outs /\ execution g p u junk (evs ++ [(e, EvTick now)]) n' (outs ++ [o]) /\ In (PubGps m) o /\
  p_local p = true /\ p_zero_alt p = false /\ (exists ef, last_with usable_fix evs (ef, EvGps (wit_fix 5000000000 1 3 0))) /\
  from_ll g p junk n 1 3 0 (v3 0 0 0) /\ o_position m = v3 500000 100000 0 /\
  asked e "base_link" "gps" 5 (Some (ahead 0)) /\ asked e "odom" "base_link" 5 (Some no_motion).
Proof. exact local_mixed. Qed.
Print Assumptions C67_local_refuted.
Theorem C67_zone_refuted : exists g p u junk evs e now n outs n' o m,
  execution g p u junk evs n outs /\ execution g p u junk (evs ++ [(e, EvTick now)]) n' (outs ++ [o]) /\ In (PubGps m) o /\
  p_local p = false /\ p_zero_alt p = false /\ (exists ef, last_with usable_fix evs (ef, EvGps (wit_fix 5000000000 1 6 0))) /\
  from_ll g p junk n 1 6 0 (v3 1000 0 0) /\ o_position m = v3 (-599000) 0 0 /\
  asked e "base_link" "gps" 5 (Some (ahead 0)) /\ asked e "odom" "base_link" 5 (Some no_motion).
Proof. exact zone_mixed. Qed.
Print Assumptions C67_zone_refuted.

(** ** C68 *)
Theorem C68_gps_flat : forall (K : Scalar) (g : geolib K) p u junk evs e ev n' outs o (w : odom_msg K),
  execution g p u junk (evs ++ [(e, ev)]) n' (outs ++ [o]) -> In (PubGps w) o -> p_zero_alt p = true -> v3z (o_position w) = s_ofZ 0.
Proof. exact (@gps_flat). Qed.
Print Assumptions C68_gps_flat.
Theorem C68_map_flat : forall (K : Scalar) (g : geolib K) p junk e lat lon alt n v,
  nav_step g p junk e (EvFromLL lat lon alt) n = Done (n, [AnsMap (Some v)]) -> p_zero_alt p = true -> v3z v = s_ofZ 0.
Proof. exact (@map_flat). Qed.
Print Assumptions C68_map_flat.
Theorem C68_filtered_altitude : forall (g : geolib RScalar) p u junk evs e ev n' outs o m,
  execution g p u junk (evs ++ [(e, ev)]) n' (outs ++ [o]) -> In (PubFix m) o ->
  exists n eo q, execution g p u junk evs n outs /\ nv_good n = true /\ last_with odometry evs (eo, EvOdom q) /\
    fx_stamp m = o_stamp q /\ fx_frame m = o_child q /\
    forall c w, move (nv_cw n) c = w -> fx_alt m = Z3 (o_position q) - Z3 w + Z3 c.
Proof. exact filtered_altitude. Qed.
Print Assumptions C68_filtered_altitude.
Theorem C68_filtered_refuted : exists (g : geolib RScalar) p u junk evs e now n' outs o m,
  execution g p u junk (evs ++ [(e, EvTick now)]) n' (outs ++ [o]) /\ In (PubFix m) o /\ p_zero_alt p = true /\ fx_alt m = 100.
Proof. exact filtered_not_flat. Qed.
Print Assumptions C68_filtered_refuted.

(** ** C69 *)
Theorem C69_unusable_before : forall (K : Scalar) (g : geolib K) p junk e ev n n' o, nav_step g p junk e ev n = Done (n', o) -> nv_good n = false ->
  forall x, In x o -> (exists t, x = PubTf t) \/ x = AnsLL None \/ x = AnsMap None.
Proof. exact (@not_good_outputs). Qed.
Print Assumptions C69_unusable_before.
Theorem C69_request : forall (K : Scalar) (g : geolib K) p junk e ev n n' o, nav_step g p junk e ev n = Done (n', o) -> is_request ev -> nv_good n' = false.
Proof. exact (@request_clears). Qed.
Print Assumptions C69_request.
Theorem C69_kept : forall (K : Scalar) (g : geolib K) p junk evs n n' l, nav_run g p junk evs n = Done (n', l) -> nv_good n = true -> no_request evs ->
  same_transform n n' /\ nv_good n' = true.
Proof. exact (@good_run). Qed.
Print Assumptions C69_kept.
Theorem C69_completes_auto : forall (K : Scalar) (g : geolib K) p u junk evs n outs e now n' outs', execution g p u junk evs n outs ->
  p_manual p = false -> no_request evs -> nv_good n = false ->
  execution g p u junk (evs ++ [(e, EvTick now)]) n' outs' ->
  (nv_good n' = true <-> some_event odometry evs /\ some_event usable_fix evs /\
   (if p_odom_yaw p then True else
    exists a ei i b eo o, evs = a ++ (ei, EvImu i) :: b /\ last_with odometry a (eo, EvOdom o) /\
      mounting_known ei (o_child o) (im_frame i) (im_stamp i))).
Proof. exact (@completes_known). Qed.
Print Assumptions C69_completes_auto.
Theorem C69_completes_manual : forall (K : Scalar) (g : geolib K) p u junk evs n outs e now n' outs', execution g p u junk evs n outs ->
  nv_manual n = true -> nv_good n = false -> execution g p u junk (evs ++ [(e, EvTick now)]) n' outs' ->
  some_event odometry evs ->
  p_local p = true \/ g_forward g (gp_lat (nv_datum n)) (gp_lon (nv_datum n)) (if nv_force_zone n then nv_zone n else (-1)%Z) <> None ->
  nv_good n' = true.
Proof. exact (@completes_manual). Qed.
Print Assumptions C69_completes_manual.
Example C69_case : exists n0 outs0 n outs o,
  execution flat_geo (imu_par true true) wit_u m3eye imu_part n0 outs0 /\ nv_good n0 = false /\ nv_manual n0 = false /\
  execution flat_geo (imu_par true true) wit_u m3eye (imu_part ++ [(blind, EvTick 1)]) n outs /\ nv_good n = true /\
  outs = outs0 ++ [o] /\ nav_step flat_geo (imu_par true true) m3eye blind (EvTick 1) n0 = Done (n, o).
Proof. exact (imu_started true true). Qed.

(** ** C70 *)
Theorem C70_meridian : forall lon, exists k, @central_meridian RScalar lon = (6 * k + 3)%Z /\
  Rabs (lon - IZR (@central_meridian RScalar lon)) <= 3.
Proof. exact meridian_near. Qed.
Print Assumptions C70_meridian.
Theorem C70_zone : forall lon, -180 < lon < 180 -> exists zone, (1 <= zone <= 60)%Z /\ @central_meridian RScalar lon = (6 * zone - 183)%Z.
Proof. exact meridian_zone. Qed.
Print Assumptions C70_zone.
(** At 180 degrees the meridian belongs to none of the sixty zones. *)
Theorem C70_antimeridian_refuted : @central_meridian RScalar 180 = 183%Z /\ @central_meridian RScalar (-180) = (-183)%Z.
Proof. exact meridian_180. Qed.
Print Assumptions C70_antimeridian_refuted.
Example C70_case : @central_meridian RScalar 8.4 = 9%Z /\ @central_meridian RScalar (-0.5) = (-3)%Z.
Proof. split; [apply (meridian_in 1)|apply (meridian_in (-1))]; cbn; lra. Qed.

(** ** C76 *)
Theorem C76_memory : forall (K : Scalar) (g : geolib K) p u u' junk junk' evs,
  outputs (nav_run g p junk' evs (nav_init p u')) = outputs (nav_run g p junk evs (nav_init p u)).
Proof. exact (@memory_independent). Qed.
Print Assumptions C76_memory.
Example C76_case : exists n outs o m, execution flat_geo (wit_par false false true) wit_u m3eye
    (wit_events 1 3 0 2 3 0 ++ [(seeing (mount (Some (ahead 1)) (Some (ahead 2))), EvTick 2)]) n (outs ++ [o]) /\ In (PubGps m) o.
Proof. destruct publish_case as (n & outs & o & m & f & E & I & _). eauto 6. Qed.

(** ** C77 *)
Theorem C77_exceptions : forall (K : Scalar) (g : geolib K) p junk e ev n, nav_step g p junk e ev n = Thrown <->
  match ev with
  | EvGps f => usable f /\ g_forward g (fx_lat f) (fx_lon f) (-1)%Z = None
  | EvZone z => g_mgrs g z = None
  | EvToLL v => nv_good n = true /\ place g n v = None
  | EvFromLL lat lon _ => p_local p = false /\ g_forward g lat lon (nv_zone n) = None
  | EvTick _ => nv_good n = true /\ p_publish p = true /\ nv_odom_updated n = true /\ place g n (t_origin (nv_odom_pose n)) = None
  | _ => False
  end.
Proof. exact (@throws). Qed.
Print Assumptions C77_exceptions.
(** A from_ll request ends a node that has no transform yet. *)
Example C77_case : nav_step (@mkGeo RScalar (fun _ _ _ => None) (fun _ _ _ _ => None) (fun _ _ _ _ _ => (0, 0)) (fun _ => None))
  (wit_par false false true) m3eye blind (EvFromLL (K := RScalar) 95 3 0) (nav_init (wit_par false false true) wit_u) = Thrown.
Proof. reflexivity. Qed.

(** ** C78 *)
Theorem C78_imu_forgotten : forall (K : Scalar) (g : geolib K) p u junk evs e now n0 outs0 n outs more,
  execution g p u junk evs n0 outs0 -> nv_good n0 = false -> execution g p u junk (evs ++ [(e, EvTick now)]) n outs -> nv_good n = true ->
  p_odom_yaw p = false -> nv_manual n0 = false ->
  summary (nav_run g p junk more n) = summary (nav_run g p junk (filter not_imu more) n).
Proof. exact (@imu_without). Qed.
Print Assumptions C78_imu_forgotten.
Example C78_case : exists n0 outs0 n outs,
  execution flat_geo (imu_par false false) wit_u m3eye imu_part n0 outs0 /\ nv_good n0 = false /\
  execution flat_geo (imu_par false false) wit_u m3eye (imu_part ++ [(blind, EvTick 1)]) n outs /\ nv_good n = true /\
  p_odom_yaw (imu_par false false) = false /\ nv_manual n0 = false /\ filter not_imu imu_later <> imu_later /\
  nav_run flat_geo (imu_par false false) m3eye imu_later n <> Thrown.
Proof. exact imu_case. Qed.

(** ** C79 *)
Theorem C79_gps_covariance : forall (g : geolib RScalar) p u junk evs e ev n' outs o m,
  execution g p u junk (evs ++ [(e, ev)]) n' (outs ++ [o]) -> In (PubGps m) o ->
  exists n ef f, execution g p u junk evs n outs /\ nv_good n = true /\ last_with usable_fix evs (ef, EvGps f) /\
    turned6 (t_basis (nv_cw n)) (padded (fx_cov f)) (as_matrix 6 (o_pose_cov m)) /\
    (psd 3 (as_matrix 3 (fx_cov f)) -> psd 6 (as_matrix 6 (o_pose_cov m))).
Proof. exact gps_covariance_turned. Qed.
Print Assumptions C79_gps_covariance.
Theorem C79_fix_covariance : forall (g : geolib RScalar) p u junk evs e ev n' outs o m,
  execution g p u junk (evs ++ [(e, ev)]) n' (outs ++ [o]) -> In (PubFix m) o ->
  exists n eo q D, execution g p u junk evs n outs /\ nv_good n = true /\ last_with odometry evs (eo, EvOdom q) /\
    turned6 (t_basis (nv_cwi n)) (as_matrix 6 (o_pose_cov q)) D /\
    (forall i j, (i < 3)%nat -> (j < 3)%nat -> as_matrix 3 (fx_cov m) i j = D i j) /\
    (psd 6 (as_matrix 6 (o_pose_cov q)) -> psd 6 D).
Proof. exact fix_covariance_turned. Qed.
Print Assumptions C79_fix_covariance.
(** Executions publishing both messages: C65_case. *)

(** ** C80 *)
Theorem C80_broadcast : forall (g : geolib RScalar) p u junk evs e now n' outs o s,
  execution g p u junk (evs ++ [(e, EvTick now)]) n' (outs ++ [o]) -> In (PubTf s) o ->
  p_broadcast p = true /\ nv_good n' = true /\ (exists n, execution g p u junk evs n outs /\ nv_good n = false) /\
  st_stamp s = now /\
  (let cart := (if p_local p then "local_enu" else "utm")%string in
   if p_as_parent p then st_frame s = cart /\ st_child s = nv_world_frame n' else st_frame s = nv_world_frame n' /\ st_child s = cart) /\
  unit_quat (st_rotation s) /\
  forall v, let w := plus3 (spin (st_rotation s) v) (st_translation s) in
    let w' := if p_as_parent p then move (nv_cwi n') v else move (nv_cw n') v in
    X w = X w' /\ Y w = Y w' /\ (if p_zero_alt p then Z3 w = Z3 v else Z3 w = Z3 w').
Proof. exact broadcast_tf. Qed.
Print Assumptions C80_broadcast.
Theorem C80_completion : forall (g : geolib RScalar) p junk e now n n' o, nav_step g p junk e (EvTick now) n = Done (n', o) ->
  nv_good n = false -> nv_good n' = true -> p_broadcast p = true -> exists s, In (PubTf s) o.
Proof. exact completed_broadcast. Qed.
Print Assumptions C80_completion.
Example C80_case : exists n outs o s,
  execution flat_geo (imu_par true true) wit_u m3eye (imu_part ++ [(blind, EvTick 1)]) n (outs ++ [o]) /\ In (PubTf s) o.
Proof. exact broadcast_case. Qed.

(** ** C81 *)
Theorem C81_symmetric : forall k lat d, -3 < d < 3 ->
  fst (utm lat (IZR (6 * k + 3) + d)) - 500000 = - (fst (utm lat (IZR (6 * k + 3) - d)) - 500000) /\
  snd (utm lat (IZR (6 * k + 3) + d)) = snd (utm lat (IZR (6 * k + 3) - d)).
Proof. exact utm_symmetric. Qed.
Print Assumptions C81_symmetric.
Theorem C81_meridian : forall k lat, fst (utm lat (IZR (6 * k + 3))) = 500000.
Proof. exact utm_meridian. Qed.
Print Assumptions C81_meridian.
Theorem C81_equator : forall lon, snd (utm 0 lon) = 10000000.
Proof. exact utm_equator. Qed.
Print Assumptions C81_equator.
