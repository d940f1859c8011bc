(** * Publications in concrete executions (C57, C63-C69) *)

From Coq Require Import Reals ZArith List Bool String Lia Lra Arith.
From Verif Require Import Scalar Mat FilterBase Tf StrMap RosFilter RosPrepare Navsat SpecFilter SpecLin SpecTf SpecPrepare SpecNavsat
  RBridge Angles Trig TfReal TfRot TfQuat PrepareProofs PrepareReal PrepareFacts PrepareThm PrepareGoals PrepareWit
  NavsatProofs NavsatTrace NavsatLife NavsatReal NavsatDatum NavsatGoals NavsatSim NavsatGoals2 NavsatWit.
Import ListNotations.
Local Open Scope list_scope.
Local Open Scope R_scope.
Local Ltac zlra := try change (6 * 31 - 183)%Z with 3%Z; try change (6 * 32 - 183)%Z with 9%Z; try change (6 * 0 - 183)%Z with (-183)%Z;
  change (sc RScalar) with R in *; lra.
Local Ltac veq := apply v3_eq; unfold X, Y, Z3, v3; cbn [v3x v3y v3z]; zlra.
Lemma from_ll_eq g p junk n lat lon alt v w : from_ll g p junk n lat lon alt v -> v = w -> from_ll g p junk n lat lon alt w.
Proof. intros H <-. exact H. Qed.
Lemma to_ll_eq g p junk n v lat lon alt lat' lon' alt' : to_ll g p junk n v lat lon alt -> lat = lat' -> lon = lon' -> alt = alt' ->
  to_ll g p junk n v lat' lon' alt'.
Proof. intros H <- <- <-. exact H. Qed.

(** ** A second fix and a publication *)
Definition wit_events (lat lon alt lat' lon' alt' : R) : @trace RScalar :=
  wit_start lat lon alt ++ [(blind, EvGps (wit_fix 5000000000 lat' lon' alt'))].
Lemma wit_published local zero publish lat lon alt lat' lon' alt' e :
  exists n outs n' o m, execution flat_geo (wit_par local zero publish) wit_u m3eye (wit_events lat lon alt lat' lon' alt') n outs /\
    nv_good n = true /\ nv_zone n = (if local then 0%Z else flat_zone lon) /\ nv_northp n = (if local then true else flat_north lat) /\
    (local = true -> nv_local n = (lat, lon)) /\
    (forall v, move (nv_cw n) v = minus3 v (wit_cart local lat lon alt)) /\
    execution flat_geo (wit_par local zero publish) wit_u m3eye (wit_events lat lon alt lat' lon' alt' ++ [(e, EvTick 2)]) n' (outs ++ [o]) /\
    In (PubGps m) o /\ (publish = true -> exists f, In (PubFix f) o) /\
    nv_good n' = true /\ (publish = false -> nv_odom_updated n' = true).
Proof.
  destruct (wit_started local zero publish lat lon alt) as (n0 & outs0 & E0 & G & GU & OU & ZN & NP & LC & MC & TC).
  set (p := wit_par local zero publish) in *. set (f := wit_fix 5000000000 lat' lon' alt').
  assert (S1 : exists n, nav_step flat_geo p m3eye blind (EvGps f) n0 = Done (n, []) /\ nv_good n = true /\ nv_zone n = nv_zone n0 /\
    nv_northp n = nv_northp n0 /\ nv_local n = nv_local n0 /\ nv_cw n = nv_cw n0 /\ nv_gps_updated n = true /\ nv_odom_updated n = true).
  { cbn [nav_step]. unfold gpsFixCallback. cbn [good_gps f wit_fix fx_status Z.eqb negb andb s_isnan RScalar nv_good set_gps_frame].
    change (good_gps f) with true. cbn iota. rewrite G. cbn [negb andb flat_geo g_forward]. eexists. split; [reflexivity|]. cbn. auto 10. }
  destruct S1 as (n & S1 & G1 & ZN1 & NP1 & LC1 & CW1 & GU1 & OU1).
  assert (E1 : execution flat_geo p wit_u m3eye (wit_events lat lon alt lat' lon' alt') n (outs0 ++ [[]])).
  { apply execution_snoc. exists n0, outs0, []. auto. }
  assert (S2 : exists n' o m, nav_step flat_geo p m3eye e (EvTick 2) n = Done (n', o) /\ In (PubGps m) o /\ (publish = true -> exists f, In (PubFix f) o) /\
    nv_good n' = true /\ (publish = false -> nv_odom_updated n' = true)).
  { cbn [nav_step]. unfold transformCallback. rewrite G1.
    destruct (prepareGps_cases e p n) as [(_ & _ & _ & c & m & Q)|(B & _)].
    - rewrite Q. change (p_publish p) with publish. destruct publish.
      + unfold prepareFilteredGps. cbn [nv_good nv_odom_updated set_published]. rewrite G1, OU1. cbn [andb].
        unfold mapToLL. cbn [flat_geo g_reverse]. eexists _, _, m. split; [reflexivity|].
        split; [left; reflexivity|]. split; [intros _; eexists; right; left; reflexivity|]. split; [exact G1|]. discriminate.
      + eexists _, _, m. split; [reflexivity|]. split; [left; reflexivity|]. split; [discriminate|]. split; [exact G1|]. intros _. exact OU1.
    - rewrite G1, GU1, OU1 in B. discriminate. }
  destruct S2 as (n' & o & m & S2 & I & IF & GG & OO).
  exists n, (outs0 ++ [[]]), n', o, m. split; [exact E1|]. split; [exact G1|]. rewrite ZN1, NP1, LC1, CW1.
  split; [exact ZN|]. split; [exact NP|]. split; [exact LC|].
  split. { intros v. eapply wit_move; eauto. }
  split. { apply execution_snoc. exists n, (outs0 ++ [[]]), o. auto. }
  auto.
Qed.
Lemma wit_fixes lat lon alt lat' lon' alt' ef f : last_with usable_fix (wit_events lat lon alt lat' lon' alt') (ef, EvGps f) ->
  f = wit_fix 5000000000 lat' lon' alt'.
Proof. intros L. unfold wit_events in L. apply last_snoc in L as [(_ & Q)|(NU & _)]; [inversion Q; reflexivity|]. exfalso. apply NU. eexists; split; [reflexivity|apply wit_usable]. Qed.
Lemma wit_any lat lon alt lat' lon' alt' ef f : last_with any_fix (wit_events lat lon alt lat' lon' alt') (ef, EvGps f) ->
  f = wit_fix 5000000000 lat' lon' alt'.
Proof. intros L. unfold wit_events in L. apply last_snoc in L as [(_ & Q)|(NU & _)]; [inversion Q; reflexivity|]. exfalso. apply NU. eexists; reflexivity. Qed.
Lemma wit_odoms lat lon alt lat' lon' alt' ef q : last_with odometry (wit_events lat lon alt lat' lon' alt') (ef, EvOdom q) ->
  q = wit_odom 5000000000 (v3 0 0 0).
Proof.
  intros L. apply last_In in L as (I & _). cbn in I.
  destruct I as [I|[I|[I|[I|[]]]]]; inversion I; reflexivity.
Qed.
(** What is published. *)
Lemma wit_position local zero publish lat lon alt lat' lon' alt' e :
  exists n outs n' o m, execution flat_geo (wit_par local zero publish) wit_u m3eye (wit_events lat lon alt lat' lon' alt') n outs /\
    nv_good n = true /\ nv_zone n = (if local then 0%Z else flat_zone lon) /\ nv_northp n = (if local then true else flat_north lat) /\
    (local = true -> nv_local n = (lat, lon)) /\
    (forall v, move (nv_cw n) v = minus3 v (wit_cart local lat lon alt)) /\
    execution flat_geo (wit_par local zero publish) wit_u m3eye (wit_events lat lon alt lat' lon' alt' ++ [(e, EvTick 2)]) n' (outs ++ [o]) /\
    In (PubGps m) o /\
    let antenna := plane zero (minus3 (v3 (flat_x lon' (flat_zone lon')) (flat_y lat' (flat_north lat')) alt') (wit_cart local lat lon alt)) in
    (forall off robot, asked e "base_link" "gps" 5 (Some off) -> asked e "odom" "base_link" 5 (Some robot) -> rigid robot ->
       o_position m = plane zero (minus3 antenna (turn (t_basis robot) (t_origin off)))) /\
    (asked e "base_link" "gps" 5 None -> o_position m = v3 0 0 0).
Proof.
  destruct (wit_published local zero publish lat lon alt lat' lon' alt' e) as (n & outs & n' & o & m & E & G & ZN & NP & LC & MV & E' & I & _).
  exists n, outs, n', o, m. do 8 (split; [assumption|]). cbn zeta.
  destruct (gps_position _ _ _ _ _ _ _ _ _ _ _ E' I) as (n1 & ef & f & ex & ff & eo & q & z & np & x & y & gm & A & _ & Lf & Lx & Lo & F & _ & P).
  unfold execution in A, E. rewrite E in A. inversion A; subst n1. clear A.
  apply wit_fixes in Lf. apply wit_any in Lx. apply wit_odoms in Lo. subst f ff q.
  cbn [fx_lat fx_lon fx_alt fx_frame fx_stamp wit_fix o_child o_frame wit_odom] in *.
  change (5000000000 / 1000000000)%Z with 5%Z in P. destruct (P ltac:(lia)) as (P1 & P2). 
  cbn [flat_geo g_forward Z.eqb] in F. inversion F; subst. split.
  - intros off robot L1 L2 R. rewrite (P1 _ _ L1 L2 R). cbn [p_zero_alt wit_par]. rewrite MV. reflexivity.
  - intros L. apply P2. left. exact L.
Qed.

(** ** Cases *)
Definition mount (at_stamp at_5 : option T4) : tf_buffer RScalar := fun a b t =>
  if String.eqb a "odom" then Some no_motion
  else if Z.eqb t 5000000000 then at_stamp else if Z.eqb t 5 then at_5 else None.
Definition ahead (x : R) : T4 := mkTrans m3eye (v3 x 0 0).
Lemma mount_clock a b : exact_clock (seeing (mount a b)).
Proof. apply plain_clock. Qed.
Lemma mount_5 a t : asked (seeing (mount a (Some t))) "base_link" "gps" 5 (Some t).
Proof.
  unfold asked. rewrite (proj1 (mount_clock a (Some t) 5%Z ltac:(unfold stamp_range; lia))). apply at_time. reflexivity.
Qed.
Lemma mount_5_none a : asked (seeing (mount a None)) "base_link" "gps" 5 None.
Proof.
  unfold asked. rewrite (proj1 (mount_clock a None 5%Z ltac:(unfold stamp_range; lia))). apply unavailable; [reflexivity|reflexivity|discriminate].
Qed.
Lemma mount_robot a b : asked (seeing (mount a b)) "odom" "base_link" 5 (Some no_motion).
Proof.
  unfold asked. rewrite (proj1 (mount_clock a b 5%Z ltac:(unfold stamp_range; lia))). apply at_time. reflexivity.
Qed.

(** C57: the antenna is 1 m ahead at the stamp of the fix; the position is
    corrected by the 2 m known for 5 ns. *)
Lemma gps_wrong_time : exists (g : geolib RScalar) p u junk evs e now n' outs o m f off,
  execution g p u junk (evs ++ [(e, EvTick now)]) n' (outs ++ [o]) /\ In (PubGps m) o /\ exact_clock e /\
  event_at evs 3 (EvGps f) /\ o_stamp m = fx_stamp f /\ e_buffer e "base_link" "gps" (fx_stamp f) = Some off /\
  X (t_origin off) = 1 /\ o_position m = v3 (-2) 0 0.
Proof.
  set (e := seeing (mount (Some (ahead 1)) (Some (ahead 2)))).
  destruct (wit_position false false false 1 3 0 1 3 0 e) as (n & outs & n' & o & m & E & G & ZN & NP & LC & MV & E' & I & P & _).
  destruct (gps_position _ _ _ _ _ _ _ _ _ _ _ E' I) as (n1 & ef & f & ex & ff & eo & q & z & np & x & y & gm & A & _ & Lf & _ & _ & _ & ST & _).
  apply wit_fixes in Lf. subst f.
  exists flat_geo, (wit_par false false false), wit_u, m3eye, (wit_events 1 3 0 1 3 0), e, 2%Z, n', outs, o, m, (wit_fix 5000000000 1 3 0), (ahead 1).
  split; [exact E'|]. split; [exact I|]. split; [apply mount_clock|]. split; [eexists; reflexivity|]. split; [exact ST|].
  split; [reflexivity|]. split; [reflexivity|].
  rewrite (P _ _ (mount_5 _ _) (mount_robot _ _) no_motion_rigid), no_motion_turn.
  unfold plane, wit_cart, ahead, minus3, v3, X, Y, Z3. cbn [v3x v3y v3z t_origin]. veq.
Qed.
(** C66: the mounting is unknown and the antenna 100 km from the origin. *)
Lemma unknown_mount : exists g p u junk evs e now n outs n' o m f z np x y gm,
  execution g p u junk evs n outs /\ execution g p u junk (evs ++ [(e, EvTick now)]) n' (outs ++ [o]) /\ In (PubGps m) o /\
  (exists ef, last_with usable_fix evs (ef, EvGps f)) /\ g_forward g (fx_lat f) (fx_lon f) (-1) = Some (z, np, x, y, gm) /\
  move (nv_cw n) (v3 x y (fx_alt f)) = v3 0 100000 0 /\ o_position m = v3 0 0 0.
Proof.
  set (e := seeing (mount None None)).
  destruct (wit_position false false false 1 3 0 2 3 0 e) as (n & outs & n' & o & m & E & G & ZN & NP & LC & MV & E' & I & _ & P).
  exists flat_geo, (wit_par false false false), wit_u, m3eye, (wit_events 1 3 0 2 3 0), e, 2%Z, n, outs, n', o, m, (wit_fix 5000000000 2 3 0).
  eexists _, _, _, _, _.
  split; [exact E|]. split; [exact E'|]. split; [exact I|]. split.
  { exists blind. apply last_snoc. left. split; [|reflexivity]. eexists; split; [reflexivity|apply wit_usable]. }
  split; [unfold flat_geo; cbn [g_forward]; reflexivity|]. split; [|apply P, mount_5_none].
  rewrite MV. change (Z.eqb (-1) (-1)) with true. cbn iota. unfold wit_cart, flat_x, flat_y, minus3, wit_fix, v3, X, Y, Z3. cbn [v3x v3y v3z fx_lat fx_lon fx_alt].
  rewrite !flat_n by lra. veq.
Qed.
(** C67: local coordinates; the fix that gave the datum is published 500 km away. *)
Lemma local_mixed : exists g p u junk evs e now n outs n' o m,
  execution g p u junk evs n outs /\ execution g p u junk (evs ++ [(e, EvTick now)]) n' (outs ++ [o]) /\ In (PubGps m) o /\
  p_local p = true /\ p_zero_alt p = false /\ (exists ef, last_with usable_fix evs (ef, EvGps (wit_fix 5000000000 1 3 0))) /\
  from_ll g p junk n 1 3 0 (v3 0 0 0) /\ o_position m = v3 500000 100000 0 /\
  asked e "base_link" "gps" 5 (Some (ahead 0)) /\ asked e "odom" "base_link" 5 (Some no_motion).
Proof.
  set (e := seeing (mount None (Some (ahead 0)))).
  destruct (wit_position true false false 1 3 0 1 3 0 e) as (n & outs & n' & o & m & E & G & ZN & NP & LC & MV & E' & I & P & _).
  exists flat_geo, (wit_par true false false), wit_u, m3eye, (wit_events 1 3 0 1 3 0), e, 2%Z, n, outs, n', o, m.
  split; [exact E|]. split; [exact E'|]. split; [exact I|]. split; [reflexivity|]. split; [reflexivity|]. split.
  { exists blind. apply last_snoc. left. split; [|reflexivity]. eexists; split; [reflexivity|apply wit_usable]. }
  split.
  { eapply from_ll_eq; [exact (from_local flat_geo (wit_par true false false) m3eye n 1 3 0 G eq_refl)|].
    cbn [p_zero_alt wit_par plane]. rewrite MV, (LC eq_refl). cbn [flat_geo g_local fst snd]. unfold wit_cart, minus3, v3, X, Y, Z3. cbn [v3x v3y v3z]. veq. }
  split; [|split; [apply mount_5|apply mount_robot]].
  rewrite (P _ _ (mount_5 _ _) (mount_robot _ _) no_motion_rigid), no_motion_turn.
  unfold plane, wit_cart, flat_x, flat_y, ahead, minus3, v3, X, Y, Z3. cbn [v3x v3y v3z t_origin].
  rewrite !flat_n, !flat_zone_west by lra. veq.
Qed.
(** C67: UTM; a fix 1 km across the zone boundary is published 600 km away. *)
Lemma zone_mixed : exists g p u junk evs e now n outs n' o m,
  execution g p u junk evs n outs /\ execution g p u junk (evs ++ [(e, EvTick now)]) n' (outs ++ [o]) /\ In (PubGps m) o /\
  p_local p = false /\ p_zero_alt p = false /\ (exists ef, last_with usable_fix evs (ef, EvGps (wit_fix 5000000000 1 6 0))) /\
  from_ll g p junk n 1 6 0 (v3 1000 0 0) /\ o_position m = v3 (-599000) 0 0 /\
  asked e "base_link" "gps" 5 (Some (ahead 0)) /\ asked e "odom" "base_link" 5 (Some no_motion).
Proof.
  set (e := seeing (mount None (Some (ahead 0)))). set (l := 5.99).
  destruct (wit_position false false false 1 l 0 1 6 0 e) as (n & outs & n' & o & m & E & G & ZN & NP & LC & MV & E' & I & P & _).
  rewrite flat_zone_west in ZN by (unfold l; lra).
  exists flat_geo, (wit_par false false false), wit_u, m3eye, (wit_events 1 l 0 1 6 0), e, 2%Z, n, outs, n', o, m.
  split; [exact E|]. split; [exact E'|]. split; [exact I|]. split; [reflexivity|]. split; [reflexivity|]. split.
  { exists blind. apply last_snoc. left. split; [|reflexivity]. eexists; split; [reflexivity|apply wit_usable]. }
  split.
  { assert (F : g_forward flat_geo 1 6 (nv_zone n) = Some (31%Z, flat_north 1, flat_x 6 31, flat_y 1 (flat_north 1), 0)) by (rewrite ZN; reflexivity).
    eapply from_ll_eq; [exact (from_utm flat_geo (wit_par false false false) m3eye n 1 6 0 _ _ _ _ _ G eq_refl F)|].
    cbn [p_zero_alt wit_par plane]. rewrite MV. unfold wit_cart, flat_x, flat_y, minus3, v3, X, Y, Z3. cbn [v3x v3y v3z].
    rewrite !flat_n, flat_zone_west by (unfold l; lra). unfold l. veq. }
  split; [|split; [apply mount_5|apply mount_robot]].
  rewrite (P _ _ (mount_5 _ _) (mount_robot _ _) no_motion_rigid), no_motion_turn.
  unfold plane, wit_cart, flat_x, flat_y, ahead, minus3, v3, X, Y, Z3. cbn [v3x v3y v3z t_origin].
  rewrite !flat_n, (flat_zone_west l), (flat_zone_east 6) by (unfold l; lra). unfold l. veq.
Qed.
(** C68: zero_altitude, and a filtered fix at 100 m. *)
Lemma filtered_not_flat : exists (g : geolib RScalar) p u junk evs e now n' outs o m,
  execution g p u junk (evs ++ [(e, EvTick now)]) n' (outs ++ [o]) /\ In (PubFix m) o /\ p_zero_alt p = true /\ fx_alt m = 100.
Proof.
  destruct (wit_published false true true 1 3 100 1 3 100 blind) as (n & outs & n' & o & m & E & G & ZN & NP & LC & MV & E' & I & IF & _).
  destruct (IF eq_refl) as (f & If).
  exists flat_geo, (wit_par false true true), wit_u, m3eye, (wit_events 1 3 100 1 3 100), blind, 2%Z, n', outs, o, f.
  split; [exact E'|]. split; [exact If|]. split; [reflexivity|].
  destruct (filtered_altitude _ _ _ _ _ _ _ _ _ _ _ E' If) as (n1 & eo & q & A & _ & Lo & _ & _ & AL).
  unfold execution in A, E. rewrite E in A. inversion A; subst n1. apply wit_odoms in Lo. subst q.
  rewrite (AL (wit_cart false 1 3 100) _ (MV _)). unfold wit_cart, minus3, v3, Z3. cbn. ring.
Qed.
(** C65: with publish_filtered_gps off, two publications after one odometry message. *)
Lemma stale_odometry : exists (g : geolib RScalar) p u junk evs n outs,
  execution g p u junk evs n outs /\ (forall i q, event_at evs i (EvOdom q) -> i = 0%nat) /\
  (exists m, output_at outs 4 (PubGps m)) /\ (exists m, output_at outs 6 (PubGps m)).
Proof.
  destruct (wit_published false false false 1 3 0 1 3 0 blind) as (n0 & outs0 & n1 & o1 & m1 & E & _ & _ & _ & _ & _ & E' & I & _ & G & OU).
  specialize (OU eq_refl). pose proof (execution_length _ _ _ _ _ _ _ E) as L. cbn in L.
  set (p := wit_par false false false) in *. set (f := wit_fix 6000000000 1 3 0).
  assert (S1 : exists n, nav_step flat_geo p m3eye blind (EvGps f) n1 = Done (n, []) /\ nv_good n = true /\ nv_gps_updated n = true /\ nv_odom_updated n = true).
  { cbn [nav_step]. unfold gpsFixCallback. change (good_gps f) with true. cbn iota. cbn [nv_good set_gps_frame]. rewrite G.
    cbn [negb andb flat_geo g_forward]. eexists. split; [reflexivity|]. cbn. auto. }
  destruct S1 as (n2 & S1 & G2 & GU2 & OU2).
  destruct (prepareGps_cases blind p n2) as [(_ & _ & _ & c & m & Q)|(B & _)]; [|rewrite G2, GU2, OU2 in B; discriminate].
  assert (S2 : nav_step flat_geo p m3eye blind (EvTick 3) n2 = Done (set_published c n2, [PubGps m])).
  { cbn [nav_step]. unfold transformCallback. rewrite G2, Q. reflexivity. }
  exists flat_geo, p, wit_u, m3eye, (((wit_events 1 3 0 1 3 0 ++ [(blind, EvTick 2)]) ++ [(blind, EvGps f)]) ++ [(blind, EvTick 3)]),
    (set_published c n2), (((outs0 ++ [o1]) ++ [[]]) ++ [[PubGps m]]).
  split.
  { apply execution_snoc. exists n2, ((outs0 ++ [o1]) ++ [[]]), [PubGps m]. split; [|auto].
    apply execution_snoc. exists n1, (outs0 ++ [o1]), []. auto. }
  split.
  { intros i q (e & H). destruct i as [|[|[|[|[|[|[|i]]]]]]]; try reflexivity; try discriminate H. destruct i; discriminate H. }
  do 4 (destruct outs0 as [|? outs0]; [discriminate L|]). destruct outs0; [|discriminate L].
  split; [exists m1|exists m]; eexists; (split; [reflexivity|]); [exact I|left; reflexivity].
Qed.
(** C64: local coordinates of the datum are answered by a place on the other
    side of the earth. *)
Lemma local_not_back : exists (g : geolib RScalar) p junk n, reachable g p n /\ nv_good n = true /\ p_local p = true /\ nv_local n = (1, 3) /\
  from_ll g p junk n 1 3 0 (v3 0 0 0) /\ to_ll g p junk n (v3 0 0 0) 0 (-188) 0.
Proof.
  destruct (wit_published true false false 1 3 0 1 3 0 blind) as (n & outs & n' & o & m & E & G & ZN & NP & LC & MV & _).
  assert (R : reachable flat_geo (wit_par true false false) n) by (eexists _, _, _, _; exact E).
  exists flat_geo, (wit_par true false false), m3eye, n. split; [exact R|]. split; [exact G|].
  split; [reflexivity|]. split; [apply LC; reflexivity|].
  assert (V : plane (p_zero_alt (wit_par true false false)) (move (nv_cw n) (v3 0 0 0)) = v3 0 0 0).
  { cbn [p_zero_alt wit_par plane]. rewrite MV. unfold wit_cart, minus3, v3, X, Y, Z3. cbn [v3x v3y v3z]. veq. }
  split.
  - eapply from_ll_eq; [exact (from_local _ (wit_par true false false) m3eye n 1 3 0 G eq_refl)|].
    rewrite (LC eq_refl). cbn [flat_geo g_local fst snd]. etransitivity; [|exact V]. do 2 f_equal. veq.
  - destruct (to_back flat_geo (wit_par true false false) m3eye n 0 0 0 R G) as (alt' & A & T).
    eapply to_ll_eq; [intros e; rewrite <- V, T, (A eq_refl), ZN, NP; cbn [flat_geo g_reverse]; reflexivity| | |]; zlra.
Qed.
(** C64: across the equator. *)
Lemma equator_not_back : exists (g : geolib RScalar) p junk n v, reachable g p n /\ nv_good n = true /\ p_local p = false /\ p_zero_alt p = false /\
  (forall lat, 0 <= lat -> undone g lat 3 (nv_zone n) (nv_northp n)) /\
  (exists w, from_ll g p junk n 0 3 0 w /\ 9999900 <= distance3 v w) /\
  from_ll g p junk n (-1 / 1000) 3 0 v /\ to_ll g p junk n v (99.999) 3 0.
Proof.
  destruct (wit_published false false false 1 3 0 1 3 0 blind) as (n & outs & n' & o & m & E & G & ZN & NP & LC & MV & _).
  assert (R : reachable flat_geo (wit_par false false false) n) by (eexists _, _, _, _; exact E).
  rewrite flat_zone_west in ZN by lra. rewrite flat_n in NP by lra.
  assert (F : g_forward flat_geo (-1 / 1000) 3 (nv_zone n) = Some (31%Z, false, flat_x 3 31, flat_y (-1 / 1000) false, 0)).
  { rewrite ZN. cbn [flat_geo g_forward Z.eqb]. rewrite flat_s by lra. reflexivity. }
  assert (F0 : g_forward flat_geo 0 3 (nv_zone n) = Some (31%Z, true, flat_x 3 31, flat_y 0 true, 0)).
  { rewrite ZN. cbn [flat_geo g_forward Z.eqb]. rewrite flat_n by lra. reflexivity. }
  set (p := wit_par false false false) in *.
  exists flat_geo, p, m3eye, n. eexists. split; [exact R|]. split; [exact G|]. split; [reflexivity|]. split; [reflexivity|].
  split. { intros lat H. rewrite NP, <- (flat_n lat H), ZN. apply flat_undone. discriminate. }
  split; [|split].
  - eexists. split; [eapply from_utm; [exact G|reflexivity|exact F0]|].
    change (p_zero_alt p) with false. unfold plane.
    rewrite distance_move with (a := v3 (flat_x 3 31) (flat_y (-1 / 1000) false) 0) by (apply upright_rigid, (good_upright flat_geo p n R G)).
    apply distance_y; [|lra]. unfold Y, v3, flat_y. cbn [v3y]. lra.
  - eapply (from_utm flat_geo p m3eye n (-1 / 1000) 3 0); [exact G|reflexivity|exact F].
  - destruct (to_back flat_geo p m3eye n (flat_x 3 31) (flat_y (-1 / 1000) false) 0 R G) as (alt' & A & T).
    eapply to_ll_eq; [intros e; rewrite T, (A eq_refl), ZN, NP; cbn [flat_geo g_reverse]; reflexivity| | |];
      unfold flat_x, flat_y; zlra.
Qed.
