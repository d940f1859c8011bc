(** * The datum and the map (C63, C64, C66, C67) *)

From Coq Require Import Reals ZArith List Bool String Lia Lra Arith.
From Verif Require Import Scalar Mat FilterBase Tf StrMap RosFilter RosPrepare Navsat SpecFilter SpecLin SpecTf SpecPrepare SpecNavsat
  RBridge Angles Trig TfReal TfRot TfQuat PrepareProofs PrepareReal PrepareThm PrepareGoals NavsatProofs NavsatTrace NavsatLife NavsatReal NavsatDatum.
Import ListNotations.
Local Open Scope list_scope.
Local Open Scope R_scope.

Implicit Types (g : geolib RScalar) (p : nav_params RScalar) (n : nav RScalar) (e : penv RScalar).

(** ** The recorded orientation *)
Lemma oriented_period r pt y k v : oriented r pt (y + IZR k * (2 * PI)) v = oriented r pt y v.
Proof. unfold oriented. apply about_z_period. Qed.
Lemma attitude_period q r pt y k : attitude q r pt (y + IZR k * (2 * PI)) -> attitude q r pt y.
Proof. intros (U & P & S). split; [exact U|]. split; [exact P|]. intros v. rewrite S. apply oriented_period. Qed.

Lemma reading_attitude e base frame stamp q r pt y :
  robot_attitude e base frame stamp q r pt y -> attitude (reading e base stamp frame q) r pt y.
Proof.
  intros [r0 pt0 y0 L A|t ro po yo ri pi yi dr dp L T P A W1 W2 B]; unfold reading; rewrite (lookup_asked _ _ _ _ _ L); [exact A|].
  assert (M : t_basis t = @m3_setRPY RScalar ro po yo) by (apply turn_inj; intros v; now rewrite T, setRPY_oriented).
  rewrite quatToRPY_rotation by (rewrite M; apply setRPY_rotation). rewrite M.
  destruct (getRPY_setRPY ro po yo P) as (ro' & yo' & -> & (_ & kr & Er) & (Wy & ky & Ey)).
  change (@quatToRPY RScalar q) with (@Navsat.rpy_of RScalar q).
  destruct (attitude_rpy _ _ _ _ A) as (ri' & yi' & -> & (_ & lr & Fr) & (_ & ly & Fy)).
  assert (R1 : @normalize_angle RScalar (ri' - ro') = dr).
  { apply (wrapped_unique (ri - ro)); [|exact W1].
    destruct (normalize_angle_spec (ri' - ro')) as (Wn & k & En). split; [exact Wn|]. exists (lr - kr + k)%Z. rewrite En, Fr, Er, plus_IZR, minus_IZR. ring. }
  assert (R2 : @normalize_angle RScalar (pi - po) = dp).
  { apply (wrapped_unique (pi - po)); [apply normalize_angle_spec|exact W2]. }
  destruct (normalize_angle_spec (yi' - yo')) as (Wn & k & En).
  change (@s_sub RScalar ri' ro') with (ri' - ro'). change (@s_sub RScalar pi po) with (pi - po). change (@s_sub RScalar yi' yo') with (yi' - yo').
  rewrite R1, R2, m3mv_turn.
  replace (@mkV3 RScalar dr dp (@normalize_angle RScalar (yi' - yo'))) with (v3 dr dp (@normalize_angle RScalar (yi' - yo'))) by reflexivity.
  change (@s_ofZ RScalar 0) with 0. rewrite (vertical_setRPY yo').
  unfold about_z, X, Y, Z3, v3. cbn [v3x v3y v3z].
  rewrite Ey, sin_period_Z, cos_period_Z.
  apply (attitude_period _ _ _ _ (ly - ky + k)%Z).
  replace (yi - yo + IZR (ly - ky + k) * (2 * PI)) with (@normalize_angle RScalar (yi' - (yo + IZR ky * (2 * PI)))).
  - apply attitude_setRPY. exact B.
  - rewrite <- Ey, En, Fy, Ey, plus_IZR, minus_IZR. change (sc RScalar) with R; ring.
Qed.

Lemma recorded_orientation g p u junk evs n outs r pt y : execution g p u junk evs n outs -> p_manual p = false ->
  no_request evs -> nv_good n = false -> recorded_attitude p evs r pt y -> attitude (nv_orientation n) r pt y.
Proof.
  unfold recorded_attitude. intros H M N G A. destruct (p_odom_yaw p) eqn:PY.
  - destruct A as (e & o & L & A). destruct (odom_yaw_recorded _ _ _ _ _ _ _ H M PY N G) as (_ & Q).
    rewrite (Q _ _ L). now apply reading_attitude.
  - destruct A as (a & e & m & b & eo & o & -> & NB & L & A). destruct (imu_recorded _ _ _ _ _ _ _ H M PY N G) as (_ & _ & Q).
    rewrite (Q a e m b o); [now apply reading_attitude| |exact NB]. split; [reflexivity|]. exists eo. exact L.
Qed.

(** ** C63: the datum *)
Lemma any_dec (ev : nav_event RScalar) : any_fix ev \/ ~ any_fix ev.
Proof. destruct ev; try (right; intros (x & Q); discriminate). left. eexists; reflexivity. Qed.

Lemma lit180 : @lit RScalar 180 0 = 180.
Proof. rewrite lit_R. cbn. lra. Qed.

Theorem automatic_datum g p u junk evs n0 outs0 e now n outs :
  execution g p u junk evs n0 outs0 -> nv_good n0 = false ->
  execution g p u junk (evs ++ [(e, EvTick now)]) n outs -> nv_good n = true ->
  p_manual p = false -> no_request evs ->
  exists ef f eo o ex ff c k,
    last_with usable_fix evs (ef, EvGps f) /\ last_with odometry evs (eo, EvOdom o) /\ last_with any_fix evs (ex, EvGps ff) /\
    datum_position g p (fx_lat f) (fx_lon f) (fx_alt f) c /\ datum_convergence g p (fx_lat f) (fx_lon f) k /\
    (asked e (o_child o) (fx_frame ff) 0 None -> move (nv_cw n) c = o_position o) /\
    forall r pt y, recorded_attitude p evs r pt y ->
      let total := y + (p_declination p + p_yaw_offset p + k) in
      (forall off, asked e (o_child o) (fx_frame ff) 0 (Some off) ->
         move (nv_cw n) (minus3 c (oriented r pt total (t_origin off))) = o_position o) /\
      (forall ro po yo, attitude (o_orientation o) ro po yo ->
         forall v, turn (t_basis (nv_cw n)) v = about_z (yo - total) v).
Proof.
  intros H0 G0 H G M N. pose proof (execution_recorded _ _ _ _ _ _ _ H0 M N) as R.
  apply execution_snoc in H as (n1 & outs1 & oo & A & S & _). unfold execution in A, H0. rewrite H0 in A. inversion A; subst n1 outs1. clear A.
  destruct (becomes_good _ _ _ _ _ _ _ _ S G0 G) as (now' & m & _ & Em & HO & HG & HI & MM & CW & CWI).
  rewrite (rec_manual _ _ _ _ R) in Em. subst m.
  destruct (last_exists odometry odometry_dec evs (proj1 (rec_odom _ _ _ _ R) HO)) as ((eo, x1) & Lo).
  destruct (last_In _ _ _ Lo) as (_ & (o & Q)). cbn in Q. subst x1.
  pose proof (proj1 (rec_gps _ _ _ _ R) HG) as SF.
  destruct (last_exists usable_fix usable_dec evs SF) as ((ef, x2) & Lf).
  destruct (last_In _ _ _ Lf) as (_ & (f & Q & Uf)). cbn in Q. subst x2.
  destruct (last_exists any_fix any_dec evs) as ((ex, x3) & Lx).
  { destruct SF as (x & I & (mm & Q & _)). exists x. split; [exact I|]. exists mm. exact Q. }
  destruct (last_In _ _ _ Lx) as (_ & (ff & Q)). cbn in Q. subst x3.
  pose proof (rec_datum _ _ _ _ R G0 _ _ Lf) as D.
  pose proof (rec_world _ _ _ _ R G0 _ _ Lo) as W.
  destruct (rec_frames _ _ _ _ R _ _ Lo) as (FW & FB). pose proof (rec_frame _ _ _ _ R _ _ Lx) as FG.
  exists ef, f, eo, o, ex, ff, (t_origin (nv_cart n0)), (nv_convergence n0).
  split; [exact Lf|]. split; [exact Lo|]. split; [exact Lx|].
  split.
  { unfold datum_position. unfold datum_recorded in D. destruct (p_local p); [apply D|].
    destruct D as (x & y & gm & Q & C & _). exists (nv_zone n0), (nv_northp n0), x, y, gm. auto. }
  split.
  { unfold datum_convergence. unfold datum_recorded in D. destruct (p_local p); [apply D|].
    destruct D as (x & y & gm & Q & _ & C). exists (nv_zone n0), (nv_northp n0), x, y, gm. split; [exact Q|]. rewrite C.
    change (@s_mul RScalar gm (@s_div RScalar s_pi (lit 180 0))) with (gm * (PI / @lit RScalar 180 0)). rewrite lit180. unfold Rdiv. ring. }
  assert (OW : t_origin (nv_world n0) = o_position o) by (rewrite W; reflexivity).
  rewrite CW. split.
  - intros L. rewrite <- OW, <- (world_transform_datum e p n0). f_equal. rewrite corrected_unknown; [reflexivity|].
    right. rewrite FB, FG. exact L.
  - intros r pt y RA. cbn zeta. pose proof (recorded_orientation _ _ _ _ _ _ _ _ _ _ H0 M N G0 RA) as AT. split.
    + intros off L. rewrite <- OW, <- (world_transform_datum e p n0). f_equal.
      rewrite <- FB, <- FG in L.
      destruct (corrected_known e p n0 off (rec_manual _ _ _ _ R) L) as (q & U & -> & SP). rewrite (SP _ _ _ AT). reflexivity.
    + intros ro po yo AO v. rewrite (world_transform_vertical e p n0 v).
      pose proof (attitude_yaw _ _ _ _ AT) as (_ & k1 & E1).
      assert (WY : wrapped yo (yaw_of (m3_getRotation (t_basis (nv_world n0))))).
      { eapply (yaw_getRotation _ (o_orientation o)); [|exact AO]. rewrite W. reflexivity. }
      destruct WY as (_ & k2 & E2). rewrite E1, E2. unfold total_offset.
      rewrite <- (about_z_period (yo - (y + (p_declination p + p_yaw_offset p + nv_convergence n0))) (k2 - k1)%Z).
      f_equal. rewrite minus_IZR. ring.
Qed.

(** ** Frames of any execution *)
Lemma execution_frames g p u junk evs n outs : execution g p u junk evs n outs ->
  forall e o, last_with odometry evs (e, EvOdom o) -> nv_world_frame n = o_frame o /\ nv_base_frame n = o_child o.
Proof.
  revert n outs; induction evs as [|(e, ev) evs IH] using rev_ind; intros n' l H ex ox L.
  - exfalso. eapply last_nil; eauto.
  - apply execution_snoc in H as (n & outs & o & A & S & ->).
    destruct (step_odom _ _ _ _ _ _ _ _ S) as [(m & -> & _ & _ & _ & _ & _ & W & B)|(NO & -> & -> & _)];
      apply last_snoc in L as [(L & E)|(L & E)]; cbn [snd] in *.
    + inversion E; subst. auto.
    + exfalso. apply L. exists m. reflexivity.
    + contradiction.
    + eapply IH; eauto.
Qed.
Lemma step_gps_frame g p junk e ev n n' o : nav_step g p junk e ev n = Done (n', o) ->
  (exists m, ev = EvGps m /\ nv_gps_frame n' = fx_frame m) \/ (~ any_fix ev /\ nv_gps_frame n' = nv_gps_frame n).
Proof.
  destruct ev; cbn [nav_step]; intros H.
  - left. exists m. split; [reflexivity|]. unfold gpsFixCallback in H. destruct (good_gps m).
    + assert (X : forall b : bool, nv_gps_frame (if b
         then setTransformGps g p (fx_lat m) (fx_lon m) (fx_alt m) (set_gps_frame (fx_frame m) n) else set_gps_frame (fx_frame m) n) = fx_frame m).
      { intros b. destruct b; [|reflexivity].
        destruct (setGps_cases g p (fx_lat m) (fx_lon m) (fx_alt m) (set_gps_frame (fx_frame m) n)) as [->|(v & l & z & np & c & ->)]; reflexivity. }
      destruct (g_forward g (fx_lat m) (fx_lon m) (-1)) as [[[[[z np] x] y] gm]|]; [|discriminate].
      inversion H; subst. apply X.
    + inversion H; subst. reflexivity.
  - right. split; [intros (x & Q); discriminate|]. inversion H; subst. destruct (nv_imu_sub n); [|reflexivity].
    destruct (navImu_keeps e (im_stamp m) (im_frame m) (im_orientation m) n) as (q & h & -> & _). reflexivity.
  - right. split; [intros (x & Q); discriminate|]. inversion H; subst. unfold odomCallback. destruct (nv_good _); [reflexivity|].
    destruct (setOdom_shape e p (o_stamp m) (o_child m) (o_position m) (o_orientation m) (set_frames (o_frame m) (o_child m) n)) as (q & h & -> & _).
    reflexivity.
  - right. split; [intros (x & Q); discriminate|]. destruct (tick_cases _ _ _ _ _ _ _ H) as [(_ & _ & m & C & D)|(G2 & D)].
    + pose proof (compute_keeps e g p now n) as T. rewrite C in T. cbn in T.
      destruct D as [->|(-> & _)]; apply T.
    + cbn zeta in D. destruct (prepareGps_cases e p n) as [(_ & _ & OU & c & m & Q)|(_ & Q)]; rewrite Q in D; cbn [fst snd app] in D;
      destruct D as [(_ & _ & ->)|[(_ & OF & _ & ->)|(_ & _ & m' & c' & _ & ->)]]; reflexivity.
  - right. split; [intros (x & Q); discriminate|]. inversion H; subst. reflexivity.
  - right. split; [intros (x & Q); discriminate|]. unfold setUTMZoneCallback in H.
    destruct (g_mgrs g zone) as [(z, np)|]; inversion H; subst. reflexivity.
  - right. split; [intros (x & Q); discriminate|]. destruct (toLLCallback _ _ _); inversion H; subst. reflexivity.
  - right. split; [intros (x & Q); discriminate|]. destruct (fromLLCallback _ _ _ _ _ _ _); inversion H; subst. reflexivity.
Qed.
Lemma execution_gps_frame g p u junk evs n outs : execution g p u junk evs n outs ->
  forall e f, last_with any_fix evs (e, EvGps f) -> nv_gps_frame n = fx_frame f.
Proof.
  revert n outs; induction evs as [|(e, ev) evs IH] using rev_ind; intros n' l H ex ox L.
  - exfalso. eapply last_nil; eauto.
  - apply execution_snoc in H as (n & outs & o & A & S & ->).
    destruct (step_gps_frame _ _ _ _ _ _ _ _ S) as [(m & -> & F)|(NO & ->)];
      apply last_snoc in L as [(L & E)|(L & E)]; cbn [snd] in *.
    + inversion E; subst. auto.
    + exfalso. apply L. exists m. reflexivity.
    + contradiction.
    + eapply IH; eauto.
Qed.

(** ** C63: a datum given by hand *)
Lemma not_forced g p u junk evs n outs : execution g p u junk evs n outs -> no_zone evs -> nv_force_zone n = false.
Proof.
  revert n outs; induction evs as [|(e, ev) evs IH] using rev_ind; intros n' l H N.
  - apply execution_nil in H as (-> & _). reflexivity.
  - apply execution_snoc in H as (n & outs & o & A & S & ->).
    assert (N' : no_zone evs) by (intros x z Hx; apply N; apply in_or_app; auto).
    pose proof (IH _ _ A N') as F.
    assert (D : ~ is_request ev \/ (exists d, ev = EvDatum d) \/ exists z, ev = EvZone z).
    { destruct ev; cbn; eauto. }
    destruct D as [D|[(d & ->)|(z & ->)]].
    + destruct (datum_kept _ _ _ _ _ _ _ _ S D) as (_ & _ & ->). exact F.
    + cbn in S. inversion S; subst. exact F.
    + exfalso. apply (N (e, EvZone z) z); [apply in_or_app; right; left; reflexivity|reflexivity].
Qed.
Lemma given_state g p u junk evs n outs lat lon alt r pt y : execution g p u junk evs n outs ->
  given_datum p evs lat lon alt r pt y ->
  nv_manual n = true /\ gp_lat (nv_datum n) = lat /\ gp_lon (nv_datum n) = lon /\ gp_alt (nv_datum n) = alt /\
  attitude (gp_orientation (nv_datum n)) r pt y.
Proof.
  intros H [a e d b r0 pt0 y0 -> N A|lat0 lon0 yaw N M D].
  - destruct (datum_given _ _ _ _ _ _ _ _ _ _ H N) as (-> & ->). auto.
  - destruct (datum_configured _ _ _ _ _ _ _ H N M) as (-> & -> & _). unfold configured_datum. rewrite D. cbn.
    repeat (split; [reflexivity|]). apply attitude_setRPY. pose proof PI_RGT_0. lra.
Qed.
Lemma yaw_identity : forall m : M3, m = m3_of_quat (@quat_identity RScalar) -> wrapped 0 (yaw_of (m3_getRotation m)).
Proof.
  intros m E. eapply (yaw_getRotation m (@quat_identity RScalar) 0 0 0 E). split.
  - unfold unit_quat, quat_identity. cbn [qx qy qz qw s_ofZ RScalar]. ring.
  - split; [pose proof PI_RGT_0; lra|]. intros v. rewrite oriented_yaw, about_z_0.
    rewrite <- of_quat_spin; [rewrite of_identity; apply turn_eye|]. unfold unit_quat, quat_identity. cbn [qx qy qz qw s_ofZ RScalar]. ring.
Qed.

Theorem manual_datum g p u junk evs n0 outs0 e now n outs lat lon alt r pt y :
  execution g p u junk evs n0 outs0 -> nv_good n0 = false ->
  execution g p u junk (evs ++ [(e, EvTick now)]) n outs -> nv_good n = true ->
  given_datum p evs lat lon alt r pt y -> no_zone evs -> p_local p = true \/ g_forward g lat lon (-1) <> None ->
  exists c k, datum_position g p lat lon alt c /\ datum_convergence g p lat lon k /\
    move (nv_cw n) c = v3 0 0 0 /\
    ((forall base, exists t, asked e base base 0 (Some t) /\ forall v, turn (t_basis t) v = v) ->
     forall v, turn (t_basis (nv_cw n)) v = about_z (- (y + (p_declination p + p_yaw_offset p + k))) v).
Proof.
  intros H0 G0 H G D NZ PR. pose proof (not_forced _ _ _ _ _ _ _ H0 NZ) as NF.
  destruct (given_state _ _ _ _ _ _ _ _ _ _ _ _ _ H0 D) as (MM & Dlat & Dlon & Dalt & DA).
  apply execution_snoc in H as (n1 & outs1 & oo & A & S & _). unfold execution in A, H0. rewrite H0 in A. inversion A; subst n1 outs1. clear A.
  destruct (becomes_good _ _ _ _ _ _ _ _ S G0 G) as (now' & m & _ & Em & HO & HG & HI & M' & CW & CWI).
  rewrite MM in Em, M'. destruct (manual_cart e g p n0) as (MC & MK). rewrite <- Em in MC, MK.
  pose proof (manual_orientation e g p n0) as MO. rewrite <- Em in MO.
  pose proof (manual_keeps e g p n0) as MS. cbn in MS. rewrite <- Em in MS. destruct MS as (_ & _ & _ & _ & _ & _ & _ & _ & _ & _ & _ & _ & MW & _).
  rewrite Dlat, Dlon, Dalt in MC, MK.
  exists (t_origin (nv_cart m)), (nv_convergence m).
  assert (C : datum_position g p lat lon alt (t_origin (nv_cart m)) /\ datum_convergence g p lat lon (nv_convergence m)).
  { rewrite MC, MK. unfold setTransformGps, datum_position, datum_convergence. destruct (p_local p).
    - destruct (g_local g lat lon lat lon alt) as (cx, cy). cbn. auto.
    - rewrite NF. destruct (g_forward g lat lon (-1)) as [[[[[z np] cx] cy] gm]|]; [|destruct PR as [PR|PR]; [discriminate|congruence]].
      cbn. split; exists z, np, cx, cy, gm; [auto|]. split; [reflexivity|].
      change (gm * (PI / @lit RScalar 180 0) = gm * PI / 180). rewrite lit180. unfold Rdiv. ring. }
  destruct C as (C1 & C2). split; [exact C1|]. split; [exact C2|]. rewrite CW. split.
  - transitivity (t_origin (nv_world m)); [|rewrite MW; reflexivity].
    rewrite <- (world_transform_datum e p m). f_equal. rewrite corrected_unknown; [reflexivity|]. left. exact M'.
  - intros SELF v. rewrite (world_transform_vertical e p m v).
    destruct (SELF (nv_base_frame n0)) as (t & L & T).
    assert (RA : exists r' pt', robot_attitude e (nv_base_frame n0) (nv_base_frame n0) 0 (gp_orientation (nv_datum n0)) r' pt' (y - 0)).
    { assert (BP : - (PI / 2) < pt < PI / 2) by apply DA. set (dr := @normalize_angle RScalar (r - 0)).
      exists (cos 0 * dr - sin 0 * pt), (sin 0 * dr + cos 0 * pt).
      apply (ra_mounted _ _ _ _ _ t 0 0 0 r pt y dr pt); try assumption.
      - intros w. rewrite T, oriented_yaw, about_z_0. reflexivity.
      - lra.
      - apply normalize_angle_spec.
      - rewrite Rminus_0_r. apply wrapped_id. lra.
      - rewrite sin_0, cos_0. lra. }
    destruct RA as (r' & pt' & RA). apply reading_attitude in RA. rewrite <- MO in RA.
    pose proof (attitude_yaw _ _ _ _ RA) as (_ & k1 & E1).
    destruct (yaw_identity (t_basis (nv_world m))) as (_ & k2 & E2); [rewrite MW; reflexivity|].
    rewrite E1, E2. unfold total_offset.
    rewrite <- (about_z_period (- (y + _)) (k2 - k1)%Z). f_equal. rewrite minus_IZR. ring.
Qed.

(** ** Good states *)
Definition upright (t : T4) : Prop := exists a, vertical (t_basis t) a.
Lemma good_upright g p n : reachable g p n -> nv_good n = true -> upright (nv_cw n) /\ nv_cwi n = t_inverse (nv_cw n).
Proof.
  intros (u & junk & evs & outs & H) G.
  eapply (transform_invariant g p u junk evs n outs upright); [|exact H|exact G].
  intros e m. eexists. apply world_transform_vertical.
Qed.
Lemma upright_rigid t : upright t -> rigid t.
Proof. intros (a & H). eapply vertical_rotation; eauto. Qed.
Lemma map_position p n (pose : T4) : @cartesianToMap RScalar p n pose = plane (p_zero_alt p) (move (nv_cw n) (t_origin pose)).
Proof.
  unfold cartesianToMap, with_rotation, zero_z, plane. cbn [t_origin].
  change (t_origin (t_mult (nv_cw n) pose)) with (t_apply (nv_cw n) (t_origin pose)). rewrite t_apply_move. reflexivity.
Qed.
Lemma back_position n point :
  t_origin (t_mult (nv_cwi n) (@t_of RScalar quat_identity point)) = move (nv_cwi n) point.
Proof. change (t_apply (nv_cwi n) point = move (nv_cwi n) point). apply t_apply_move. Qed.

(** Flattening does not change the horizontal position. *)
Lemma upright_plane t zero v : upright t -> X (move (t_inverse t) (plane zero v)) = X (move (t_inverse t) v) /\
  Y (move (t_inverse t) (plane zero v)) = Y (move (t_inverse t) v).
Proof.
  intros (a & H). apply vertical_T in H. rewrite !move_inverse_eq, !H. unfold plane. destruct zero; [|auto].
  unfold about_z, minus3, v3, X, Y, Z3. cbn [v3x v3y v3z]. auto.
Qed.

(** ** C64: there and back *)
Lemma from_utm g p junk n lat lon alt z np x y gm : nv_good n = true -> p_local p = false ->
  g_forward g lat lon (nv_zone n) = Some (z, np, x, y, gm) ->
  from_ll g p junk n lat lon alt (plane (p_zero_alt p) (move (nv_cw n) (v3 x y alt))).
Proof.
  intros G L F e. cbn [nav_step]. unfold fromLLCallback. rewrite L, F, G, map_position. reflexivity.
Qed.
Lemma from_local g p junk n lat lon alt : nv_good n = true -> p_local p = true ->
  from_ll g p junk n lat lon alt (plane (p_zero_alt p) (move (nv_cw n)
    (v3 (fst (g_local g (fst (nv_local n)) (snd (nv_local n)) lat lon alt)) (snd (g_local g (fst (nv_local n)) (snd (nv_local n)) lat lon alt)) alt))).
Proof.
  intros G L e. cbn [nav_step]. unfold fromLLCallback. rewrite L. destruct (g_local _ _ _ _ _ _) as (x, y). rewrite G, map_position. reflexivity.
Qed.
(** What the way back makes of the image of (x, y, alt). *)
Lemma to_back g p junk n x y alt : reachable g p n -> nv_good n = true ->
  exists alt', (p_zero_alt p = false -> alt' = alt) /\
    forall e, nav_step g p junk e (EvToLL (plane (p_zero_alt p) (move (nv_cw n) (v3 x y alt)))) n =
    match g_reverse g (nv_zone n) (nv_northp n) x y with
    | Some (lat, lon) => Done (n, [AnsLL (K := RScalar) (Some (lat, lon, alt'))])
    | None => Thrown
    end.
Proof.
  intros R G. destruct (good_upright _ _ _ R G) as (U & I).
  exists (Z3 (move (nv_cwi n) (plane (p_zero_alt p) (move (nv_cw n) (v3 x y alt))))). split.
  - intros Z. rewrite Z. unfold plane. rewrite I, move_inverse_l by now apply upright_rigid. reflexivity.
  - intros e. cbn [nav_step]. unfold toLLCallback, mapToLL. rewrite G, back_position.
    destruct (upright_plane (nv_cw n) (p_zero_alt p) (move (nv_cw n) (v3 x y alt)) U) as (EX & EY).
    rewrite move_inverse_l in EX, EY by now apply upright_rigid.
    change (v3x (move (nv_cwi n) ?v)) with (X (move (nv_cwi n) v)). change (v3y (move (nv_cwi n) ?v)) with (Y (move (nv_cwi n) v)).
    change (v3z (move (nv_cwi n) ?v)) with (Z3 (move (nv_cwi n) v)). rewrite I, EX, EY.
    cbn [X Y v3 v3x v3y]. destruct (g_reverse g (nv_zone n) (nv_northp n) x y) as [(a, b)|]; reflexivity.
Qed.
Theorem round_trip g p junk n lat lon alt : reachable g p n -> nv_good n = true -> p_local p = false ->
  undone g lat lon (nv_zone n) (nv_northp n) ->
  exists v alt', from_ll g p junk n lat lon alt v /\ to_ll g p junk n v lat lon alt' /\ (p_zero_alt p = false -> alt' = alt).
Proof.
  intros R G L (x & y & gm & F & B). destruct (to_back g p junk n x y alt R G) as (alt' & A & T).
  eexists _, alt'. split; [eapply from_utm; eauto|]. split; [|exact A]. intros e. rewrite T, B. reflexivity.
Qed.
(** In local cartesian mode the way back is still the UTM projection. *)
Theorem local_round_trip g p junk n lat lon alt x y : reachable g p n -> nv_good n = true -> p_local p = true ->
  g_local g (fst (nv_local n)) (snd (nv_local n)) lat lon alt = (x, y) ->
  exists v, from_ll g p junk n lat lon alt v /\
    (g_reverse g (nv_zone n) (nv_northp n) x y = None -> forall e, nav_step g p junk e (EvToLL v) n = Thrown) /\
    (forall lat' lon', g_reverse g (nv_zone n) (nv_northp n) x y = Some (lat', lon') -> exists alt', to_ll g p junk n v lat' lon' alt').
Proof.
  intros R G L F. destruct (to_back g p junk n x y alt R G) as (alt' & A & T).
  eexists. split; [eapply from_local; eauto|]. rewrite F. cbn [fst snd]. split.
  - intros B e. rewrite T, B. reflexivity.
  - intros lat' lon' B. exists alt'. intros e. rewrite T, B. reflexivity.
Qed.
Lemma local_zone g p u junk evs n outs : execution g p u junk evs n outs -> p_local p = true -> no_zone evs ->
  nv_zone n = 0%Z /\ nv_northp n = true.
Proof.
  intros H L. revert n outs H; induction evs as [|(e, ev) evs IH] using rev_ind; intros n' l H N.
  - apply execution_nil in H as (-> & _). auto.
  - apply execution_snoc in H as (n & outs & o & A & S & ->).
    assert (N' : no_zone evs) by (intros x z Hx; apply N; apply in_or_app; auto).
    destruct (IH _ _ A N') as (Z & P). rewrite <- Z, <- P. clear IH A.
    assert (SG : forall lat lon alt n, nv_zone (setTransformGps g p lat lon alt n) = nv_zone n /\ nv_northp (setTransformGps g p lat lon alt n) = nv_northp n).
    { intros. unfold setTransformGps. rewrite L. destruct (g_local _ _ _ _ _ _). auto. }
    destruct ev as [m|m|m|now|d|z|v|lat lon alt]; cbn [nav_step] in S.
    + unfold gpsFixCallback in S. destruct (good_gps m).
      * assert (X : forall b : bool, let m0 := (if b
         then setTransformGps g p (fx_lat m) (fx_lon m) (fx_alt m) (set_gps_frame (fx_frame m) n) else set_gps_frame (fx_frame m) n) in
          nv_zone m0 = nv_zone n /\ nv_northp m0 = nv_northp n).
        { intros b. cbn zeta. destruct b; [|auto]. apply (SG _ _ _ (set_gps_frame (fx_frame m) n)). }
        destruct (g_forward g (fx_lat m) (fx_lon m) (-1)) as [[[[[z np] x] y] gm]|]; [|discriminate].
        inversion S; subst. apply X.
      * inversion S; subst. auto.
    + inversion S; subst. destruct (nv_imu_sub n); [|auto].
      destruct (navImu_keeps e (im_stamp m) (im_frame m) (im_orientation m) n) as (q & h & -> & _). auto.
    + inversion S; subst. unfold odomCallback. destruct (nv_good _); [auto|].
      destruct (setOdom_shape e p (o_stamp m) (o_child m) (o_position m) (o_orientation m) (set_frames (o_frame m) (o_child m) n)) as (q & h & -> & _). auto.
    + destruct (tick_cases _ _ _ _ _ _ _ S) as [(_ & _ & m & C & D)|(G2 & D)].
      * assert (E : nv_zone m = nv_zone n /\ nv_northp m = nv_northp n).
        { unfold computeTransform in C.
          assert (X : let m0 := (if (negb (nv_good n) && nv_has_odom n && nv_manual n)%bool then setManualDatum e g p n else n) in
            nv_zone m0 = nv_zone n /\ nv_northp m0 = nv_northp n).
          { cbn zeta. clear C D. destruct (negb (nv_good n) && nv_has_odom n && nv_manual n)%bool; [|auto]. unfold setManualDatum. cbn zeta.
            match goal with |- context [navImuCallback ?e ?s ?f ?q ?m] => destruct (navImu_keeps e s f q m) as (q' & h & -> & _) end.
            match goal with |- context [setTransformOdometry ?e ?p ?s ?c ?v ?q ?m] => destruct (setOdom_shape e p s c v q m) as (q2 & h2 & -> & _) end.
            apply (SG _ _ _ n). }
          cbn zeta in X. match type of X with nv_zone ?t = _ /\ _ => set (m0 := t) in *; clearbody m0 end.
          destruct (negb (nv_good m0) && nv_has_odom m0 && nv_has_gps m0 && nv_has_imu m0)%bool; inversion C; subst; exact X. }
        destruct D as [->|(-> & _)]; exact E.
      * cbn zeta in D. destruct (prepareGps_cases e p n) as [(_ & _ & OU & c & m & Q)|(_ & Q)]; rewrite Q in D; cbn [fst snd app] in D;
        destruct D as [(_ & _ & ->)|[(_ & OF & _ & ->)|(_ & _ & m' & c' & _ & ->)]]; auto.
    + inversion S; subst. auto.
    + exfalso. apply (N (e, EvZone z) z); [apply in_or_app; right; left; reflexivity|reflexivity].
    + destruct (toLLCallback _ _ _); inversion S; subst. auto.
    + destruct (fromLLCallback _ _ _ _ _ _ _); inversion S; subst. auto.
Qed.

(** Distances. *)
Lemma distance_turn (m : M3) a b : rotation m -> distance3 (turn m a) (turn m b) = distance3 a b.
Proof.
  intros R. unfold distance3. f_equal.
  assert (E : forall w, X (turn m w) * X (turn m w) + Y (turn m w) * Y (turn m w) + Z3 (turn m w) * Z3 (turn m w) =
    X w * X w + Y w * Y w + Z3 w * Z3 w).
  { intros w. pose proof (turn_T_l m w R) as T. set (u := turn m w) in *.
    assert (I : forall a b, inner a (turn m b) = inner (turn (m3T m) a) b) by tf_ring.
    change (inner u u = inner w w). unfold u at 2. rewrite I, T. reflexivity. }
  specialize (E (minus3 a b)). rewrite turn_minus in E. exact E.
Qed.
Lemma distance_shift a b c : distance3 (plus3 a c) (plus3 b c) = distance3 a b.
Proof. unfold distance3. f_equal. unfold plus3, v3, X, Y, Z3. cbn [v3x v3y v3z]. ring. Qed.
Lemma distance_move t a b : rigid t -> distance3 (move t a) (move t b) = distance3 a b.
Proof. intros R. unfold move. now rewrite distance_shift, distance_turn. Qed.

(** Map distances are those of the projected coordinates. *)
Theorem map_distance g p junk n lat lon alt lat' lon' alt' z np x y gm z' np' x' y' gm' : reachable g p n -> nv_good n = true ->
  p_local p = false -> p_zero_alt p = false ->
  g_forward g lat lon (nv_zone n) = Some (z, np, x, y, gm) -> g_forward g lat' lon' (nv_zone n) = Some (z', np', x', y', gm') ->
  exists v v', from_ll g p junk n lat lon alt v /\ from_ll g p junk n lat' lon' alt' v' /\
    distance3 v v' = distance3 (v3 x y alt) (v3 x' y' alt').
Proof.
  intros R G L Z F F'. eexists _, _. split; [eapply from_utm; eauto|]. split; [eapply from_utm; eauto|].
  rewrite Z. apply distance_move. destruct (good_upright _ _ _ R G) as (U & _). now apply upright_rigid.
Qed.

(** ** C66: the published position *)
Lemma gps_time s : (0 <= s)%Z -> @gps_lookup_time RScalar s = (s / 1000000000)%Z.
Proof.
  intros H. unfold gps_lookup_time.
  replace (@s_add RScalar _ _) with (IZR s / 1000000000); [exact (trunc_seconds s H)|].
  toR. rewrite (Z.div_mod s 1000000000) at 1 by lia. rewrite plus_IZR, mult_IZR. lra.
Qed.
Lemma zero_plane zero (v : V3) : zero_z zero v = plane zero v.
Proof. reflexivity. Qed.
Lemma plane_zero zero : plane zero (v3 0 0 0) = v3 0 0 0.
Proof. destruct zero; reflexivity. Qed.
Lemma antenna_known e p n m off robot : snd (prepareGpsOdometry e p n) = Some m -> (0 <= nv_gps_time n)%Z ->
  asked e (nv_base_frame n) (nv_gps_frame n) (nv_gps_time n / 1000000000) (Some off) ->
  asked e (nv_world_frame n) (nv_base_frame n) (nv_gps_time n / 1000000000) (Some robot) -> rigid robot ->
  o_position m = plane (p_zero_alt p)
    (minus3 (plane (p_zero_alt p) (move (nv_cw n) (t_origin (nv_gps_pose n)))) (turn (t_basis robot) (t_origin off))).
Proof.
  unfold prepareGpsOdometry. intros H T L1 L2 R. destruct (nv_good n && nv_gps_updated n && nv_odom_updated n)%bool; [|discriminate].
  cbn [snd] in H. apply (f_equal (fun r => match r with Some a => o_position a | None => v3zero end)) in H. cbn [o_position] in H. rewrite <- H. unfold getRobotOriginWorldPose.
  rewrite gps_time, (NavsatReal.lookup_asked _ _ _ _ _ L1), (NavsatReal.lookup_asked _ _ _ _ _ L2) by exact T.
  rewrite shift_back. unfold t_of. cbn [t_origin]. rewrite map_position, zero_plane.
  destruct (getRotation_correct (t_basis robot) R) as (U & E).
  rewrite quatRotate_spin by exact U. rewrite <- of_quat_spin, E by exact U. reflexivity.
Qed.
Lemma antenna_unknown e p n m : snd (prepareGpsOdometry e p n) = Some m -> (0 <= nv_gps_time n)%Z ->
  asked e (nv_base_frame n) (nv_gps_frame n) (nv_gps_time n / 1000000000) None \/
  asked e (nv_world_frame n) (nv_base_frame n) (nv_gps_time n / 1000000000) None -> o_position m = v3 0 0 0.
Proof.
  unfold prepareGpsOdometry. intros H T L. destruct (nv_good n && nv_gps_updated n && nv_odom_updated n)%bool; [|discriminate].
  cbn [snd] in H. apply (f_equal (fun r => match r with Some a => o_position a | None => v3zero end)) in H. cbn [o_position] in H. rewrite <- H. unfold getRobotOriginWorldPose. rewrite gps_time by exact T.
  destruct L as [L|L]; rewrite (NavsatReal.lookup_asked _ _ _ _ _ L).
  - rewrite zero_plane. apply plane_zero.
  - destruct (lookupTransformSafe e (nv_base_frame n) _ _); rewrite zero_plane; apply plane_zero.
Qed.

Lemma nth_last (P : nav_event RScalar -> Prop) (evs : @trace RScalar) j e ev :
  nth_error evs j = Some (e, ev) -> P ev -> (forall i ev', (j < i)%nat -> event_at evs i ev' -> ~ P ev') ->
  last_with P evs (e, ev).
Proof.
  intros H HP N. apply nth_error_split in H as (a & b & E & L). exists a, b. split; [exact E|]. split; [exact HP|].
  intros (e', ev') I. apply In_nth_error in I as (k & Hk). apply (N (S (j + k))); [lia|]. exists e'. subst.
  rewrite nth_error_app2 by lia. replace (S (Datatypes.length a + k) - Datatypes.length a)%nat with (S k) by lia. exact Hk.
Qed.

Theorem gps_position g p u junk evs e ev n' outs o m :
  execution g p u junk (evs ++ [(e, ev)]) n' (outs ++ [o]) -> In (PubGps m) o ->
  exists n ef f ex ff eo q z np x y gm, execution g p u junk evs n outs /\ nv_good n = true /\
    last_with usable_fix evs (ef, EvGps f) /\ last_with any_fix evs (ex, EvGps ff) /\ last_with odometry evs (eo, EvOdom q) /\
    g_forward g (fx_lat f) (fx_lon f) (-1) = Some (z, np, x, y, gm) /\ o_stamp m = fx_stamp f /\
    ((0 <= fx_stamp f)%Z ->
     (forall off robot, asked e (o_child q) (fx_frame ff) (fx_stamp f / 1000000000) (Some off) ->
        asked e (o_frame q) (o_child q) (fx_stamp f / 1000000000) (Some robot) -> rigid robot ->
        o_position m = plane (p_zero_alt p)
          (minus3 (plane (p_zero_alt p) (move (nv_cw n) (v3 x y (fx_alt f)))) (turn (t_basis robot) (t_origin off)))) /\
     (asked e (o_child q) (fx_frame ff) (fx_stamp f / 1000000000) None \/
      asked e (o_frame q) (o_child q) (fx_stamp f / 1000000000) None -> o_position m = v3 0 0 0)).
Proof.
  intros H I. apply execution_snoc in H as (n & outs' & o' & A & S & Q).
  apply app_inj_tail in Q as (<- & <-).
  destruct (step_pub _ _ _ _ _ _ _ _ _ S I) as (T & G & GU & OU & P).
  destruct (execution_holds _ _ _ _ _ _ _ A) as (F & O).
  destruct (F GU) as (j & ef & f & z & np & x & y & gm & J & U & T' & FW & GP & _ & NF & NPub).
  destruct (O OU) as (j2 & eo & q & J2 & _ & _ & _ & W & B & NO & _ & _).
  assert (Lf : last_with usable_fix evs (ef, EvGps f)).
  { eapply nth_last; [exact J|exists f; auto|]. intros i ev' Hi Hev (f' & -> & U'). eapply NF; eauto. }
  assert (Lo : last_with odometry evs (eo, EvOdom q)).
  { eapply nth_last; [exact J2|exists q; auto|]. intros i ev' Hi Hev (f' & ->). eapply NO; eauto. }
  destruct (last_exists any_fix any_dec evs) as ((ex, x3) & Lx).
  { exists (ef, EvGps f). split; [eapply nth_error_In; eauto|]. exists f. reflexivity. }
  destruct (last_In _ _ _ Lx) as (_ & (ff & Q)). cbn in Q. subst x3.
  pose proof (execution_gps_frame _ _ _ _ _ _ _ A _ _ Lx) as FF.
  exists n, ef, f, ex, ff, eo, q, z, np, x, y, gm.
  assert (ST : o_stamp m = fx_stamp f).
  { unfold prepareGpsOdometry in P. rewrite G, GU, OU in P. cbn [andb snd] in P. inversion P; subst. exact T'. }
  do 6 (split; [assumption|]). split; [exact ST|]. rewrite <- T', <- FF, <- W, <- B. intros PS. split.
  - intros off robot L1 L2 R. rewrite (antenna_known e p n m off robot P PS L1 L2 R), GP. reflexivity.
  - intros L. eapply antenna_unknown; eauto.
Qed.
