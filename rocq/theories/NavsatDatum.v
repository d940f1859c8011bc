(** * The datum, its heading and the map *)

From Coq Require Import Reals ZArith List Bool String Lia Lra Arith.
From Verif Require Import Scalar Mat FilterBase Tf StrMap RosFilter RosPrepare Navsat SpecFilter SpecTf SpecPrepare SpecNavsat
  RBridge Angles Trig TfReal TfRot TfQuat PrepareProofs PrepareReal NavsatProofs NavsatTrace NavsatLife NavsatReal.
Import ListNotations.
Local Open Scope list_scope.

Section Generic.
Context {K : Scalar}.
Implicit Types (g : geolib K) (p : nav_params K) (n : nav K) (e : penv K) (ev : nav_event K).

Lemma becomes_good g p junk e ev n n' o : nav_step g p junk e ev n = Done (n', o) -> nv_good n = false -> nv_good n' = true ->
  exists now m, ev = EvTick now /\ m = (if nv_manual n then setManualDatum e g p n else n) /\
    nv_has_odom n = true /\ nv_has_gps m = true /\ nv_has_imu m = true /\ nv_manual m = nv_manual n /\
    nv_cw n' = world_transform e p m /\ nv_cwi n' = t_inverse (world_transform e p m).
Proof.
  destruct ev; cbn [nav_step]; intros H G G'.
  - exfalso. unfold gpsFixCallback in H. destruct (good_gps m).
    + assert (X : nv_good (if (negb (nv_good (set_gps_frame (fx_frame m) n)) && negb (nv_manual (set_gps_frame (fx_frame m) n)))%bool
         then setTransformGps g p (fx_lat m) (fx_lon m) (fx_alt m) (set_gps_frame (fx_frame m) n) else set_gps_frame (fx_frame m) n) = nv_good n).
      { destruct (_ && _)%bool; [|reflexivity].
        destruct (setGps_cases g p (fx_lat m) (fx_lon m) (fx_alt m) (set_gps_frame (fx_frame m) n)) as [->|(v & l & z & np & c & ->)]; reflexivity. }
      destruct (g_forward g (fx_lat m) (fx_lon m) (-1)) as [[[[[z np] x] y] gm]|]; [|discriminate].
      inversion H; subst.
      match type of G' with nv_good (set_latest_gps _ _ _ ?m) = _ => change (nv_good m = true) in G' end. cbn [nv_good nv_manual set_gps_frame] in X. congruence.
    + inversion H; subst. cbn in G'. congruence.
  - exfalso. inversion H; subst. destruct (nv_imu_sub n); [|congruence].
    destruct (navImu_keeps e (im_stamp m) (im_frame m) (im_orientation m) n) as (q & h & E & _). rewrite E in G'. cbn in G'. congruence.
  - exfalso. inversion H; subst. unfold odomCallback in G'. change (nv_good (set_frames _ _ n)) with (nv_good n) in G'. rewrite G in G'.
    destruct (setOdom_shape e p (o_stamp m) (o_child m) (o_position m) (o_orientation m) (set_frames (o_frame m) (o_child m) n)) as (q & h & E & _).
    rewrite E in G'. cbn in G'. congruence.
  - destruct (tick_cases _ _ _ _ _ _ _ H) as [(_ & _ & m & C & D)|(G2 & _)]; [|congruence].
    assert (GM : nv_good m = true) by (destruct D as [->|(-> & _)]; exact G').
    assert (CW : nv_cw n' = nv_cw m /\ nv_cwi n' = nv_cwi m) by (destruct D as [->|(-> & _)]; cbn; auto).
    destruct CW as (-> & ->). exists now.
    unfold computeTransform in C. rewrite G in C. cbn [negb andb] in C.
    destruct (nv_has_odom n) eqn:O.
    2:{ cbn [andb] in C. rewrite G, O in C. cbn in C. inversion C; subst. congruence. }
    cbn [andb] in C. set (m0 := if nv_manual n then setManualDatum e g p n else n) in *.
    assert (M : nv_manual m0 = nv_manual n).
    { unfold m0. destruct (nv_manual n) eqn:MN; [|exact MN]. pose proof (manual_keeps e g p n) as S. cbn in S. rewrite <- MN. apply S. }
    assert (GM0 : nv_good m0 = false).
    { unfold m0. destruct (nv_manual n) eqn:MN; [|exact G]. pose proof (manual_keeps e g p n) as S. cbn in S. rewrite <- G. apply S. }
    exists m0. destruct (negb (nv_good m0) && nv_has_odom m0 && nv_has_gps m0 && nv_has_imu m0)%bool eqn:B; inversion C; subst.
    + rewrite !andb_true_iff in B. cbn. tauto.
    + congruence.
  - inversion H; subst. discriminate G'.
  - unfold setUTMZoneCallback in H. destruct (g_mgrs g zone) as [(z, np)|]; inversion H; subst. discriminate G'.
  - destruct (toLLCallback _ _ _); inversion H; subst. congruence.
  - destruct (fromLLCallback _ _ _ _ _ _ _); inversion H; subst. congruence.
Qed.

(** A property of the transform that holds whenever it is computed. *)
Lemma transform_invariant g p u junk evs n outs (P : trans K -> Prop) :
  (forall e m, P (world_transform e p m)) -> execution g p u junk evs n outs -> nv_good n = true ->
  P (nv_cw n) /\ nv_cwi n = t_inverse (nv_cw n).
Proof.
  intros HP. revert n outs; induction evs as [|(e, ev) evs IH] using rev_ind; intros n' l H G.
  - apply execution_nil in H as (-> & _). discriminate G.
  - apply execution_snoc in H as (n & outs & o & A & S & ->).
    destruct (good_or n) as [Gn|Gn].
    + destruct (IH _ _ A Gn) as (I1 & I2).
      assert (NR : ~ is_request ev).
      { intros R. pose proof (request_clears _ _ _ _ _ _ _ _ S R). congruence. }
      destruct (good_step _ _ _ _ _ _ _ _ S Gn NR) as (_ & -> & -> & _). auto.
    + destruct (becomes_good _ _ _ _ _ _ _ _ S Gn G) as (now & m & _ & _ & _ & _ & _ & _ & -> & ->). auto.
Qed.

(** ** The manual datum *)
Lemma datum_kept g p junk e ev n n' o : nav_step g p junk e ev n = Done (n', o) -> ~ is_request ev ->
  nv_datum n' = nv_datum n /\ nv_manual n' = nv_manual n /\ nv_force_zone n' = nv_force_zone n.
Proof.
  destruct ev; cbn [nav_step is_request]; intros H R; try (exfalso; apply R; exact I).
  - unfold gpsFixCallback in H. destruct (good_gps m).
    + assert (X : forall b : bool, let n2 := if b
         then setTransformGps g p (fx_lat m) (fx_lon m) (fx_alt m) (set_gps_frame (fx_frame m) n) else set_gps_frame (fx_frame m) n in
         nv_datum n2 = nv_datum n /\ nv_manual n2 = nv_manual n /\ nv_force_zone n2 = nv_force_zone n).
      { intros b. cbn zeta. destruct b; [|auto].
        destruct (setGps_cases g p (fx_lat m) (fx_lon m) (fx_alt m) (set_gps_frame (fx_frame m) n)) as [->|(v & l & z & np & c & ->)]; auto. }
      destruct (g_forward g (fx_lat m) (fx_lon m) (-1)) as [[[[[z np] x] y] gm]|]; [|discriminate].
      inversion H; subst. apply X.
    + inversion H; subst. auto.
  - inversion H; subst. destruct (nv_imu_sub n); [|auto].
    destruct (navImu_keeps e (im_stamp m) (im_frame m) (im_orientation m) n) as (q & h & -> & _). auto.
  - inversion H; subst. unfold odomCallback. destruct (nv_good _); [auto|].
    destruct (setOdom_shape e p (o_stamp m) (o_child m) (o_position m) (o_orientation m) (set_frames (o_frame m) (o_child m) n)) as (q & h & -> & _).
    auto.
  - destruct (tick_cases _ _ _ _ _ _ _ H) as [(_ & _ & m & C & D)|(G2 & D)].
    + assert (E : nv_datum m = nv_datum n /\ nv_manual m = nv_manual n /\ nv_force_zone m = nv_force_zone n).
      { unfold computeTransform in C.
        assert (X : let m0 := (if (negb (nv_good n) && nv_has_odom n && nv_manual n)%bool then setManualDatum e g p n else n) in
          nv_datum m0 = nv_datum n /\ nv_manual m0 = nv_manual n /\ nv_force_zone m0 = nv_force_zone n).
        { cbn zeta. clear C D. destruct (negb (nv_good n) && nv_has_odom n && nv_manual n)%bool; [|auto]. pose proof (manual_keeps e g p n) as S. cbn in S.
          split; [apply S|]. split; [apply S|]. clear. unfold setManualDatum. cbn zeta.
          match goal with |- nv_force_zone (navImuCallback ?e ?s ?f ?q ?m) = _ => destruct (navImu_keeps e s f q m) as (q' & h & -> & _) end.
          match goal with |- context [setTransformOdometry ?e ?p ?s ?c ?v ?q ?m] => destruct (setOdom_shape e p s c v q m) as (q2 & h2 & -> & _) end.
          cbn. destruct (setGps_cases g p (gp_lat (nv_datum n)) (gp_lon (nv_datum n)) (gp_alt (nv_datum n)) n) as [->|(v & l & z & np & c & ->)]; reflexivity. }
        cbn zeta in X. match type of X with nv_datum ?t = _ /\ _ => set (m0 := t) in *; clearbody m0 end.
        destruct (negb (nv_good m0) && nv_has_odom m0 && nv_has_gps m0 && nv_has_imu m0)%bool; inversion C; subst; exact X. }
      destruct D as [->|(-> & _)]; exact E.
    + cbn zeta in D. destruct (prepareGps_cases e p n) as [(_ & _ & OU & c & m & Q)|(_ & Q)]; rewrite Q in D; cbn [fst snd app] in D;
      destruct D as [(_ & _ & ->)|[(_ & OF & _ & ->)|(_ & _ & m' & c' & _ & ->)]]; auto.
  - destruct (toLLCallback _ _ _); inversion H; subst. auto.
  - destruct (fromLLCallback _ _ _ _ _ _ _); inversion H; subst. auto.
Qed.
Lemma datum_kept_run g p junk evs n n' l : nav_run g p junk evs n = Done (n', l) -> no_request evs ->
  nv_datum n' = nv_datum n /\ nv_manual n' = nv_manual n /\ nv_force_zone n' = nv_force_zone n.
Proof.
  revert n l; induction evs as [|(e, ev) r IH]; intros n l; cbn [nav_run]; intros H N.
  - inversion H; subst. auto.
  - destruct (nav_step g p junk e ev n) as [(n1, o)|] eqn:S; [|discriminate].
    destruct (nav_run g p junk r n1) as [(n2, os)|] eqn:R; [|discriminate]. inversion H; subst.
    destruct (IH _ _ R) as (-> & -> & ->); [intros x Hx; apply N; right; exact Hx|].
    eapply datum_kept; [exact S|]. apply (N (e, ev)). left; reflexivity.
Qed.
(** After a datum request, until the next request, the datum is the one asked
    for. *)
Lemma datum_given g p u junk a e d b n outs : execution g p u junk (a ++ (e, EvDatum d) :: b) n outs -> no_request b ->
  nv_datum n = d /\ nv_manual n = true.
Proof.
  intros H N. unfold execution in H. change ((e, EvDatum d) :: b) with ([(e, EvDatum d)] ++ b) in H. rewrite app_assoc in H.
  apply run_app in H as (m & la & lb & A & B & _). apply run_snoc in A as (m0 & o1 & o2 & A & S & _). cbn in S. inversion S; subst.
  destruct (datum_kept_run _ _ _ _ _ _ _ B N) as (-> & -> & _). auto.
Qed.
Lemma datum_configured g p u junk b n outs : execution g p u junk b n outs -> no_request b -> p_manual p = true ->
  nv_datum n = configured_datum p /\ nv_manual n = true /\ nv_force_zone n = false.
Proof.
  intros H N M. destruct (datum_kept_run _ _ _ _ _ _ _ H N) as (-> & -> & ->). unfold nav_init. cbn. rewrite M. auto.
Qed.

(** ** Orientations *)
Definition reading e (base : string) (stamp : Z) (frame : string) (q : quat K) : quat K :=
  match lookupTransformSafe e base frame stamp with
  | None => q
  | Some t =>
      let '(roll_offset, pitch_offset, yaw_offset) := quatToRPY (m3_getRotation (t_basis t)) in
      let '(roll, pitch, yaw) := quatToRPY q in
      let rpy := mkV3 (normalize_angle (s_sub roll roll_offset)) (normalize_angle (s_sub pitch pitch_offset))
                      (normalize_angle (s_sub yaw yaw_offset)) in
      let rpy' := m3mv (m3_setRPY (s_ofZ 0) (s_ofZ 0) yaw_offset) rpy in
      quat_setRPY (v3x rpy') (v3y rpy') (v3z rpy')
  end.
Definition mounted e (base frame : string) (stamp : Z) : bool :=
  match lookupTransformSafe e base frame stamp with None => false | Some _ => true end.
Lemma navImu_eq e s f q n : navImuCallback e s f q n =
  if nv_has_odom n then set_orientation (reading e (nv_base_frame n) s f q) (mounted e (nv_base_frame n) f s || nv_has_imu n)%bool n else n.
Proof.
  unfold navImuCallback, reading, mounted. destruct (nv_has_odom n); [|reflexivity].
  destruct (lookupTransformSafe _ _ _ _); [|reflexivity].
  destruct (quatToRPY (m3_getRotation (t_basis t))) as [[? ?] ?]. destruct (quatToRPY q) as [[? ?] ?]. reflexivity.
Qed.
Lemma mounted_self e base s : mounted e base base s = true.
Proof.
  unfold mounted, lookupTransformSafe. rewrite String.eqb_refl. destruct (e_buffer _ _ _ _); [reflexivity|].
  destruct (e_buffer _ _ _ _); reflexivity.
Qed.
Lemma setOdom_eq e p s c v q n : setTransformOdometry e p s c v q n =
  let n := set_world (t_of q v) n in
  if (negb (nv_good n) && p_odom_yaw p && negb (nv_manual n))%bool
  then set_orientation (reading e (nv_base_frame n) s c q) (mounted e (nv_base_frame n) c s || nv_has_imu n)%bool n else n.
Proof. unfold setTransformOdometry. cbn zeta. rewrite navImu_eq. reflexivity. Qed.
Lemma manual_orientation e g p n : nv_orientation (setManualDatum e g p n) =
  reading e (nv_base_frame n) 0 (nv_base_frame n) (gp_orientation (nv_datum n)).
Proof.
  pose proof (manual_keeps e g p n) as S. cbn in S. destruct S as (_ & _ & _ & _ & _ & _ & _ & _ & _ & B & _).
  revert B. unfold setManualDatum. cbn zeta.
  match goal with |- context [setTransformOdometry ?e ?p ?s ?c ?v ?q ?m] => destruct (setOdom_shape e p s c v q m) as (q2 & h2 & -> & _) end.
  rewrite navImu_eq. cbn. intros ->. reflexivity.
Qed.
Lemma manual_cart e g p n : nv_cart (setManualDatum e g p n) =
  nv_cart (setTransformGps g p (gp_lat (nv_datum n)) (gp_lon (nv_datum n)) (gp_alt (nv_datum n)) n) /\
  nv_convergence (setManualDatum e g p n) =
  nv_convergence (setTransformGps g p (gp_lat (nv_datum n)) (gp_lon (nv_datum n)) (gp_alt (nv_datum n)) n).
Proof.
  unfold setManualDatum. cbn zeta.
  match goal with |- context [navImuCallback ?e ?s ?f ?q ?m] => destruct (navImu_keeps e s f q m) as (q' & h & -> & _) end.
  match goal with |- context [setTransformOdometry ?e ?p ?s ?c ?v ?q ?m] => destruct (setOdom_shape e p s c v q m) as (q2 & h2 & -> & _) end.
  split; reflexivity.
Qed.

(** *** Which orientation has been recorded *)
Definition imu_with_odometry (evs : @trace K) (a : @trace K) e (m : imu_msg K) (b : @trace K) (o : odom_msg K) : Prop :=
  evs = a ++ (e, EvImu m) :: b /\ exists eo, last_with odometry a (eo, EvOdom o).

Lemma snoc_cons {A} (a : list A) x b y l : l ++ [y] = a ++ x :: b ->
  (b = [] /\ l = a /\ y = x) \/ exists b', b = b' ++ [y] /\ l = a ++ x :: b'.
Proof.
  destruct b as [|z b _] using rev_ind; intros E.
  - left. apply app_inj_tail in E as (-> & ->). auto.
  - right. exists b. rewrite app_comm_cons, app_assoc in E. apply app_inj_tail in E as (-> & ->). auto.
Qed.

(** A step that leaves orientation, flag and subscription alone. *)
Definition same_heading n n' : Prop :=
  nv_orientation n' = nv_orientation n /\ nv_has_imu n' = nv_has_imu n /\ nv_imu_sub n' = nv_imu_sub n.
Lemma quiet_step g p junk e ev n n' o : nav_step g p junk e ev n = Done (n', o) -> ~ is_request ev ->
  nv_manual n = false -> nv_good n' = false -> ~ imu_event ev -> ~ odometry ev -> same_heading n n' /\ nv_good n = false.
Proof.
  destruct ev; cbn [nav_step is_request]; intros H R M G NI NO; try (exfalso; apply R; exact I).
  - unfold gpsFixCallback in H. destruct (good_gps m).
    + assert (X : forall b : bool, let n2 := if b
         then setTransformGps g p (fx_lat m) (fx_lon m) (fx_alt m) (set_gps_frame (fx_frame m) n) else set_gps_frame (fx_frame m) n in
         same_heading n n2 /\ nv_good n2 = nv_good n).
      { intros b. cbn zeta. destruct b; [|unfold same_heading; auto].
        destruct (setGps_cases g p (fx_lat m) (fx_lon m) (fx_alt m) (set_gps_frame (fx_frame m) n)) as [->|(v & l & z & np & c & ->)]; unfold same_heading; auto. }
      destruct (g_forward g (fx_lat m) (fx_lon m) (-1)) as [[[[[z np] x] y] gm]|]; [|discriminate].
      specialize (X (negb (nv_good (set_gps_frame (fx_frame m) n)) && negb (nv_manual (set_gps_frame (fx_frame m) n)))%bool).
      cbn zeta in X. destruct X as (X & Y). inversion H; subst. split; [exact X|]. rewrite <- Y. exact G.
    + inversion H; subst. unfold same_heading; auto.
  - exfalso. apply NI. exists m. reflexivity.
  - exfalso. apply NO. exists m. reflexivity.
  - destruct (tick_cases _ _ _ _ _ _ _ H) as [(G2 & _ & m & C & D)|(G2 & D)].
    + split; [|exact G2]. unfold computeTransform in C. rewrite M, andb_false_r in C.
      destruct (negb (nv_good n) && nv_has_odom n && nv_has_gps n && nv_has_imu n)%bool; inversion C; subst.
      * destruct D as [->|(-> & _)]; discriminate G.
      * destruct D as [->|(-> & X)]; [unfold same_heading; auto|congruence].
    + exfalso. cbn zeta in D. destruct (prepareGps_cases e p n) as [(_ & _ & OU & c & m & Q)|(_ & Q)]; rewrite Q in D; cbn [fst snd app] in D;
      destruct D as [(_ & _ & ->)|[(_ & OF & _ & ->)|(_ & _ & m' & c' & _ & ->)]]; cbn in G; congruence.
  - destruct (toLLCallback _ _ _); inversion H; subst. unfold same_heading; auto.
  - destruct (fromLLCallback _ _ _ _ _ _ _); inversion H; subst. unfold same_heading; auto.
Qed.

Lemma imu_recorded g p u junk evs n outs : execution g p u junk evs n outs -> p_manual p = false -> p_odom_yaw p = false ->
  no_request evs -> nv_good n = false ->
  nv_imu_sub n = true /\
  (nv_has_imu n = true <-> exists a e m b o, imu_with_odometry evs a e m b o /\ mounted e (o_child o) (im_frame m) (im_stamp m) = true) /\
  (forall a e m b o, imu_with_odometry evs a e m b o -> (forall x, In x b -> ~ imu_event (snd x)) ->
     nv_orientation n = reading e (o_child o) (im_stamp m) (im_frame m) (im_orientation m)).
Proof.
  intros H PM PY N. revert n outs H; induction evs as [|(e, ev) evs IH] using rev_ind; intros n' l H G.
  - apply execution_nil in H as (-> & ->). split; [cbn; now rewrite PM, PY|]. split.
    + split; [discriminate|]. intros (a & e & m & b & o & (E & _) & _). destruct a; discriminate.
    + intros a e m b o (E & _). destruct a; discriminate.
  - apply execution_snoc in H as (n & outs & o & A & S & ->).
    assert (N' : no_request evs) by (intros x Hx; apply N; apply in_or_app; auto).
    assert (NR : ~ is_request ev) by (apply (N (e, ev)); apply in_or_app; right; left; reflexivity).
    pose proof (execution_recorded _ _ _ _ _ _ _ A PM N') as R.
    assert (Gn : nv_good n = false).
    { destruct (good_or n) as [Gn|Gn]; [|exact Gn]. destruct (good_step _ _ _ _ _ _ _ _ S Gn NR) as (E & _). congruence. }
    destruct (IH N' _ _ A Gn) as (IS & II & IO).
    assert (Keep : ~ imu_event ev -> same_heading n n' ->
      nv_imu_sub n' = true /\
  (nv_has_imu n' = true <-> exists a e0 m b o, imu_with_odometry (evs ++ [(e, ev)]) a e0 m b o /\ mounted e0 (o_child o) (im_frame m) (im_stamp m) = true) /\
  (forall a e0 m b o, imu_with_odometry (evs ++ [(e, ev)]) a e0 m b o -> (forall x, In x b -> ~ imu_event (snd x)) ->
     nv_orientation n' = reading e0 (o_child o) (im_stamp m) (im_frame m) (im_orientation m))).
    { intros NI (-> & -> & ->). split; [exact IS|]. split.
      - rewrite II. split; intros (a & e0 & m & b & o' & (E & L) & MM).
        + exists a, e0, m, (b ++ [(e, ev)]), o'. split; [split; [|exact L]|exact MM]. rewrite E. now rewrite <- app_assoc.
        + apply snoc_cons in E as [(_ & _ & E)|(b' & -> & E)].
          * exfalso. apply NI. inversion E. exists m. reflexivity.
          * exists a, e0, m, b', o'. split; [split; [exact E|exact L]|exact MM].
      - intros a e0 m b o' (E & L) NB. apply snoc_cons in E as [(_ & _ & E)|(b' & -> & E)].
        + exfalso. apply NI. inversion E. exists m. reflexivity.
        + apply (IO a e0 m b' o'); [split; assumption|]. intros x Hx. apply NB. apply in_or_app; auto. }
    destruct ev as [m|m|m|now|d|z|v|lat lon alt]; try (apply Keep; [intros (x & Q); discriminate|]; eapply quiet_step; eauto; try (eapply rec_manual; eassumption); intros (x & Q); discriminate).
    + (* IMU *)
      cbn [nav_step] in S. rewrite IS in S. inversion S; subst. rewrite navImu_eq.
      destruct (nv_has_odom n) eqn:HO.
      * pose proof (proj1 (rec_odom _ _ _ _ R) HO) as SO.
        destruct (last_exists odometry odometry_dec evs SO) as ((eo, oo) & L).
        destruct (last_In _ _ _ L) as (_ & (om & Q)). cbn in Q. subst oo.
        destruct (rec_frames _ _ _ _ R _ _ L) as (_ & EB).
        cbn. rewrite EB. split; [exact IS|]. split.
        -- split.
           ++ intros T. apply orb_true_iff in T as [T|T].
              ** exists evs, e, m, [], om. split; [split; [reflexivity|exists eo; exact L]|exact T].
              ** destruct (proj1 II T) as (a & e0 & m0 & b & o' & (E & L') & MM).
                 exists a, e0, m0, (b ++ [(e, EvImu m)]), o'. split; [split; [|exact L']|exact MM]. rewrite E. now rewrite <- app_assoc.
           ++ intros (a & e0 & m0 & b & o' & (E & (eo' & L')) & MM). apply snoc_cons in E as [(_ & -> & E)|(b' & -> & E)].
              ** inversion E; subst. destruct (rec_frames _ _ _ _ R _ _ L') as (_ & EB'). rewrite EB in EB'. rewrite EB', MM. reflexivity.
              ** assert (nv_has_imu n = true) as ->; [|apply orb_true_r]. apply II. exists a, e0, m0, b', o'. split; [split; [exact E|exists eo'; exact L']|exact MM].
        -- intros a e0 m0 b o' (E & (eo' & L')) NB. apply snoc_cons in E as [(_ & -> & E)|(b' & -> & E)].
           ++ inversion E; subst. destruct (rec_frames _ _ _ _ R _ _ L') as (_ & EB'). rewrite EB in EB'. now rewrite EB'.
           ++ exfalso. apply (NB (e, EvImu m)); [apply in_or_app; right; left; reflexivity|]. exists m. reflexivity.
      * split; [exact IS|]. split.
        -- rewrite II. split; intros (a & e0 & m0 & b & o' & (E & (eo' & L')) & MM).
           ++ exists a, e0, m0, (b ++ [(e, EvImu m)]), o'. split; [split; [|exists eo'; exact L']|exact MM]. rewrite E. now rewrite <- app_assoc.
           ++ apply snoc_cons in E as [(_ & -> & E)|(b' & -> & E)].
              ** exfalso. destruct (last_In _ _ _ L') as (IL & OL).
                 assert (T : nv_has_odom n = true) by (apply (rec_odom _ _ _ _ R); eexists; eauto). congruence.
              ** exists a, e0, m0, b', o'. split; [split; [exact E|exists eo'; exact L']|exact MM].
        -- intros a e0 m0 b o' (E & (eo' & L')) NB. apply snoc_cons in E as [(_ & -> & E)|(b' & -> & E)].
           ++ exfalso. destruct (last_In _ _ _ L') as (IL & OL).
              assert (T : nv_has_odom n = true) by (apply (rec_odom _ _ _ _ R); eexists; eauto). congruence.
           ++ exfalso. apply (NB (e, EvImu m)); [apply in_or_app; right; left; reflexivity|]. exists m. reflexivity.
    + apply Keep; [intros (x & Q); discriminate|]. cbn [nav_step] in S. inversion S; subst. unfold odomCallback.
      change (nv_good (set_frames _ _ n)) with (nv_good n). rewrite Gn, setOdom_eq, PY.
      cbn zeta. rewrite andb_false_r. unfold same_heading; auto.
Qed.

Lemma odom_yaw_recorded g p u junk evs n outs : execution g p u junk evs n outs -> p_manual p = false -> p_odom_yaw p = true ->
  no_request evs -> nv_good n = false ->
  (nv_has_imu n = true <-> some_event odometry evs) /\
  (forall e o, last_with odometry evs (e, EvOdom o) ->
     nv_orientation n = reading e (o_child o) (o_stamp o) (o_child o) (o_orientation o)).
Proof.
  intros H PM PY N. revert n outs H.
  assert (NS : forall evs n outs, execution g p u junk evs n outs -> nv_imu_sub n = false).
  { clear -PY. intros evs. induction evs as [|(e, ev) evs IH] using rev_ind; intros n' l H.
    - apply execution_nil in H as (-> & _). cbn. now rewrite PY.
    - apply execution_snoc in H as (n & outs & o & A & S & _). pose proof (IH _ _ A) as F. clear IH A.
      destruct ev as [m|m|m|now|d|z|v|lat lon alt]; cbn [nav_step] in S.
      + unfold gpsFixCallback in S. destruct (good_gps m).
        * assert (X : forall b : bool, nv_imu_sub (if b
         then setTransformGps g p (fx_lat m) (fx_lon m) (fx_alt m) (set_gps_frame (fx_frame m) n) else set_gps_frame (fx_frame m) n) = nv_imu_sub n).
          { intros b. destruct b; [|auto].
            destruct (setGps_cases g p (fx_lat m) (fx_lon m) (fx_alt m) (set_gps_frame (fx_frame m) n)) as [->|(v & l' & z & np & c & ->)]; auto. }
          destruct (g_forward g (fx_lat m) (fx_lon m) (-1)) as [[[[[z np] x] y] gm]|]; [|discriminate].
          inversion S; subst. rewrite <- F. apply X.
        * inversion S; subst. exact F.
      + rewrite F in S. inversion S; subst. exact F.
      + inversion S; subst. unfold odomCallback. destruct (nv_good _); [exact F|].
        destruct (setOdom_shape e p (o_stamp m) (o_child m) (o_position m) (o_orientation m) (set_frames (o_frame m) (o_child m) n)) as (q & h & -> & _). exact F.
      + destruct (tick_cases _ _ _ _ _ _ _ S) as [(G2 & _ & m & C & D)|(G2 & D)].
        * pose proof (compute_keeps e g p now n) as T. rewrite C in T. cbn in T. destruct D as [->|(-> & _)]; [|reflexivity].
          rewrite <- F. apply T.
        * cbn zeta in D. destruct (prepareGps_cases e p n) as [(_ & _ & OU & c & m & Q)|(_ & Q)]; rewrite Q in D; cbn [fst snd app] in D;
          destruct D as [(_ & _ & ->)|[(_ & OF & _ & ->)|(_ & _ & m' & c' & _ & ->)]]; exact F.
      + inversion S; subst. exact F.
      + unfold setUTMZoneCallback in S. destruct (g_mgrs g z) as [(z', np)|]; inversion S; subst. exact F.
      + destruct (toLLCallback _ _ _); inversion S; subst. exact F.
      + destruct (fromLLCallback _ _ _ _ _ _ _); inversion S; subst. exact F. }
  induction evs as [|(e, ev) evs IH] using rev_ind; intros n' l H G.
  - apply execution_nil in H as (-> & ->). split.
    + split; [discriminate|]. intros (x & [] & _).
    + intros e o L. exfalso. eapply last_nil; eauto.
  - apply execution_snoc in H as (n & outs & o & A & S & ->).
    assert (N' : no_request evs) by (intros x Hx; apply N; apply in_or_app; auto).
    assert (NR : ~ is_request ev) by (apply (N (e, ev)); apply in_or_app; right; left; reflexivity).
    pose proof (execution_recorded _ _ _ _ _ _ _ A PM N') as R.
    assert (Gn : nv_good n = false).
    { destruct (good_or n) as [Gn|Gn]; [|exact Gn]. destruct (good_step _ _ _ _ _ _ _ _ S Gn NR) as (E & _). congruence. }
    destruct (IH N' _ _ A Gn) as (II & IO).
    assert (Keep : ~ odometry ev -> nv_orientation n' = nv_orientation n -> nv_has_imu n' = nv_has_imu n ->
      (nv_has_imu n' = true <-> some_event odometry (evs ++ [(e, ev)])) /\
      (forall e0 o, last_with odometry (evs ++ [(e, ev)]) (e0, EvOdom o) ->
         nv_orientation n' = reading e0 (o_child o) (o_stamp o) (o_child o) (o_orientation o))).
    { intros NO -> ->. split.
      - rewrite II, some_snoc. cbn [snd]. tauto.
      - intros e0 o0 L. apply last_snoc in L as [(L & _)|(_ & L)]; [contradiction|]. eauto. }
    pose proof (NS _ _ _ A) as NSn.
    destruct ev as [m|m|m|now|d|z|v|lat lon alt];
      try (destruct (quiet_step _ _ _ _ _ _ _ _ S NR (rec_manual _ _ _ _ R) G) as ((Q1 & Q2 & _) & _);
           [intros (x & Q); discriminate|intros (x & Q); discriminate|]; apply Keep; [intros (x & Q); discriminate|exact Q1|exact Q2]).
    + cbn [nav_step] in S. rewrite NSn in S. inversion S; subst. apply Keep; auto. intros (x & Q); discriminate.
    + cbn [nav_step] in S. inversion S; subst.
      assert (X : nv_orientation (odomCallback e p m n) = reading e (o_child m) (o_stamp m) (o_child m) (o_orientation m) /\
                  nv_has_imu (odomCallback e p m n) = true).
      { unfold odomCallback. change (nv_good (set_frames _ _ n)) with (nv_good n). rewrite Gn, setOdom_eq, PY. cbn.
        rewrite Gn, (rec_manual _ _ _ _ R). cbn. rewrite mounted_self. auto. }
      destruct X as (-> & ->). split.
      * split; [|reflexivity]. intros _. apply some_snoc. right. exists m. reflexivity.
      * intros e0 o0 L. apply last_snoc in L as [(_ & L)|(L & _)]; [inversion L; reflexivity|]. exfalso. apply L. exists m. reflexivity.
Qed.
End Generic.
