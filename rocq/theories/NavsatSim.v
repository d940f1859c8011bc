(** * The navsat_transform node: uninitialised memory, exceptions, completion *)

From Coq Require Import ZArith List Bool String Lia Arith.
From Verif Require Import Scalar Mat FilterBase Tf StrMap RosFilter RosPrepare Navsat SpecTf SpecPrepare SpecNavsat PrepareProofs
  NavsatProofs NavsatTrace NavsatLife NavsatDatum.
Import ListNotations.
Local Open Scope list_scope.

Section Generic.
Context {K : Scalar}.
Implicit Types (g : geolib K) (p : nav_params K) (n m : nav K) (e : penv K) (ev : nav_event K).

(** ** Two runs that start with different memory *)
Record alike n m : Prop := {
  al_wf : nv_world_frame m = nv_world_frame n;
  al_bf : nv_base_frame m = nv_base_frame n;
  al_gf : nv_gps_frame m = nv_gps_frame n;
  al_hg : nv_has_gps m = nv_has_gps n;
  al_hi : nv_has_imu m = nv_has_imu n;
  al_ho : nv_has_odom m = nv_has_odom n;
  al_good : nv_good m = nv_good n;
  al_man : nv_manual m = nv_manual n;
  al_force : nv_force_zone m = nv_force_zone n;
  al_sub : nv_imu_sub m = nv_imu_sub n;
  al_zone : nv_zone m = nv_zone n;
  al_np : nv_northp m = nv_northp n;
  al_conv : nv_convergence m = nv_convergence n;
  al_local : nv_local m = nv_local n;
  al_datum : nv_manual n = true -> nv_datum m = nv_datum n;
  al_or : nv_has_imu n = true -> nv_orientation m = nv_orientation n;
  al_cart : nv_has_gps n = true -> nv_cart m = nv_cart n;
  al_world : nv_has_odom n = true -> nv_world m = nv_world n;
  al_cw : nv_good n = true -> nv_cw m = nv_cw n;
  al_cwi : nv_good n = true -> nv_cwi m = nv_cwi n;
  al_gu : nv_gps_updated m = nv_gps_updated n;
  al_gt : nv_gps_time m = nv_gps_time n;
  al_gp : nv_gps_updated n = true -> t_origin (nv_gps_pose m) = t_origin (nv_gps_pose n);
  al_gc : nv_gps_updated n = true -> nv_gps_cov m = nv_gps_cov n;
  al_ou : nv_odom_updated m = nv_odom_updated n;
  al_ot : nv_odom_time m = nv_odom_time n;
  al_op : nv_odom_updated n = true -> nv_odom_pose m = nv_odom_pose n;
  al_oc : nv_odom_updated n = true -> nv_odom_cov m = nv_odom_cov n
}.
Ltac alike_tac H := constructor; cbn; try apply H; try reflexivity; try (intros; discriminate); auto.

Lemma alike_init p u u' : alike (nav_init p u) (nav_init p u').
Proof. constructor; cbn; try reflexivity; try (intros; discriminate). intros ->. reflexivity. Qed.
Lemma alike_frames w b n m : alike n m -> alike (set_frames w b n) (set_frames w b m).
Proof. intros H. alike_tac H. Qed.
Lemma alike_gps_frame f n m : alike n m -> alike (set_gps_frame f n) (set_gps_frame f m).
Proof. intros H. alike_tac H. Qed.
Lemma alike_orientation q h n m : alike n m -> alike (set_orientation q h n) (set_orientation q h m).
Proof. intros H. alike_tac H. Qed.
Lemma alike_world t n m : alike n m -> alike (set_world t n) (set_world t m).
Proof. intros H. alike_tac H. Qed.
Lemma alike_cart v n m : alike n m -> alike (set_cart v n) (set_cart v m).
Proof. intros H. alike_tac H. Qed.
Lemma alike_utm z np c n m : alike n m -> alike (set_utm z np c n) (set_utm z np c m).
Proof. intros H. alike_tac H. Qed.
Lemma alike_local a b n m : alike n m -> alike (set_local a b n) (set_local a b m).
Proof. intros H. alike_tac H. Qed.
Lemma alike_latest_gps v c s n m : alike n m -> alike (set_latest_gps v c s n) (set_latest_gps v c s m).
Proof. intros H. alike_tac H. Qed.
Lemma alike_latest_odom t c s n m : alike n m -> alike (set_latest_odom t c s n) (set_latest_odom t c s m).
Proof. intros H. alike_tac H. Qed.
Lemma alike_transform a b n m : alike n m -> alike (set_transform a b n) (set_transform a b m).
Proof. intros H. alike_tac H. Qed.
Lemma alike_drop n m : alike n m -> alike (drop_imu n) (drop_imu m).
Proof. intros H. alike_tac H. Qed.
Lemma alike_published c c' n m : alike n m -> alike (set_published c n) (set_published c' m).
Proof. intros H. alike_tac H. Qed.
Lemma alike_filtered c c' n m : alike n m -> alike (set_filtered c n) (set_filtered c' m).
Proof. intros H. alike_tac H. Qed.
Lemma alike_set_datum d n m : alike n m -> alike (set_datum d n) (set_datum d m).
Proof. intros H. alike_tac H. Qed.
Lemma alike_set_zone z np n m : alike n m -> alike (set_zone z np n) (set_zone z np m).
Proof. intros H. alike_tac H. Qed.

Lemma alike_imu e s f q n m : alike n m -> alike (navImuCallback e s f q n) (navImuCallback e s f q m).
Proof.
  intros H. rewrite !navImu_eq, (al_ho _ _ H). destruct (nv_has_odom n); [|exact H].
  rewrite (al_bf _ _ H), (al_hi _ _ H). now apply alike_orientation.
Qed.
Lemma alike_setGps g p lat lon alt n m : alike n m -> alike (setTransformGps g p lat lon alt n) (setTransformGps g p lat lon alt m).
Proof.
  intros H. unfold setTransformGps. destruct (p_local p).
  - destruct (g_local _ _ _ _ _ _). now apply alike_cart, alike_local.
  - rewrite (al_force _ _ H), (al_zone _ _ H). destruct (g_forward _ _ _ _) as [[[[[? ?] ?] ?] ?]|]; [|exact H].
    now apply alike_cart, alike_utm.
Qed.
Lemma alike_setOdom e p s c v q n m : alike n m -> alike (setTransformOdometry e p s c v q n) (setTransformOdometry e p s c v q m).
Proof.
  intros H. unfold setTransformOdometry. pose proof (alike_world (t_of q v) n m H) as W.
  rewrite (al_good _ _ W), (al_man _ _ W).
  destruct (negb (nv_good (set_world (t_of q v) n)) && p_odom_yaw p && negb (nv_manual (set_world (t_of q v) n)))%bool; [|exact W].
  now apply alike_imu.
Qed.
Lemma alike_manual e g p n m : alike n m -> nv_manual n = true -> alike (setManualDatum e g p n) (setManualDatum e g p m).
Proof.
  intros H M. unfold setManualDatum. rewrite (al_datum _ _ H M). cbn zeta.
  set (d := nv_datum n). pose proof (alike_setGps g p (gp_lat d) (gp_lon d) (gp_alt d) n m H) as G.
  rewrite (al_bf _ _ G).
  pose proof (alike_setOdom e p 0 (nv_base_frame (setTransformGps g p (gp_lat d) (gp_lon d) (gp_alt d) n)) v3zero quat_identity _ _ G) as O.
  rewrite (al_bf _ _ O). now apply alike_imu.
Qed.
Lemma alike_world_transform e p n m : alike n m -> nv_has_imu n = true -> nv_has_gps n = true -> nv_has_odom n = true ->
  world_transform e p m = world_transform e p n.
Proof.
  intros H HI HG HO. unfold world_transform, corrected_pose, getRobotOriginCartesianPose.
  rewrite (al_man _ _ H), (al_cart _ _ H HG), (al_bf _ _ H), (al_gf _ _ H), (al_or _ _ H HI), (al_conv _ _ H), (al_world _ _ H HO). reflexivity.
Qed.
Lemma alike_compute e g p now n m : alike n m ->
  alike (fst (computeTransform e g p now n)) (fst (computeTransform e g p now m)) /\
  snd (computeTransform e g p now m) = snd (computeTransform e g p now n).
Proof.
  intros H. unfold computeTransform. rewrite (al_good _ _ H), (al_ho _ _ H), (al_man _ _ H).
  set (n1 := if (negb (nv_good n) && nv_has_odom n && nv_manual n)%bool then setManualDatum e g p n else n).
  set (m1 := if (negb (nv_good n) && nv_has_odom n && nv_manual n)%bool then setManualDatum e g p m else m).
  assert (A : alike n1 m1).
  { unfold n1, m1. destruct (nv_manual n) eqn:M; [|rewrite !andb_false_r; exact H].
    destruct (negb (nv_good n) && nv_has_odom n && true)%bool; [|exact H]. now apply alike_manual. }
  clearbody n1 m1. rewrite (al_good _ _ A), (al_ho _ _ A), (al_hg _ _ A), (al_hi _ _ A).
  destruct (negb (nv_good n1) && nv_has_odom n1 && nv_has_gps n1 && nv_has_imu n1)%bool eqn:B; [|split; [exact A|reflexivity]].
  rewrite !andb_true_iff in B. destruct B as (((_ & HO) & HG) & HI).
  rewrite (alike_world_transform e p n1 m1 A HI HG HO). cbn [fst snd]. split; [now apply alike_transform|].
  unfold cartesian_broadcast. cbn [nv_world_frame nv_cwi nv_cw set_transform]. rewrite (al_wf _ _ A). reflexivity.
Qed.
Lemma alike_map p n m (a b : trans K) : alike n m -> nv_good n = true -> t_origin b = t_origin a ->
  cartesianToMap p m b = cartesianToMap p n a.
Proof.
  intros H G E. unfold cartesianToMap. rewrite (al_cw _ _ H G). unfold with_rotation, t_mult. cbn [t_origin]. now rewrite E.
Qed.
Lemma alike_prepare e p n m : alike n m ->
  alike (fst (prepareGpsOdometry e p n)) (fst (prepareGpsOdometry e p m)) /\
  snd (prepareGpsOdometry e p m) = snd (prepareGpsOdometry e p n).
Proof.
  intros H. unfold prepareGpsOdometry. rewrite (al_good _ _ H), (al_gu _ _ H), (al_ou _ _ H).
  destruct (nv_good n && nv_gps_updated n && nv_odom_updated n)%bool eqn:B; [|split; [exact H|reflexivity]].
  rewrite !andb_true_iff in B. destruct B as ((G & GU) & OU). cbn [fst snd].
  rewrite (alike_map p n m _ _ H G (al_gp _ _ H GU)), (al_gt _ _ H), (al_cw _ _ H G), (al_gc _ _ H GU), (al_wf _ _ H).
  unfold getRobotOriginWorldPose. rewrite (al_bf _ _ H), (al_gf _ _ H), (al_wf _ _ H). split; [now apply alike_published|reflexivity].
Qed.
Lemma alike_back g n m v : alike n m -> nv_good n = true -> mapToLL g m v = mapToLL g n v.
Proof. intros H G. unfold mapToLL. now rewrite (al_cwi _ _ H G), (al_zone _ _ H), (al_np _ _ H). Qed.

(** The same events give the same outputs, or end the node alike. *)
Definition same_result (r r' : result (nav K * list (nav_out K))) : Prop :=
  match r, r' with
  | Done (n, o), Done (n', o') => alike n n' /\ o' = o
  | Thrown, Thrown => True
  | _, _ => False
  end.
Lemma alike_tick e g p now n m : alike n m -> same_result (transformCallback e g p now n) (transformCallback e g p now m).
Proof.
  intros H. unfold transformCallback. rewrite (al_good _ _ H). destruct (nv_good n) eqn:G.
  - destruct (alike_prepare e p n m H) as (A & E).
    destruct (prepareGpsOdometry e p n) as (n1, r) eqn:PN. destruct (prepareGpsOdometry e p m) as (m1, r'). cbn [fst snd] in *. subst r'.
    destruct (p_publish p); [|split; [exact A|reflexivity]].
    unfold prepareFilteredGps. rewrite (al_good _ _ A), (al_ou _ _ A).
    destruct (nv_good n1 && nv_odom_updated n1)%bool eqn:B.
    + rewrite andb_true_iff in B. destruct B as (G1 & OU). rewrite (al_op _ _ A OU), (alike_back g n1 m1 _ A G1).
      destruct (mapToLL g n1 (t_origin (nv_odom_pose n1))) as [[[lat lon] alt]|]; [|exact I].
      cbn [same_result]. split; [now apply alike_filtered|].
      now rewrite (al_cwi _ _ A G1), (al_oc _ _ A OU), (al_ot _ _ A), (al_bf _ _ A).
    + cbn. split; [exact A|reflexivity].
  - destruct (alike_compute e g p now n m H) as (A & E).
    destruct (computeTransform e g p now n) as (n1, r). destruct (computeTransform e g p now m) as (m1, r'). cbn [fst snd] in *. subst r'.
    rewrite (al_good _ _ A), (al_man _ _ A). destruct (nv_good n1 && negb (p_odom_yaw p) && negb (nv_manual n1))%bool.
    + split; [now apply alike_drop|reflexivity].
    + split; [exact A|reflexivity].
Qed.
Lemma alike_step g p junk junk' e ev n m : alike n m -> same_result (nav_step g p junk e ev n) (nav_step g p junk' e ev m).
Proof.
  intros H. destruct ev as [f|i|o|now|d|z|v|lat lon alt]; cbn [nav_step].
  - unfold gpsFixCallback. pose proof (alike_gps_frame (fx_frame f) n m H) as A.
    destruct (good_gps f); [|split; [exact A|reflexivity]].
    rewrite (al_good _ _ A), (al_man _ _ A).
    set (n1 := set_gps_frame (fx_frame f) n) in *. set (m1 := set_gps_frame (fx_frame f) m) in *. clearbody n1 m1.
    destruct (g_forward g (fx_lat f) (fx_lon f) (-1)) as [[[[[? ?] ?] ?] ?]|]; [|exact I].
    split; [|reflexivity]. apply alike_latest_gps.
    destruct (negb (nv_good n1) && negb (nv_manual n1))%bool; [now apply alike_setGps|exact A].
  - rewrite (al_sub _ _ H). destruct (nv_imu_sub n); split; try reflexivity; [now apply alike_imu|exact H].
  - split; [|reflexivity]. unfold odomCallback. pose proof (alike_frames (o_frame o) (o_child o) n m H) as A.
    rewrite (al_good _ _ A). apply alike_latest_odom. destruct (nv_good _); [exact A|]. now apply alike_setOdom.
  - now apply alike_tick.
  - split; [|reflexivity]. now apply alike_set_datum.
  - unfold setUTMZoneCallback. destruct (g_mgrs g z) as [(z', np)|]; [|exact I]. split; [|reflexivity]. now apply alike_set_zone.
  - unfold toLLCallback. rewrite (al_good _ _ H). destruct (nv_good n) eqn:G; [|split; [exact H|reflexivity]].
    rewrite (alike_back g n m v H G). destruct (mapToLL g n v); [|exact I]. split; [exact H|reflexivity].
  - unfold fromLLCallback. rewrite (al_good _ _ H), (al_local _ _ H), (al_zone _ _ H).
    destruct (p_local p).
    + destruct (g_local _ _ _ _ _ _) as (x, y). destruct (nv_good n) eqn:G; (split; [exact H|]); [|reflexivity].
      do 3 f_equal. now apply alike_map.
    + destruct (g_forward _ _ _ _) as [[[[[? ?] x] y] ?]|]; [|exact I].
      destruct (nv_good n) eqn:G; (split; [exact H|]); [|reflexivity]. do 3 f_equal. now apply alike_map.
Qed.
Definition outputs (r : result (nav K * list (list (nav_out K)))) : option (list (list (nav_out K))) :=
  match r with Done (_, o) => Some o | Thrown => None end.
Lemma alike_run g p junk junk' evs n m : alike n m -> outputs (nav_run g p junk' evs m) = outputs (nav_run g p junk evs n).
Proof.
  revert n m; induction evs as [|(e, ev) r IH]; intros n m H; cbn [nav_run]; [reflexivity|].
  pose proof (alike_step g p junk junk' e ev n m H) as S. unfold same_result in S.
  destruct (nav_step g p junk e ev n) as [(n1, o)|]; destruct (nav_step g p junk' e ev m) as [(m1, o')|]; try contradiction; [|reflexivity].
  destruct S as (A & ->). specialize (IH _ _ A).
  destruct (nav_run g p junk r n1) as [(n2, os)|]; destruct (nav_run g p junk' r m1) as [(m2, os')|]; cbn in *; congruence.
Qed.
Theorem memory_independent g p u u' junk junk' evs :
  outputs (nav_run g p junk' evs (nav_init p u')) = outputs (nav_run g p junk evs (nav_init p u)).
Proof. apply alike_run, alike_init. Qed.

(** ** What ends the node *)
Lemma thrown_iff g p junk e ev n : nav_step g p junk e ev n = Thrown <->
  match ev with
  | EvGps f => usable f /\ g_forward g (fx_lat f) (fx_lon f) (-1) = None
  | EvZone z => g_mgrs g z = None
  | EvToLL v => nv_good n = true /\ mapToLL g n v = Thrown
  | EvFromLL lat lon _ => p_local p = false /\ g_forward g lat lon (nv_zone n) = None
  | EvTick _ => nv_good n = true /\ p_publish p = true /\ nv_odom_updated n = true /\
      mapToLL g n (t_origin (nv_odom_pose n)) = Thrown
  | _ => False
  end.
Proof.
  destruct ev as [f|i|o|now|d|z|v|lat lon alt]; cbn [nav_step].
  - unfold gpsFixCallback. rewrite <- good_gps_usable. destruct (good_gps f).
    + destruct (g_forward g (fx_lat f) (fx_lon f) (-1)) as [[[[[? ?] ?] ?] ?]|]; split; intuition congruence.
    + split; intuition congruence.
  - split; [discriminate|contradiction].
  - split; [discriminate|contradiction].
  - unfold transformCallback. destruct (nv_good n) eqn:G.
    + assert (P : let n1 := fst (prepareGpsOdometry e p n) in nv_good n1 = true /\ nv_odom_updated n1 = nv_odom_updated n /\
        forall v, mapToLL g n1 v = mapToLL g n v) .
      { unfold prepareGpsOdometry. destruct (_ && _ && _)%bool; cbn; auto. }
      assert (Q : nv_odom_pose (fst (prepareGpsOdometry e p n)) = nv_odom_pose n).
      { unfold prepareGpsOdometry. destruct (_ && _ && _)%bool; reflexivity. }
      cbn zeta in P. destruct (prepareGpsOdometry e p n) as (n1, r). cbn [fst] in *. destruct P as (G1 & O1 & M1).
      destruct (p_publish p); [|split; intuition congruence].
      unfold prepareFilteredGps. rewrite G1, O1, M1, Q. destruct (nv_odom_updated n); cbn [andb].
      * destruct (mapToLL g n (t_origin (nv_odom_pose n))) as [[[? ?] ?]|]; split; intuition congruence.
      * split; intuition congruence.
    + destruct (computeTransform e g p now n). split; intuition congruence.
  - split; [discriminate|contradiction].
  - unfold setUTMZoneCallback. destruct (g_mgrs g z) as [(? & ?)|]; split; congruence.
  - unfold toLLCallback. destruct (nv_good n); [destruct (mapToLL g n v)|]; split; intuition congruence.
  - unfold fromLLCallback. destruct (p_local p).
    + destruct (g_local _ _ _ _ _ _). split; intuition congruence.
    + destruct (g_forward _ _ _ _) as [[[[[? ?] ?] ?] ?]|]; split; intuition congruence.
Qed.
Lemma back_thrown g n v : mapToLL g n v = Thrown <->
  let w := t_origin (t_mult (nv_cwi n) (t_of quat_identity v)) in g_reverse g (nv_zone n) (nv_northp n) (v3x w) (v3y w) = None.
Proof. unfold mapToLL. cbn zeta. destruct (g_reverse _ _ _ _ _) as [(? & ?)|]; split; congruence. Qed.

(** ** The IMU subscription *)
Lemma imu_dropped g p junk e ev n n' o : nav_step g p junk e ev n = Done (n', o) -> nv_imu_sub n = false -> nv_imu_sub n' = false.
Proof.
  intros S F. destruct ev as [m|m|m|now|d|z|v|lat lon alt]; cbn [nav_step] in S.
  + unfold gpsFixCallback in S. destruct (good_gps m).
    * assert (X : forall b : bool, nv_imu_sub (if b
     then setTransformGps g p (fx_lat m) (fx_lon m) (fx_alt m) (set_gps_frame (fx_frame m) n) else set_gps_frame (fx_frame m) n) = nv_imu_sub n).
      { intros b. destruct b; [|auto].
        destruct (setGps_cases g p (fx_lat m) (fx_lon m) (fx_alt m) (set_gps_frame (fx_frame m) n)) as [->|(v & l' & z & np & c & ->)]; auto. }
      destruct (g_forward g (fx_lat m) (fx_lon m) (-1)) as [[[[[z np] x] y] gm]|]; [|discriminate].
      inversion S; subst. rewrite <- F. apply X.
    * inversion S; subst. exact F.
  + rewrite F in S. inversion S; subst. exact F.
  + inversion S; subst. unfold odomCallback. destruct (nv_good _); [exact F|].
    destruct (setOdom_shape e p (o_stamp m) (o_child m) (o_position m) (o_orientation m) (set_frames (o_frame m) (o_child m) n)) as (q & h & -> & _). exact F.
  + destruct (tick_cases _ _ _ _ _ _ _ S) as [(G2 & _ & m & C & D)|(G2 & D)].
    * pose proof (compute_keeps e g p now n) as T. rewrite C in T. cbn in T. destruct D as [->|(-> & _)]; [|reflexivity].
      rewrite <- F. apply T.
    * cbn zeta in D. destruct (prepareGps_cases e p n) as [(_ & _ & OU & c & m & Q)|(_ & Q)]; rewrite Q in D; cbn [fst snd app] in D;
      destruct D as [(_ & _ & ->)|[(_ & OF & _ & ->)|(_ & _ & m' & c' & _ & ->)]]; exact F.
  + inversion S; subst. exact F.
  + unfold setUTMZoneCallback in S. destruct (g_mgrs g z) as [(z', np)|]; inversion S; subst. exact F.
  + destruct (toLLCallback _ _ _); inversion S; subst. exact F.
  + destruct (fromLLCallback _ _ _ _ _ _ _); inversion S; subst. exact F.
Qed.
Lemma imu_dropped_run g p junk evs n n' l : nav_run g p junk evs n = Done (n', l) -> nv_imu_sub n = false -> nv_imu_sub n' = false.
Proof.
  revert n l; induction evs as [|(e, ev) r IH]; intros n l; cbn [nav_run]; intros H F.
  - inversion H; subst. exact F.
  - destruct (nav_step g p junk e ev n) as [(n1, o)|] eqn:S; [|discriminate].
    destruct (nav_run g p junk r n1) as [(n2, os)|] eqn:R; [|discriminate]. inversion H; subst.
    eapply IH; [exact R|]. eapply imu_dropped; eauto.
Qed.
(** Once dropped, IMU messages change nothing: replacing them by others, or
    leaving them out, gives the same run. *)
Lemma imu_ignored g p junk e i n : nv_imu_sub n = false -> nav_step g p junk e (EvImu i) n = Done (n, []).
Proof. intros F. cbn. now rewrite F. Qed.
Lemma imu_dropped_good g p u junk evs e now n0 outs0 n outs :
  execution g p u junk evs n0 outs0 -> nv_good n0 = false -> execution g p u junk (evs ++ [(e, EvTick now)]) n outs -> nv_good n = true ->
  p_odom_yaw p = false -> nv_manual n0 = false -> nv_imu_sub n = false.
Proof.
  intros H0 G0 H G PY M. apply execution_snoc in H as (n1 & outs1 & oo & A & S & _). unfold execution in A, H0. rewrite H0 in A. inversion A; subst n1 outs1. clear A.
  cbn [nav_step] in S. unfold transformCallback in S. rewrite G0 in S.
  pose proof (compute_keeps e g p now n0) as T. destruct (computeTransform e g p now n0) as (m, out). cbn in T.
  assert (MM : nv_manual m = false) by (rewrite <- M; apply T).
  inversion S; subst. rewrite PY, MM in *. destruct (nv_good m) eqn:GM; cbn [negb andb] in *; [reflexivity|congruence].
Qed.

(** ** Completion *)
Lemma has_odom_keeps g p junk e ev n n' o : nav_step g p junk e ev n = Done (n', o) ->
  nv_has_odom n = true \/ (odometry ev /\ nv_good n = false) -> nv_has_odom n' = true.
Proof.
  intros S D. destruct ev as [m|m|m|now|d|z|v|lat lon alt]; cbn [nav_step] in S;
    try (assert (F : nv_has_odom n = true) by (destruct D as [D|((x & D) & _)]; [exact D|discriminate]); clear D).
  + unfold gpsFixCallback in S. destruct (good_gps m).
    * assert (X : forall b : bool, nv_has_odom (if b
     then setTransformGps g p (fx_lat m) (fx_lon m) (fx_alt m) (set_gps_frame (fx_frame m) n) else set_gps_frame (fx_frame m) n) = nv_has_odom n).
      { intros b. destruct b; [|auto].
        destruct (setGps_cases g p (fx_lat m) (fx_lon m) (fx_alt m) (set_gps_frame (fx_frame m) n)) as [->|(v & l' & z & np & c & ->)]; auto. }
      destruct (g_forward g (fx_lat m) (fx_lon m) (-1)) as [[[[[z np] x] y] gm]|]; [|discriminate].
      inversion S; subst. rewrite <- F. apply X.
    * inversion S; subst. exact F.
  + inversion S; subst. destruct (nv_imu_sub n); [|exact F].
    destruct (navImu_keeps e (im_stamp m) (im_frame m) (im_orientation m) n) as (q & h & -> & _). exact F.
  + inversion S; subst. unfold odomCallback. destruct (nv_good (set_frames (o_frame m) (o_child m) n)) eqn:G.
    * cbn in *. destruct D as [D|(_ & D)]; congruence.
    * destruct (setOdom_shape e p (o_stamp m) (o_child m) (o_position m) (o_orientation m) (set_frames (o_frame m) (o_child m) n)) as (q & h & -> & _). reflexivity.
  + destruct (tick_cases _ _ _ _ _ _ _ S) as [(G2 & _ & m & C & E)|(G2 & E)].
    * assert (X : nv_has_odom m = true).
      { unfold computeTransform in C.
        assert (X : nv_has_odom (if (negb (nv_good n) && nv_has_odom n && nv_manual n)%bool then setManualDatum e g p n else n) = true).
        { destruct (negb (nv_good n) && nv_has_odom n && nv_manual n)%bool; [|exact F]. pose proof (manual_keeps e g p n) as T. cbn in T. apply T. }
        match type of X with nv_has_odom ?t = _ => set (m0 := t) in *; clearbody m0 end.
        destruct (negb (nv_good m0) && nv_has_odom m0 && nv_has_gps m0 && nv_has_imu m0)%bool; inversion C; subst; exact X. }
      destruct E as [->|(-> & _)]; exact X.
    * cbn zeta in E. destruct (prepareGps_cases e p n) as [(_ & _ & OU & c & m & Q)|(_ & Q)]; rewrite Q in E; cbn [fst snd app] in E;
      destruct E as [(_ & _ & ->)|[(_ & OF & _ & ->)|(_ & _ & m' & c' & _ & ->)]]; exact F.
  + inversion S; subst. exact F.
  + unfold setUTMZoneCallback in S. destruct (g_mgrs g z) as [(z', np)|]; inversion S; subst. exact F.
  + destruct (toLLCallback _ _ _); inversion S; subst. exact F.
  + destruct (fromLLCallback _ _ _ _ _ _ _); inversion S; subst. exact F.
Qed.
Lemma good_has_odom g p u junk evs n outs : execution g p u junk evs n outs ->
  (nv_good n = true -> nv_has_odom n = true) /\ (some_event odometry evs -> nv_has_odom n = true).
Proof.
  revert n outs; induction evs as [|(e, ev) evs IH] using rev_ind; intros n' l H.
  - apply execution_nil in H as (-> & _). split; [discriminate|]. intros (x & [] & _).
  - apply execution_snoc in H as (n & outs & o & A & S & _). destruct (IH _ _ A) as (I1 & I2). split.
    + intros G. destruct (good_or n) as [Gn|Gn].
      * eapply has_odom_keeps; [exact S|]. left. now apply I1.
      * destruct (becomes_good _ _ _ _ _ _ _ _ S Gn G) as (now & m & -> & _ & HO & _). eapply has_odom_keeps; eauto.
    + intros SE. apply some_snoc in SE as [SE|SE]; [eapply has_odom_keeps; [exact S|]; left; now apply I2|].
      destruct (good_or n) as [Gn|Gn]; (eapply has_odom_keeps; [exact S|]); [left; now apply I1|]. right. auto.
Qed.

(** The tick that finds everything present establishes the transform; the first
    such tick does. *)
Theorem completes_auto g p u junk evs n outs e now n' outs' : execution g p u junk evs n outs ->
  p_manual p = false -> no_request evs -> nv_good n = false ->
  execution g p u junk (evs ++ [(e, EvTick now)]) n' outs' ->
  (nv_good n' = true <-> some_event odometry evs /\ some_event usable_fix evs /\
   (if p_odom_yaw p then True else
    exists a ei i b eo o, evs = a ++ (ei, EvImu i) :: b /\ last_with odometry a (eo, EvOdom o) /\
      lookupTransformSafe ei (o_child o) (im_frame i) (im_stamp i) <> None)).
Proof.
  intros H M N G H'. pose proof (execution_recorded _ _ _ _ _ _ _ H M N) as R.
  apply execution_snoc in H' as (n1 & outs1 & oo & A & S & _). unfold execution in A. unfold execution in H. rewrite H in A. inversion A; subst n1 outs1. clear A.
  cbn [nav_step] in S. rewrite (tick_good _ _ _ _ _ _ _ S G), (compute_auto e g p now n G (rec_manual _ _ _ _ R)), !andb_true_iff.
  rewrite (rec_odom _ _ _ _ R), (rec_gps _ _ _ _ R).
  destruct (p_odom_yaw p) eqn:PY.
  - destruct (odom_yaw_recorded _ _ _ _ _ _ _ H M PY N G) as (Q & _). rewrite Q. tauto.
  - destruct (imu_recorded _ _ _ _ _ _ _ H M PY N G) as (_ & Q & _). rewrite Q.
    assert (E : (exists a e0 i b o, imu_with_odometry evs a e0 i b o /\ mounted e0 (o_child o) (im_frame i) (im_stamp i) = true) <->
      exists a ei i b eo o, evs = a ++ (ei, EvImu i) :: b /\ last_with odometry a (eo, EvOdom o) /\
      lookupTransformSafe ei (o_child o) (im_frame i) (im_stamp i) <> None).
    { unfold imu_with_odometry, mounted. split.
      - intros (a & e0 & m & b & o & (E & eo & L) & T). exists a, e0, m, b, eo, o. split; [exact E|]. split; [exact L|].
        destruct (lookupTransformSafe _ _ _ _); [discriminate|discriminate].
      - intros (a & e0 & m & b & eo & o & E & L & T). exists a, e0, m, b, o. split; [split; [exact E|exists eo; exact L]|].
        destruct (lookupTransformSafe _ _ _ _); [reflexivity|congruence]. }
    rewrite E. tauto.
Qed.
Theorem completes_manual g p u junk evs n outs e now n' outs' : execution g p u junk evs n outs ->
  nv_manual n = true -> nv_good n = false -> execution g p u junk (evs ++ [(e, EvTick now)]) n' outs' ->
  some_event odometry evs ->
  p_local p = true \/ g_forward g (gp_lat (nv_datum n)) (gp_lon (nv_datum n)) (if nv_force_zone n then nv_zone n else (-1)%Z) <> None ->
  nv_good n' = true.
Proof.
  intros H M G H' SO PR. destruct (good_has_odom _ _ _ _ _ _ _ H) as (_ & HO). specialize (HO SO).
  apply execution_snoc in H' as (n1 & outs1 & oo & A & S & _). unfold execution in A. unfold execution in H. rewrite H in A. inversion A; subst n1 outs1. clear A.
  cbn [nav_step] in S. rewrite (tick_good _ _ _ _ _ _ _ S G), (compute_manual e g p now n G M), HO. cbn [andb].
  destruct PR as [->|PR]; [now rewrite orb_true_r|]. destruct (g_forward _ _ _ _); [now rewrite orb_true_r|congruence].
Qed.

(** ** Zero altitude *)
Lemma gps_flat g p u junk evs e ev n' outs o (w : odom_msg K) :
  execution g p u junk (evs ++ [(e, ev)]) n' (outs ++ [o]) -> In (PubGps w) o -> p_zero_alt p = true -> v3z (o_position w) = s_ofZ 0.
Proof.
  intros H I Z. apply execution_snoc in H as (n & outs' & o' & A & S & Q). apply app_inj_tail in Q as (<- & <-).
  destruct (step_pub _ _ _ _ _ _ _ _ _ S I) as (_ & G & GU & OU & P).
  unfold prepareGpsOdometry in P. rewrite G, GU, OU, Z in P. cbn [andb snd] in P. inversion P; subst. reflexivity.
Qed.
Lemma map_flat g p junk e lat lon alt n v : nav_step g p junk e (EvFromLL lat lon alt) n = Done (n, [AnsMap (Some v)]) ->
  p_zero_alt p = true -> v3z v = s_ofZ 0.
Proof.
  cbn [nav_step]. unfold fromLLCallback, cartesianToMap. intros H Z. rewrite Z in H. destruct (p_local p).
  - destruct (g_local _ _ _ _ _ _). destruct (nv_good n); inversion H; subst. reflexivity.
  - destruct (g_forward _ _ _ _) as [[[[[? ?] ?] ?] ?]|]; [|discriminate]. destruct (nv_good n); inversion H; subst. reflexivity.
Qed.
End Generic.
