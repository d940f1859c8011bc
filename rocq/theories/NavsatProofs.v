(** * Executions of the navsat_transform node: facts for every scalar type *)

From Coq Require Import ZArith List Bool String Lia.
From Verif Require Import Scalar Mat FilterBase Tf StrMap RosFilter RosPrepare Navsat SpecTf SpecPrepare SpecNavsat PrepareProofs.
Import ListNotations.
Local Open Scope list_scope.

Section Generic.
Context {K : Scalar}.
Implicit Types (g : geolib K) (p : nav_params K) (n : nav K) (e : penv K) (ev : nav_event K).

Lemma run_snoc g p junk evs e ev n n' l :
  nav_run g p junk (evs ++ [(e, ev)]) n = Done (n', l) <->
  exists m outs o, nav_run g p junk evs n = Done (m, outs) /\ nav_step g p junk e ev m = Done (n', o) /\
                   l = outs ++ [o].
Proof.
  revert n l; induction evs as [|(e0, ev0) r IH]; intros n l; cbn [app nav_run].
  - destruct (nav_step g p junk e ev n) as [(n1, o)|] eqn:S.
    + split.
      * intros H; inversion H; subst. exists n, [], o. auto.
      * intros (m & outs & o' & A & B & C). inversion A; subst. rewrite S in B. inversion B; subst. reflexivity.
    + split; [discriminate|]. intros (m & outs & o' & A & B & C). inversion A; subst. congruence.
  - destruct (nav_step g p junk e0 ev0 n) as [(n1, o0)|] eqn:S.
    + specialize (IH n1). destruct (nav_run g p junk (r ++ [(e, ev)]) n1) as [(n2, os)|] eqn:R.
      * split.
        -- intros H; inversion H; subst. destruct (proj1 (IH os) eq_refl) as (m & outs & o & A & B & C).
           rewrite A. exists m, (o0 :: outs), o. split; [reflexivity|split; [exact B|subst; reflexivity]].
        -- intros (m & outs & o & A & B & C).
           destruct (nav_run g p junk r n1) as [(n3, os')|] eqn:R'; [|discriminate]. inversion A; subst.
           assert (Q : Done (n2, os) = Done (n', os' ++ [o])).
           { apply IH. exists m, os', o. auto. }
           inversion Q; subst. reflexivity.
      * split; [discriminate|]. intros (m & outs & o & A & B & C).
        destruct (nav_run g p junk r n1) as [(n3, os')|] eqn:R'; [|discriminate]. inversion A; subst.
        assert (Q : @Thrown (nav K * list (list (nav_out K))) = Done (n', os' ++ [o])).
        { apply IH. exists m, os', o. auto. }
        discriminate Q.
    + split; [discriminate|]. intros (m & outs & o & A & B & C). discriminate.
Qed.

Lemma execution_snoc g p u junk evs e ev n' l :
  execution g p u junk (evs ++ [(e, ev)]) n' l <->
  exists n outs o, execution g p u junk evs n outs /\ nav_step g p junk e ev n = Done (n', o) /\ l = outs ++ [o].
Proof. apply run_snoc. Qed.
Lemma execution_nil g p u junk n l : execution g p u junk [] n l <-> n = nav_init p u /\ l = [].
Proof. unfold execution; cbn. split; [intros H; inversion H; auto|intros (-> & ->); reflexivity]. Qed.
Lemma execution_length g p u junk evs n l : execution g p u junk evs n l -> List.length l = List.length evs.
Proof.
  revert n l; induction evs as [|(e, ev) evs IH] using rev_ind; intros n l H.
  - apply execution_nil in H as (_ & ->). reflexivity.
  - apply execution_snoc in H as (m & outs & o & A & B & ->). rewrite !app_length. cbn. now rewrite (IH _ _ A).
Qed.
Lemma run_app g p junk a b n n' l : nav_run g p junk (a ++ b) n = Done (n', l) ->
  exists m la lb, nav_run g p junk a n = Done (m, la) /\ nav_run g p junk b m = Done (n', lb) /\ l = la ++ lb.
Proof.
  revert n l; induction a as [|(e, ev) a IH]; intros n l; cbn [app nav_run]; intros H.
  - exists n, [], l. auto.
  - destruct (nav_step g p junk e ev n) as [(n1, o)|] eqn:S; [|discriminate].
    destruct (nav_run g p junk (a ++ b) n1) as [(n2, os)|] eqn:R; [|discriminate]. inversion H; subst.
    destruct (IH _ _ R) as (m & la & lb & A & B & ->). rewrite A. exists m, (o :: la), lb. auto.
Qed.

(** The steps, case by case. *)
Lemma good_gps_usable (m : fix_msg K) : good_gps m = true <-> usable m.
Proof.
  unfold good_gps, usable. rewrite !andb_true_iff, !negb_true_iff, Z.eqb_neq. tauto.
Qed.
Lemma good_gps_unusable (m : fix_msg K) : good_gps m = false <-> ~ usable m.
Proof. rewrite <- good_gps_usable. destruct (good_gps m); split; congruence. Qed.

Lemma navImu_keeps e s f q n : let n' := navImuCallback e s f q n in
  exists q' h, n' = set_orientation q' h n /\ (nv_has_imu n = true -> h = true).
Proof.
  cbn. unfold navImuCallback. destruct (nv_has_odom n) eqn:O.
  - destruct (lookupTransformSafe _ _ _ _).
    + destruct (quatToRPY (m3_getRotation (t_basis t))) as [[? ?] ?]. destruct (quatToRPY q) as [[? ?] ?].
      eexists _, _; split; [reflexivity|auto].
    + eexists _, _; split; [reflexivity|auto].
  - exists (nv_orientation n), (nv_has_imu n). split; [destruct n; reflexivity|auto].
Qed.

Lemma setOdom_shape e p s c v q n : exists q' h,
  setTransformOdometry e p s c v q n = set_orientation q' h (set_world (t_of q v) n) /\
  (nv_has_imu n = true -> h = true).
Proof.
  unfold setTransformOdometry. destruct (_ && _)%bool.
  - apply (navImu_keeps e s c q (set_world (t_of q v) n)).
  - exists (nv_orientation n), (nv_has_imu n). split; [destruct n; reflexivity|auto].
Qed.


(** *** The timer *)
Definition same_latest_gps n n' : Prop :=
  nv_gps_updated n' = nv_gps_updated n /\ nv_gps_time n' = nv_gps_time n /\ nv_gps_pose n' = nv_gps_pose n /\
  nv_gps_cov n' = nv_gps_cov n.
Definition same_latest_odom n n' : Prop :=
  nv_odom_updated n' = nv_odom_updated n /\ nv_odom_time n' = nv_odom_time n /\ nv_odom_pose n' = nv_odom_pose n /\
  nv_odom_cov n' = nv_odom_cov n.
Lemma same_gps_refl n : same_latest_gps n n.
Proof. unfold same_latest_gps; auto. Qed.
Lemma same_odom_refl n : same_latest_odom n n.
Proof. unfold same_latest_odom; auto. Qed.

Lemma setGps_cases g p lat lon alt n :
  setTransformGps g p lat lon alt n = n \/
  exists v l z np c, setTransformGps g p lat lon alt n =
    set_cart v (set_utm z np c (set_local (fst l) (snd l) n)).
Proof.
  unfold setTransformGps. destruct (p_local p).
  - destruct (g_local g lat lon lat lon alt) as (x, y). right.
    exists (mkV3 x y alt), (lat, lon), (nv_zone n), (nv_northp n), (s_ofZ 0). reflexivity.
  - destruct (g_forward _ _ _ _) as [[[[[z np] x] y] gm]|]; [right|left; reflexivity].
    exists (mkV3 x y alt), (nv_local n), z, np, (s_mul gm (s_div s_pi (lit 180 0))).
    destruct n as [? ? ? ? ? ? ? ? ? ? ? ? ? [? ?]]; reflexivity.
Qed.

Lemma manual_keeps e g p n : let n' := setManualDatum e g p n in
  same_latest_gps n n' /\ same_latest_odom n n' /\ nv_good n' = nv_good n /\ nv_cw n' = nv_cw n /\ nv_cwi n' = nv_cwi n /\
  nv_manual n' = nv_manual n /\ nv_has_odom n' = true /\ nv_imu_sub n' = nv_imu_sub n /\
  nv_world_frame n' = nv_world_frame n /\ nv_base_frame n' = nv_base_frame n /\ nv_gps_frame n' = nv_gps_frame n /\
  nv_datum n' = nv_datum n /\ nv_world n' = t_of quat_identity v3zero /\ nv_has_imu n' = true.
Proof.
  cbn. unfold setManualDatum.
  set (a := setTransformGps g p _ _ _ n).
  set (b := setTransformOdometry e p 0 (nv_base_frame a) v3zero quat_identity a).
  assert (A : same_latest_gps n a /\ same_latest_odom n a /\ nv_good a = nv_good n /\ nv_cw a = nv_cw n /\ nv_cwi a = nv_cwi n /\
    nv_manual a = nv_manual n /\ nv_imu_sub a = nv_imu_sub n /\ nv_datum a = nv_datum n /\
    nv_world_frame a = nv_world_frame n /\ nv_base_frame a = nv_base_frame n /\ nv_gps_frame a = nv_gps_frame n).
  { unfold a. destruct (setGps_cases g p (gp_lat (nv_datum n)) (gp_lon (nv_datum n)) (gp_alt (nv_datum n)) n)
      as [->|(v & l & z & np & c & ->)]; unfold same_latest_gps, same_latest_odom; cbn; repeat split. }
  destruct (setOdom_shape e p 0 (nv_base_frame a) v3zero quat_identity a) as (q & h & B & Hh). fold b in B.
  assert (O : nv_has_odom b = true) by (rewrite B; reflexivity).
  unfold navImuCallback. rewrite O. unfold lookupTransformSafe. rewrite String.eqb_refl.
  assert (R : forall t (x y z : K) hh, nv_world (set_orientation t hh b) = t_of quat_identity v3zero) by (rewrite B; reflexivity).
  assert (S : forall t, let n' := set_orientation t true b in
    same_latest_gps n n' /\ same_latest_odom n n' /\ nv_good n' = nv_good n /\ nv_cw n' = nv_cw n /\ nv_cwi n' = nv_cwi n /\
  nv_manual n' = nv_manual n /\ nv_has_odom n' = true /\ nv_imu_sub n' = nv_imu_sub n /\
  nv_world_frame n' = nv_world_frame n /\ nv_base_frame n' = nv_base_frame n /\ nv_gps_frame n' = nv_gps_frame n /\
  nv_datum n' = nv_datum n /\ nv_world n' = t_of quat_identity v3zero /\ nv_has_imu n' = true).
  { intros t. cbn zeta. rewrite B. unfold same_latest_gps, same_latest_odom in *. cbn. tauto. }
  destruct (e_buffer _ _ _ _) as [t|].
  - destruct (quatToRPY (m3_getRotation (t_basis t))) as [[? ?] ?]. destruct (quatToRPY (gp_orientation _)) as [[? ?] ?]. apply S.
  - destruct (e_buffer _ _ _ _) as [t|].
    + destruct (quatToRPY (m3_getRotation (t_basis t))) as [[? ?] ?]. destruct (quatToRPY (gp_orientation _)) as [[? ?] ?]. apply S.
    + destruct (quatToRPY (m3_getRotation _)) as [[? ?] ?]. destruct (quatToRPY (gp_orientation _)) as [[? ?] ?]. apply S.
Qed.

Lemma compute_keeps e g p now n : let n' := fst (computeTransform e g p now n) in
  same_latest_gps n n' /\ same_latest_odom n n' /\ nv_manual n' = nv_manual n /\ nv_imu_sub n' = nv_imu_sub n /\
  nv_world_frame n' = nv_world_frame n /\ nv_base_frame n' = nv_base_frame n /\ nv_gps_frame n' = nv_gps_frame n /\
  nv_datum n' = nv_datum n.
Proof.
  cbn. unfold computeTransform.
  set (m := if (negb (nv_good n) && nv_has_odom n && nv_manual n)%bool then setManualDatum e g p n else n).
  assert (M : same_latest_gps n m /\ same_latest_odom n m /\ nv_manual m = nv_manual n /\ nv_imu_sub m = nv_imu_sub n /\
  nv_world_frame m = nv_world_frame n /\ nv_base_frame m = nv_base_frame n /\ nv_gps_frame m = nv_gps_frame n /\ nv_datum m = nv_datum n).
  { unfold m. destruct (_ && _)%bool.
    - pose proof (manual_keeps e g p n) as H. cbn in H. tauto.
    - unfold same_latest_gps, same_latest_odom; auto 20. }
  clearbody m. destruct (_ && _)%bool; cbn; [|exact M]. unfold same_latest_gps, same_latest_odom in *; cbn; tauto.
Qed.

Lemma compute_out e g p now n o : In o (snd (computeTransform e g p now n)) -> exists t, o = PubTf t.
Proof.
  unfold computeTransform. destruct (_ && _ && _ && _)%bool; cbn; [|tauto].
  unfold cartesian_broadcast. destruct (p_broadcast p); cbn; [intros [<-|[]]; eauto|tauto].
Qed.

(** What a tick does. *)
Lemma tick_cases e g p now n n' o : transformCallback e g p now n = Done (n', o) ->
  (nv_good n = false /\ (forall x, In x o -> exists t, x = PubTf t) /\
   exists m, computeTransform e g p now n = (m, o) /\ (n' = m \/ (n' = drop_imu m /\ nv_good m = true))) \/
  (nv_good n = true /\
   let ready := (nv_gps_updated n && nv_odom_updated n)%bool in
   let pub := match snd (prepareGpsOdometry e p n) with Some m => [PubGps m] | None => [] end in
   let n1 := fst (prepareGpsOdometry e p n) in
   (p_publish p = false /\ o = pub /\ n' = n1 \/
    p_publish p = true /\ nv_odom_updated n = false /\ o = [] /\ n' = n \/
    p_publish p = true /\ nv_odom_updated n = true /\
      exists m c, o = pub ++ [PubFix m] /\ n' = set_filtered c n1)).
Proof.
  unfold transformCallback. destruct (nv_good n) eqn:G.
  - intros H. right. split; [reflexivity|]. cbn zeta.
    destruct (prepareGpsOdometry e p n) as (n1, gps) eqn:PG. cbn [fst snd].
    destruct (p_publish p).
    + unfold prepareFilteredGps in H.
      assert (G1 : nv_good n1 = nv_good n /\ nv_odom_updated n1 = nv_odom_updated n).
      { unfold prepareGpsOdometry in PG. destruct (_ && _ && _)%bool; inversion PG; subst; cbn; auto. }
      destruct G1 as (G1 & O1). rewrite G1, G, O1 in H. cbn [andb] in H.
      destruct (nv_odom_updated n) eqn:OU.
      * right; right. split; [reflexivity|]. split; [reflexivity|].
        destruct (mapToLL g n1 (t_origin (nv_odom_pose n1))) as [[[lat lon] alt]|]; [|discriminate].
        inversion H; subst. eexists _, _. split; [reflexivity|reflexivity].
      * right; left. unfold prepareGpsOdometry in PG. rewrite G, OU, andb_comm in PG. cbn in PG. inversion PG; subst.
        inversion H; subst. auto.
    + left. inversion H; subst. auto.
  - intros H. left. split; [reflexivity|].
    destruct (computeTransform e g p now n) as (m, out) eqn:C.
    assert (O : forall x, In x out -> exists t, x = PubTf t).
    { intros x Hx. apply (compute_out e g p now n). rewrite C. exact Hx. }
    inversion H; subst. split; [exact O|]. exists m. split; [reflexivity|].
    destruct (nv_good m && negb (p_odom_yaw p) && negb (nv_manual m))%bool eqn:D; [right|left; reflexivity].
    rewrite !andb_true_iff in D. tauto.
Qed.

Lemma prepareGps_cases e p n :
  (nv_good n = true /\ nv_gps_updated n = true /\ nv_odom_updated n = true /\
   exists c m, prepareGpsOdometry e p n = (set_published c n, Some m)) \/
  ((nv_good n && nv_gps_updated n && nv_odom_updated n)%bool = false /\ prepareGpsOdometry e p n = (n, None)).
Proof.
  unfold prepareGpsOdometry. destruct (_ && _ && _)%bool eqn:C.
  - left. rewrite !andb_true_iff in C. repeat split; try tauto. eexists _, _; reflexivity.
  - right. auto.
Qed.

(** *** One step and the latest fix *)
Lemma step_gps g p junk e ev n n' o : nav_step g p junk e ev n = Done (n', o) ->
  (exists f z np x y gm, ev = EvGps f /\ usable f /\ o = [] /\ nv_gps_updated n' = true /\ nv_gps_time n' = fx_stamp f /\
     g_forward g (fx_lat f) (fx_lon f) (-1) = Some (z, np, x, y, gm) /\
     t_origin (nv_gps_pose n') = mkV3 x y (fx_alt f) /\ nv_gps_cov n' = gps_covariance (fx_cov f)) \/
  (~ usable_fix ev /\
   ((forall m, ~ In (PubGps m) o) /\ same_latest_gps n n' \/ nv_gps_updated n' = false)).
Proof.
  destruct ev; cbn [nav_step]; intros H.
  - unfold gpsFixCallback in H. destruct (good_gps m) eqn:G.
    + left. destruct (g_forward g (fx_lat m) (fx_lon m) (-1)) as [[[[[z np] x] y] gm]|] eqn:F; [|discriminate].
      inversion H; subst. exists m, z, np, x, y, gm. apply good_gps_usable in G. cbn. auto 10.
    + right. inversion H; subst. split.
      * intros (f & Q & U). inversion Q; subst. apply good_gps_usable in U. congruence.
      * left. split; [intros ? []|]. unfold same_latest_gps; cbn; auto.
  - right. split; [intros (f & Q & U); discriminate|]. left. inversion H; subst. split; [intros ? []|].
    destruct (nv_imu_sub n); [|apply same_gps_refl].
    destruct (navImu_keeps e (im_stamp m) (im_frame m) (im_orientation m) n) as (q & h & -> & _).
    unfold same_latest_gps; cbn; auto.
  - right. split; [intros (f & Q & U); discriminate|]. left. inversion H; subst. split; [intros ? []|].
    unfold odomCallback. destruct (nv_good _).
    + unfold same_latest_gps; cbn; auto.
    + destruct (setOdom_shape e p (o_stamp m) (o_child m) (o_position m) (o_orientation m) (set_frames (o_frame m) (o_child m) n))
        as (q & h & -> & _). unfold same_latest_gps; cbn; auto.
  - right. split; [intros (f & Q & U); discriminate|].
    destruct (tick_cases _ _ _ _ _ _ _ H) as [(G & O & m & C & D)|(G & D)].
    + left. split; [intros m0 I; destruct (O _ I); discriminate|].
      pose proof (compute_keeps e g p now n) as S. rewrite C in S. cbn [fst] in S. destruct S as (S & _).
      destruct D as [->|(-> & _)]; [exact S|]. unfold same_latest_gps in *; cbn; auto.
    + cbn zeta in D. destruct (prepareGps_cases e p n) as [(_ & _ & OU & c & m & Q)|(_ & Q)]; rewrite Q in D; cbn [fst snd app] in D.
      * right. destruct D as [(_ & _ & ->)|[(_ & OF & _ & ->)|(_ & _ & m' & c' & _ & ->)]]; try reflexivity. congruence.
      * left. destruct D as [(_ & -> & ->)|[(_ & _ & -> & ->)|(_ & _ & m' & c' & -> & ->)]].
        -- split; [intros ? []|apply same_gps_refl].
        -- split; [intros ? []|apply same_gps_refl].
        -- split; [intros m0 [I|[]]; discriminate|]. unfold same_latest_gps; cbn; auto.
  - right. split; [intros (f & Q & U); discriminate|]. left. inversion H; subst. split; [intros ? []|].
    unfold same_latest_gps; cbn; auto.
  - right. split; [intros (f & Q & U); discriminate|]. left. unfold setUTMZoneCallback in H.
    destruct (g_mgrs g zone) as [(z, np)|]; [|discriminate]. inversion H; subst. split; [intros ? []|].
    unfold same_latest_gps; cbn; auto.
  - right. split; [intros (f & Q & U); discriminate|]. left. destruct (toLLCallback _ _ _); [|discriminate].
    inversion H; subst. split; [intros ? [I|[]]; discriminate|apply same_gps_refl].
  - right. split; [intros (f & Q & U); discriminate|]. left. destruct (fromLLCallback _ _ _ _ _ _ _); [|discriminate].
    inversion H; subst. split; [intros ? [I|[]]; discriminate|apply same_gps_refl].
Qed.

End Generic.
