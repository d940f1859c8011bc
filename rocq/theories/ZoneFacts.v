(** * What follows a UTM-zone request (C90) *)

From Coq Require Import ZArith List Bool String.
From Verif Require Import Scalar Mat Tf FilterBase RosFilter RosPrepare Navsat SpecPrepare SpecNavsat SpecZone
  PrepareProofs NavsatProofs NavsatTrace NavsatLife.
Import ListNotations.
Local Open Scope list_scope.

Section Generic.
Context {K : Scalar}.
Implicit Types (g : geolib K) (p : nav_params K) (n : nav K) (e : penv K) (ev : nav_event K).

Lemma fix_in_zone_dec g p z ev : fix_in_zone g p z ev \/ ~ fix_in_zone g p z ev.
Proof.
  destruct ev as [m|m|m|now|d|s|v|lat lon alt]; try (right; intros (f & Q & _); discriminate).
  destruct (good_gps m) eqn:G.
  - apply good_gps_usable in G. destruct (p_local p) eqn:L.
    + left. exists m. auto.
    + destruct (g_forward g (fx_lat m) (fx_lon m) z) as [r|] eqn:F.
      * left. exists m. split; [reflexivity|]. split; [exact G|]. right. eauto.
      * right. intros (f & Q & _ & [H|(r & H)]); inversion Q; subst; congruence.
  - right. intros (f & Q & U & _). inversion Q; subst. apply good_gps_usable in U. congruence.
Qed.

(** Fields that carry the datum, and the flags that decide how it is set. *)
Definition same_zone n n' : Prop :=
  nv_cart n' = nv_cart n /\ nv_local n' = nv_local n /\ nv_convergence n' = nv_convergence n /\
  nv_zone n' = nv_zone n /\ nv_northp n' = nv_northp n /\ nv_has_gps n' = nv_has_gps n /\
  nv_force_zone n' = nv_force_zone n /\ nv_manual n' = nv_manual n.
Lemma datum_from_same g p z f n n' : same_zone n n' -> datum_from g p z f n -> datum_from g p z f n'.
Proof. unfold same_zone, datum_from. intros (-> & -> & -> & -> & -> & _). exact (fun x => x). Qed.

(** A step that is neither a request nor a usable fix, before completion. *)
Lemma other_step g p junk e ev n n' o : nav_step g p junk e ev n = Done (n', o) -> nv_good n = false -> nv_manual n = false ->
  ~ is_request ev -> ~ usable_fix ev ->
  same_zone n n' /\ (nv_good n' = true -> nv_has_gps n = true /\ exists now, ev = EvTick now).
Proof.
  intros S G M R U. destruct ev as [m|m|m|now|d|s|v|lat lon alt]; cbn [nav_step] in S; try (exfalso; apply R; exact I).
  - unfold gpsFixCallback in S. destruct (good_gps m) eqn:GG.
    + exfalso. apply U. exists m. split; [reflexivity|]. apply good_gps_usable. exact GG.
    + inversion S; subst. unfold same_zone; cbn. repeat split; congruence.
  - inversion S; subst. destruct (nv_imu_sub n); [|unfold same_zone; repeat split; congruence].
    destruct (navImu_keeps e (im_stamp m) (im_frame m) (im_orientation m) n) as (q & h & -> & _).
    unfold same_zone; cbn; repeat split; congruence.
  - inversion S; subst. unfold odomCallback. change (nv_good (set_frames _ _ n)) with (nv_good n). rewrite G.
    destruct (setOdom_shape e p (o_stamp m) (o_child m) (o_position m) (o_orientation m) (set_frames (o_frame m) (o_child m) n)) as (q & h & -> & _).
    unfold same_zone; cbn; repeat split; congruence.
  - destruct (tick_cases _ _ _ _ _ _ _ S) as [(_ & _ & m & C & D)|(G' & _)]; [|congruence].
    assert (T : same_zone n m /\ (nv_good m = true -> nv_has_gps n = true)).
    { unfold computeTransform in C. rewrite M, andb_false_r in C.
      destruct (negb (nv_good n) && nv_has_odom n && nv_has_gps n && nv_has_imu n)%bool eqn:B; inversion C; subst.
      - rewrite !andb_true_iff in B. unfold same_zone; cbn. repeat split; tauto.
      - unfold same_zone. repeat split; congruence. }
    destruct T as (T & H). destruct D as [->|(-> & _)]; (split; [exact T|]; intros Q; split; [exact (H Q)|eauto]).
  - destruct (toLLCallback _ _ _); [|discriminate]. inversion S; subst. unfold same_zone; repeat split; congruence.
  - destruct (fromLLCallback _ _ _ _ _ _ _); [|discriminate]. inversion S; subst. unfold same_zone; repeat split; congruence.
Qed.

(** A usable fix before completion, with a forced zone. *)
Lemma fix_step g p junk e f n n' o z : nav_step g p junk e (EvGps f) n = Done (n', o) -> usable f ->
  nv_good n = false -> nv_manual n = false -> nv_force_zone n = true -> nv_zone n = z -> honours_zone g z ->
  nv_good n' = false /\ nv_manual n' = false /\ nv_force_zone n' = true /\ nv_zone n' = z /\
  (fix_in_zone g p z (EvGps f) -> nv_has_gps n' = true /\ datum_from g p z f n') /\
  (~ fix_in_zone g p z (EvGps f) -> same_zone n n').
Proof.
  intros S U G M F Z HZ. cbn [nav_step] in S. unfold gpsFixCallback in S.
  rewrite (proj2 (good_gps_usable f) U) in S. cbn [nv_good nv_manual set_gps_frame] in S. rewrite G, M in S. cbn [negb andb] in S.
  destruct (g_forward g (fx_lat f) (fx_lon f) (-1)) as [[[[[z0 np0] x0] y0] gm0]|]; [|discriminate].
  inversion S; subst n' o; clear S. unfold setTransformGps, datum_from, fix_in_zone.
  destruct (p_local p) eqn:L.
  - assert (C : exists f0, EvGps f = EvGps f0 /\ usable f0 /\ (true = true \/ exists r, g_forward g (fx_lat f0) (fx_lon f0) z = Some r)) by eauto 6.
    destruct (g_local _ _ _ _ _ _) as (x, y). cbn. split; [exact G|]. split; [exact M|]. split; [exact F|]. split; [exact Z|].
    split; [|intros N; contradiction]. intros _. repeat split.
  - cbn [nv_force_zone nv_zone set_gps_frame]. rewrite F, Z.
    destruct (g_forward g (fx_lat f) (fx_lon f) z) as [[[[[z' np] x] y] gm]|] eqn:Q.
    + assert (C : exists f0, EvGps f = EvGps f0 /\ usable f0 /\ (false = true \/ exists r, g_forward g (fx_lat f0) (fx_lon f0) z = Some r))
        by (exists f; eauto 6).
      pose proof (HZ _ _ _ _ _ _ _ Q) as ->. cbn. split; [exact G|]. split; [exact M|]. split; [exact F|]. split; [reflexivity|].
      split; [|intros N; contradiction]. intros _. split; [reflexivity|]. exists x, y, gm. auto.
    + cbn. unfold same_zone. cbn. split; [exact G|]. split; [exact M|]. split; [exact F|]. split; [exact Z|].
      split; [|intros _; repeat split].
      intros (f' & E & _ & [H|(r & H)]); inversion E; subst; congruence.
Qed.

Definition zone_done g p z (later : @trace K) n : Prop :=
  exists a e now b ef f, later = a ++ (e, EvTick now) :: b /\ last_with (fix_in_zone g p z) a (ef, EvGps f) /\ datum_from g p z f n.
Definition zone_waiting g p z (later : @trace K) n : Prop :=
  nv_manual n = false /\ nv_force_zone n = true /\ nv_zone n = z /\
  (nv_has_gps n = true <-> some_event (fix_in_zone g p z) later) /\
  forall e f, last_with (fix_in_zone g p z) later (e, EvGps f) -> datum_from g p z f n.

Lemma zone_run g p junk z e0 s n0 n1 o1 : nav_step g p junk e0 (EvZone s) n0 = Done (n1, o1) ->
  (exists northp, g_mgrs g s = Some (z, northp)) -> honours_zone g z ->
  forall later n2 l, nav_run g p junk later n1 = Done (n2, l) -> no_request later ->
  if nv_good n2 then zone_done g p z later n2 else zone_waiting g p z later n2.
Proof.
  intros S0 (np & GM) HZ later. cbn [nav_step] in S0. unfold setUTMZoneCallback in S0. rewrite GM in S0. inversion S0; subst n1 o1; clear S0.
  induction later as [|(e, ev) later IH] using rev_ind; intros n2 l H N.
  - cbn in H. inversion H; subst. cbn. repeat split; try discriminate.
    + intros (x & [] & _).
    + intros e f Hl. exfalso. eapply last_nil; eassumption.
  - apply run_snoc in H as (n & outs & o & A & S & ->).
    assert (N' : no_request later) by (intros x Hx; apply N; apply in_or_app; auto).
    assert (NR : ~ is_request ev) by (apply (N (e, ev)); apply in_or_app; right; left; reflexivity).
    specialize (IH _ _ A N'). destruct (nv_good n) eqn:G.
    + pose proof (good_step _ _ _ _ _ _ _ _ S G NR) as T. assert (G2 : nv_good n2 = true) by (destruct T as (-> & _); exact G).
      rewrite G2. destruct IH as (a & e1 & now & b & ef & f & -> & L & D). exists a, e1, now, (b ++ [(e, ev)]), ef, f.
      rewrite <- app_assoc. split; [reflexivity|]. split; [exact L|].
      unfold same_transform in T. unfold datum_from in *. destruct T as (_ & _ & _ & -> & -> & -> & -> & _ & -> & _). exact D.
    + destruct IH as (M & F & Z & HG & HD). destruct (usable_dec ev) as [(f & -> & U)|NU].
      * destruct (fix_step _ _ _ _ _ _ _ _ z S U G M F Z HZ) as (G2 & M2 & F2 & Z2 & C1 & C2). rewrite G2.
        destruct (fix_in_zone_dec g p z (EvGps f)) as [C|C].
        -- destruct (C1 C) as (HG2 & D2). repeat split; auto.
           ++ intros _. apply some_snoc. right. exact C.
           ++ intros e' f' Hl. apply last_snoc in Hl as [(_ & Q)|(Q & _)]; [|contradiction]. inversion Q; subst. exact D2.
        -- specialize (C2 C). repeat split; auto.
           ++ intros Q. apply some_snoc. left. apply HG. destruct C2 as (_ & _ & _ & _ & _ & <- & _). exact Q.
           ++ intros Q. apply some_snoc in Q as [Q|Q]; [|contradiction]. destruct C2 as (_ & _ & _ & _ & _ & -> & _). apply HG. exact Q.
           ++ intros e' f' Hl. apply last_snoc in Hl as [(Q & _)|(_ & Q)]; [contradiction|]. eapply datum_from_same; eauto.
      * destruct (other_step _ _ _ _ _ _ _ _ S G M NR NU) as (T & H).
        assert (NZ : ~ fix_in_zone g p z ev).
        { intros (f & -> & U & _). apply NU. exists f. auto. }
        destruct (nv_good n2) eqn:G2.
        -- destruct (H eq_refl) as (HG1 & now & ->).
           apply HG in HG1. destruct (last_exists (fix_in_zone g p z) (fix_in_zone_dec g p z) later) as ((ef, evf) & L); [exact HG1|].
           destruct (last_In _ _ _ L) as (_ & (f & Ef & _)). cbn in Ef. subst evf.
           exists later, e, now, [], ef, f. split; [reflexivity|]. split; [exact L|]. eapply datum_from_same; eauto.
        -- pose proof T as (_ & _ & _ & T4 & _ & T6 & T7 & T8). repeat split; try congruence.
           ++ intros Q. apply some_snoc. left. apply HG. congruence.
           ++ intros Q. apply some_snoc in Q as [Q|Q]; [|contradiction]. rewrite T6. apply HG. exact Q.
           ++ intros e' f' Hl. apply last_snoc in Hl as [(Q & _)|(_ & Q)]; [contradiction|]. eapply datum_from_same; eauto.
Qed.

(** Odometry and an orientation, once recorded, stay recorded; a good transform
    means that both are. *)
Definition data_inv n : Prop := nv_good n = true -> nv_has_odom n = true /\ nv_has_imu n = true.
Definition data_kept n n' : Prop :=
  (nv_has_odom n = true -> nv_has_odom n' = true) /\ (nv_has_imu n = true -> nv_has_imu n' = true).
Lemma setGps_data g p lat lon alt n : let n' := setTransformGps g p lat lon alt n in
  nv_has_odom n' = nv_has_odom n /\ nv_has_imu n' = nv_has_imu n /\ nv_good n' = nv_good n.
Proof. cbn zeta. destruct (setGps_cases g p lat lon alt n) as [->|(v & l & z & np & c & ->)]; cbn; auto. Qed.
Lemma navImu_data e s f q n : let n' := navImuCallback e s f q n in data_kept n n' /\ nv_good n' = nv_good n.
Proof.
  cbn zeta. destruct (navImu_keeps e s f q n) as (q' & h & -> & H). unfold data_kept. cbn. auto.
Qed.
Lemma setOdom_data e p s c v q n : let n' := setTransformOdometry e p s c v q n in data_kept n n' /\ nv_good n' = nv_good n.
Proof. cbn zeta. destruct (setOdom_shape e p s c v q n) as (q' & h & -> & H). unfold data_kept. cbn. auto. Qed.
Lemma compute_data e g p now n : let n' := fst (computeTransform e g p now n) in
  data_kept n n' /\ (nv_good n = false -> nv_good n' = true -> nv_has_odom n' = true /\ nv_has_imu n' = true).
Proof.
  cbn zeta. unfold computeTransform.
  set (m := if (negb (nv_good n) && nv_has_odom n && nv_manual n)%bool then setManualDatum e g p n else n).
  assert (T : data_kept n m /\ nv_good m = nv_good n).
  { subst m. destruct (negb (nv_good n) && nv_has_odom n && nv_manual n)%bool; [|unfold data_kept; auto].
    unfold setManualDatum. cbv zeta.
    match goal with |- data_kept n (navImuCallback ?a ?b ?c ?d ?x) /\ _ => destruct (navImu_data a b c d x) as ((A1 & A2) & A3) end.
    match goal with |- context [setTransformOdometry ?a ?b ?c ?d ?x ?y ?w] => destruct (setOdom_data a b c d x y w) as ((B1 & B2) & B3) end.
    match goal with |- context [setTransformGps ?a ?b ?c ?d ?x ?w] => destruct (setGps_data a b c d x w) as (C1 & C2 & C3) end.
    rewrite A3, B3, C3. split; [|reflexivity]. split; intros Q; [apply A1, B1; rewrite C1; exact Q|apply A2, B2; rewrite C2; exact Q]. }
  destruct T as (T & TG).
  destruct (negb (nv_good m) && nv_has_odom m && nv_has_gps m && nv_has_imu m)%bool eqn:B.
  - rewrite !andb_true_iff in B. cbn. split; [exact T|]. intros _ _. tauto.
  - cbn. split; [exact T|]. intros G. rewrite TG, G. discriminate.
Qed.
Lemma data_step g p junk e ev n n' o : nav_step g p junk e ev n = Done (n', o) -> data_inv n -> data_kept n n' /\ data_inv n'.
Proof.
  intros S Hi. unfold data_inv in *.
  assert (K1 : forall m, nv_good m = nv_good n -> data_kept n m -> data_kept n m /\ (nv_good m = true -> nv_has_odom m = true /\ nv_has_imu m = true)).
  { intros m E (Q1 & Q2). split; [split; assumption|]. rewrite E. intros Q. destruct (Hi Q). auto. }
  destruct ev as [m|m|m|now|d|s|v|lat lon alt]; cbn [nav_step] in S.
  - unfold gpsFixCallback in S. destruct (good_gps m).
    + destruct (g_forward g (fx_lat m) (fx_lon m) (-1)) as [[[[[z np] x] y] gm]|]; [|discriminate]. inversion S; subst. cbn [set_gps_frame nv_good nv_manual].
      apply K1; destruct (_ && _)%bool; cbn; unfold data_kept; cbn; auto;
        destruct (setGps_data g p (fx_lat m) (fx_lon m) (fx_alt m) (set_gps_frame (fx_frame m) n)) as (A1 & A2 & A3); cbn in *; rewrite ?A1, ?A2, ?A3; auto.
    + inversion S; subst. apply K1; [reflexivity|split; auto].
  - inversion S; subst. destruct (nv_imu_sub n); [|apply K1; [reflexivity|split; auto]].
    destruct (navImu_data e (im_stamp m) (im_frame m) (im_orientation m) n). apply K1; assumption.
  - inversion S; subst. unfold odomCallback. change (nv_good (set_frames _ _ n)) with (nv_good n).
    destruct (nv_good n) eqn:G.
    + apply K1; [exact G|split; auto].
    + destruct (setOdom_data e p (o_stamp m) (o_child m) (o_position m) (o_orientation m) (set_frames (o_frame m) (o_child m) n)) as (A & B).
      cbn in B. apply K1; [cbn; rewrite B; exact G|exact A].
  - destruct (tick_cases _ _ _ _ _ _ _ S) as [(G & _ & m & C & D)|(G & D)].
    + destruct (compute_data e g p now n) as (A & B). rewrite C in A, B. cbn [fst] in A, B.
      destruct D as [->|(-> & _)]; (split; [exact A|exact (B G)]).
    + cbn zeta in D.
      assert (T : same_transform n n' /\ data_kept n n').
      { split; [apply (good_step g p junk e (EvTick now) n n' o S G); exact (fun x => x)|].
        destruct (prepareGps_cases e p n) as [(_ & _ & OU & c & m & Q)|(_ & Q)]; rewrite Q in D; cbn [fst snd app] in D;
        destruct D as [(_ & _ & ->)|[(_ & OF & _ & ->)|(_ & _ & m' & c' & _ & ->)]]; unfold data_kept; cbn; auto. }
      destruct T as ((E & _) & T). apply K1; assumption.
  - inversion S; subst. cbn. split; [split; auto|discriminate].
  - unfold setUTMZoneCallback in S. destruct (g_mgrs g s) as [(z, np)|]; inversion S; subst. cbn. split; [split; auto|discriminate].
  - destruct (toLLCallback _ _ _); [|discriminate]. inversion S; subst. apply K1; [reflexivity|split; auto].
  - destruct (fromLLCallback _ _ _ _ _ _ _); [|discriminate]. inversion S; subst. apply K1; [reflexivity|split; auto].
Qed.
Lemma data_run g p junk evs : forall n n' l, nav_run g p junk evs n = Done (n', l) -> data_inv n -> data_kept n n' /\ data_inv n'.
Proof.
  induction evs as [|(e, ev) evs IH]; intros n n' l H Hi; cbn [nav_run] in H.
  - inversion H; subst. split; [split; auto|exact Hi].
  - destruct (nav_step g p junk e ev n) as [(n1, o)|] eqn:S; [|discriminate].
    destruct (nav_run g p junk evs n1) as [(n2, os)|] eqn:R; [|discriminate]. inversion H; subst.
    destruct (data_step _ _ _ _ _ _ _ _ S Hi) as ((A1 & A2) & B). destruct (IH _ _ _ R B) as ((C1 & C2) & D).
    split; [split; auto|exact D].
Qed.

(** ** The claims *)
(** A transform completed after the request rests on a fix received since, the
    last one that projects into the requested zone. *)
Theorem zone_datum g p junk z e0 s n0 n1 o1 : nav_step g p junk e0 (EvZone s) n0 = Done (n1, o1) ->
  (exists northp, g_mgrs g s = Some (z, northp)) -> honours_zone g z ->
  forall later n2 l, nav_run g p junk later n1 = Done (n2, l) -> no_request later -> nv_good n2 = true ->
  exists a e now b ef f, later = a ++ (e, EvTick now) :: b /\ last_with (fix_in_zone g p z) a (ef, EvGps f) /\ datum_from g p z f n2.
Proof. intros S0 GM HZ later n2 l H N G. pose proof (zone_run _ _ _ _ _ _ _ _ _ S0 GM HZ _ _ _ H N) as Q. rewrite G in Q. exact Q. Qed.

(** A node that had a transform gets a new one exactly when such a fix has come. *)
Theorem zone_completes g p u junk z evs n0 outs e0 s n1 o1 : execution g p u junk evs n0 outs -> nv_good n0 = true ->
  nav_step g p junk e0 (EvZone s) n0 = Done (n1, o1) -> (exists northp, g_mgrs g s = Some (z, northp)) -> honours_zone g z ->
  forall later n2 l e now n3 o, nav_run g p junk later n1 = Done (n2, l) -> no_request later -> nv_good n2 = false ->
  nav_step g p junk e (EvTick now) n2 = Done (n3, o) ->
  (nv_good n3 = true <-> some_event (fix_in_zone g p z) later).
Proof.
  intros HE G0 S0 GM HZ later n2 l e now n3 o H N G S.
  pose proof (zone_run _ _ _ _ _ _ _ _ _ S0 GM HZ _ _ _ H N) as Q. rewrite G in Q. destruct Q as (M & _ & _ & HG & _).
  assert (I0 : data_inv (nav_init p u)) by (unfold data_inv, nav_init; cbn; discriminate).
  destruct (data_run _ _ _ _ _ _ _ HE I0) as (_ & I1). destruct (I1 G0) as (O0 & M0).
  destruct (data_step _ _ _ _ _ _ _ _ S0 I1) as ((A1 & A2) & I2). destruct (data_run _ _ _ _ _ _ _ H I2) as ((B1 & B2) & _).
  cbn [nav_step] in S. rewrite (tick_good _ _ _ _ _ _ _ S G), (compute_auto e g p now n2 G M), (B1 (A1 O0)), (B2 (A2 M0)), andb_true_r.
  cbn. exact HG.
Qed.

End Generic.
