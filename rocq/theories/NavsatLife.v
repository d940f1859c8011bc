(** * Life cycle of the datum *)

From Coq Require Import ZArith List Bool String Lia Arith.
From Verif Require Import Scalar Mat FilterBase Tf StrMap RosFilter RosPrepare Navsat SpecTf SpecPrepare SpecNavsat PrepareProofs NavsatProofs NavsatTrace.
Import ListNotations.
Local Open Scope list_scope.

Section Generic.
Context {K : Scalar}.
Implicit Types (g : geolib K) (p : nav_params K) (n : nav K) (e : penv K) (ev : nav_event K).

(** ** Before the transform is good *)
Lemma not_good_outputs g p junk e ev n n' o : nav_step g p junk e ev n = Done (n', o) -> nv_good n = false ->
  forall x, In x o -> (exists t, x = PubTf t) \/ x = AnsLL None \/ x = AnsMap None.
Proof.
  destruct ev; cbn [nav_step]; intros H G x I.
  - destruct (gpsFixCallback _ _ _ _); inversion H; subst; destruct I.
  - inversion H; subst; destruct I.
  - inversion H; subst; destruct I.
  - destruct (tick_cases _ _ _ _ _ _ _ H) as [(_ & O & _)|(G' & D)]; [left; exact (O _ I)|congruence].
  - inversion H; subst; destruct I.
  - destruct (setUTMZoneCallback _ _ _); inversion H; subst; destruct I.
  - unfold toLLCallback in H. rewrite G in H. inversion H; subst. destruct I as [<-|[]]. auto.
  - unfold fromLLCallback in H. rewrite G in H. destruct (p_local p).
    + destruct (g_local _ _ _ _ _ _). inversion H; subst. destruct I as [<-|[]]. auto.
    + destruct (g_forward _ _ _ _) as [[[[[? ?] ?] ?] ?]|]; inversion H; subst. destruct I as [<-|[]]. auto.
Qed.

Lemma request_clears g p junk e ev n n' o : nav_step g p junk e ev n = Done (n', o) -> is_request ev -> nv_good n' = false.
Proof.
  destruct ev; cbn [nav_step is_request]; intros H R; try contradiction.
  - inversion H; subst; reflexivity.
  - unfold setUTMZoneCallback in H. destruct (g_mgrs g zone) as [(z, np)|]; inversion H; subst; reflexivity.
Qed.

(** ** Once the transform is good *)
Definition same_transform n n' : Prop :=
  nv_good n' = nv_good n /\ nv_cw n' = nv_cw n /\ nv_cwi n' = nv_cwi n /\ nv_zone n' = nv_zone n /\
  nv_northp n' = nv_northp n /\ nv_convergence n' = nv_convergence n /\ nv_local n' = nv_local n /\
  nv_manual n' = nv_manual n /\ nv_cart n' = nv_cart n /\ nv_world n' = nv_world n.
Lemma good_step g p junk e ev n n' o : nav_step g p junk e ev n = Done (n', o) -> nv_good n = true -> ~ is_request ev ->
  same_transform n n'.
Proof.
  destruct ev; cbn [nav_step is_request]; intros H G R; try (exfalso; apply R; exact I).
  - unfold gpsFixCallback in H. destruct (good_gps m).
    + cbn in H. rewrite G in H. cbn in H.
      destruct (g_forward g (fx_lat m) (fx_lon m) (-1)) as [[[[[z np] x] y] gm]|]; [|discriminate].
      inversion H; subst. unfold same_transform; cbn; repeat split.
    + inversion H; subst. unfold same_transform; cbn; repeat split.
  - inversion H; subst. destruct (nv_imu_sub n); [|unfold same_transform; repeat split].
    destruct (navImu_keeps e (im_stamp m) (im_frame m) (im_orientation m) n) as (q & h & -> & _).
    unfold same_transform; cbn; repeat split.
  - inversion H; subst. unfold odomCallback. change (nv_good (set_frames _ _ n)) with (nv_good n). rewrite G.
    unfold same_transform; cbn; repeat split.
  - destruct (tick_cases _ _ _ _ _ _ _ H) as [(G' & _)|(_ & D)]; [congruence|]. cbn zeta in D.
    destruct (prepareGps_cases e p n) as [(_ & _ & OU & c & m & Q)|(_ & Q)]; rewrite Q in D; cbn [fst snd app] in D;
    destruct D as [(_ & _ & ->)|[(_ & OF & _ & ->)|(_ & _ & m' & c' & _ & ->)]]; unfold same_transform; cbn; repeat split.
  - destruct (toLLCallback _ _ _); inversion H; subst. unfold same_transform; repeat split.
  - destruct (fromLLCallback _ _ _ _ _ _ _); inversion H; subst. unfold same_transform; repeat split.
Qed.
Lemma good_run g p junk evs n n' l : nav_run g p junk evs n = Done (n', l) -> nv_good n = true -> no_request evs ->
  same_transform n n' /\ nv_good n' = true.
Proof.
  revert n l; induction evs as [|(e, ev) r IH]; intros n l; cbn [nav_run]; intros H G N.
  - inversion H; subst. split; [unfold same_transform; repeat split|exact G].
  - destruct (nav_step g p junk e ev n) as [(n1, o)|] eqn:S; [|discriminate].
    destruct (nav_run g p junk r n1) as [(n2, os)|] eqn:R; [|discriminate]. inversion H; subst.
    assert (S1 : same_transform n n1).
    { eapply good_step; eauto. apply (N (e, ev)). left; reflexivity. }
    assert (G1 : nv_good n1 = true) by (destruct S1 as (-> & _); exact G).
    destruct (IH _ _ R G1) as (S2 & G2); [intros x Hx; apply N; right; exact Hx|].
    split; [|exact G2]. unfold same_transform in *. intuition congruence.
Qed.

(** ** Completion *)
Definition projects g p (lat lon alt : K) (zone : Z) : Prop :=
  p_local p = true \/ g_forward g lat lon zone <> None.
Lemma setGps_has g p lat lon alt n :
  nv_has_gps (setTransformGps g p lat lon alt n) =
  (nv_has_gps n || p_local p ||
   match g_forward g lat lon (if nv_force_zone n then nv_zone n else (-1)%Z) with Some _ => true | None => false end)%bool.
Proof.
  unfold setTransformGps. destruct (p_local p).
  - destruct (g_local _ _ _ _ _ _). cbn. now rewrite orb_true_r.
  - destruct (g_forward _ _ _ _) as [[[[[z np] x] y] gm]|]; cbn; now rewrite ?orb_true_r, ?orb_false_r.
Qed.

Lemma tick_not_good e g p now n : nv_good n = false -> exists n' o, transformCallback e g p now n = Done (n', o).
Proof.
  intros G. unfold transformCallback. rewrite G. destruct (computeTransform _ _ _ _ _). eauto.
Qed.
Lemma compute_auto e g p now n : nv_good n = false -> nv_manual n = false ->
  nv_good (fst (computeTransform e g p now n)) = (nv_has_odom n && nv_has_gps n && nv_has_imu n)%bool.
Proof.
  intros G M. unfold computeTransform. rewrite G, M, andb_false_r, G. cbn [negb andb].
  destruct (nv_has_odom n && nv_has_gps n && nv_has_imu n)%bool; [reflexivity|exact G].
Qed.
Lemma manual_has_gps e g p n : nv_has_gps (setManualDatum e g p n) =
  nv_has_gps (setTransformGps g p (gp_lat (nv_datum n)) (gp_lon (nv_datum n)) (gp_alt (nv_datum n)) n).
Proof.
  unfold setManualDatum. cbn zeta.
  match goal with |- nv_has_gps (navImuCallback ?e ?s ?f ?q ?m) = _ => destruct (navImu_keeps e s f q m) as (q' & h & -> & _) end.
  match goal with |- context [setTransformOdometry ?e ?p ?s ?c ?v ?q ?m] => destruct (setOdom_shape e p s c v q m) as (q2 & h2 & -> & _) end.
  reflexivity.
Qed.
Lemma compute_manual e g p now n : nv_good n = false -> nv_manual n = true ->
  nv_good (fst (computeTransform e g p now n)) =
  (nv_has_odom n &&
   (nv_has_gps n || p_local p ||
    match g_forward g (gp_lat (nv_datum n)) (gp_lon (nv_datum n)) (if nv_force_zone n then nv_zone n else (-1)%Z)
    with Some _ => true | None => false end))%bool.
Proof.
  intros G M. unfold computeTransform. rewrite G, M, andb_true_r. cbn [negb andb].
  destruct (nv_has_odom n) eqn:O; cbn [andb].
  - pose proof (manual_keeps e g p n) as S. cbn in S. destruct S as (_ & _ & G' & _ & _ & _ & O' & _ & _ & _ & _ & _ & _ & I').
    rewrite G', G, O', I', manual_has_gps, setGps_has, andb_true_r. cbn [negb andb].
    match goal with |- context [if ?b then _ else _] => destruct b eqn:B end; cbn; [reflexivity|].
    rewrite G', G. reflexivity.
  - rewrite G, O. cbn. exact G.
Qed.
Lemma tick_good e g p now n n' o : transformCallback e g p now n = Done (n', o) -> nv_good n = false ->
  nv_good n' = nv_good (fst (computeTransform e g p now n)).
Proof.
  intros H G. destruct (tick_cases _ _ _ _ _ _ _ H) as [(_ & _ & m & C & [->|(-> & _)])|(G' & _)]; [| |congruence];
    rewrite C; reflexivity.
Qed.

(** ** Without requests: what has been recorded *)
Lemma last_snoc (P : nav_event K -> Prop) (evs : @trace K) x y : last_with P (evs ++ [x]) y <->
  (P (snd x) /\ y = x) \/ (~ P (snd x) /\ last_with P evs y).
Proof.
  split.
  - intros (a & b & E & Py & N). destruct b as [|z b _] using rev_ind.
    + apply app_inj_tail in E as (E & <-). left. auto.
    + assert (E' : evs ++ [x] = (a ++ y :: b) ++ [z]) by (rewrite <- app_assoc; exact E).
      apply app_inj_tail in E' as (-> & <-). right. split.
      * apply N. apply in_or_app. right; left; reflexivity.
      * exists a, b. split; [reflexivity|]. split; [exact Py|]. intros w Hw. apply N. apply in_or_app. auto.
  - intros [(Px & ->)|(Nx & a & b & -> & Py & N)].
    + exists evs, []. split; [reflexivity|]. split; [exact Px|]. intros ? [].
    + exists a, (b ++ [x]). split; [now rewrite <- app_assoc|]. split; [exact Py|].
      intros w Hw. apply in_app_or in Hw as [Hw|[<-|[]]]; auto.
Qed.
Lemma last_nil (P : nav_event K -> Prop) (y : penv K * nav_event K) : ~ last_with P [] y.
Proof. intros (a & b & E & _). destruct a; discriminate. Qed.
Lemma last_In (P : nav_event K -> Prop) evs (y : penv K * nav_event K) : last_with P evs y -> In y evs /\ P (snd y).
Proof. intros (a & b & -> & Py & _). split; [apply in_or_app; right; left; reflexivity|exact Py]. Qed.
Lemma last_exists (P : nav_event K -> Prop) (dec : forall ev, P ev \/ ~ P ev) (evs : @trace K) :
  (exists x, In x evs /\ P (snd x)) -> exists y, last_with P evs y.
Proof.
  induction evs as [|x evs IH] using rev_ind; intros (y & I & Py); [destruct I|].
  destruct (dec (snd x)) as [Px|Nx].
  - exists x. apply last_snoc. auto.
  - apply in_app_or in I as [I|[->|[]]]; [|contradiction]. destruct IH as (z & Z); [eauto|]. exists z. apply last_snoc. auto.
Qed.
Lemma usable_dec ev : usable_fix ev \/ ~ usable_fix ev.
Proof.
  destruct ev as [m| | | | | | |]; try (right; intros (f & Q & _); discriminate).
  destruct (good_gps m) eqn:G.
  - left. exists m. split; [reflexivity|now apply good_gps_usable].
  - right. intros (f & Q & U). inversion Q; subst. apply good_gps_usable in U. congruence.
Qed.
Lemma odometry_dec ev : odometry ev \/ ~ odometry ev.
Proof. destruct ev as [m|m|m| | | | |]; try (right; intros (f & Q); discriminate). left. exists m. reflexivity. Qed.

Definition some_event (P : nav_event K -> Prop) (evs : @trace K) : Prop := exists x, In x evs /\ P (snd x).
Lemma some_snoc (P : nav_event K -> Prop) evs x : some_event P (evs ++ [x]) <-> some_event P evs \/ P (snd x).
Proof.
  split.
  - intros (y & I & Py). apply in_app_or in I as [I|[->|[]]]; [left; exists y; auto|right; exact Py].
  - intros [(y & I & Py)|Px]; [exists y|exists x]; split; auto; apply in_or_app; [auto|right; left; reflexivity].
Qed.

(** The datum as projected. *)
Definition datum_recorded g p (f : fix_msg K) n : Prop :=
  if p_local p then
    t_origin (nv_cart n) = mkV3 (fst (g_local g (fx_lat f) (fx_lon f) (fx_lat f) (fx_lon f) (fx_alt f)))
                                (snd (g_local g (fx_lat f) (fx_lon f) (fx_lat f) (fx_lon f) (fx_alt f))) (fx_alt f) /\
    nv_local n = (fx_lat f, fx_lon f) /\ nv_convergence n = s_ofZ 0
  else exists x y gamma,
    g_forward g (fx_lat f) (fx_lon f) (-1) = Some (nv_zone n, nv_northp n, x, y, gamma) /\
    t_origin (nv_cart n) = mkV3 x y (fx_alt f) /\
    nv_convergence n = s_mul gamma (s_div s_pi (lit 180 0)).
Lemma setGps_recorded g p f n : nv_force_zone n = false ->
  g_forward g (fx_lat f) (fx_lon f) (-1) <> None ->
  let n' := setTransformGps g p (fx_lat f) (fx_lon f) (fx_alt f) n in
  datum_recorded g p f n' /\ nv_has_gps n' = true.
Proof.
  intros F N. cbn zeta. unfold setTransformGps, datum_recorded. destruct (p_local p).
  - destruct (g_local _ _ _ _ _ _) as (x, y). cbn. auto.
  - rewrite F. destruct (g_forward _ _ _ _) as [[[[[z np] x] y] gm]|] eqn:Q; [|congruence]. cbn.
    split; [|reflexivity]. exists x, y, gm. auto.
Qed.
(** The datum part of the state. *)
Definition same_datum n n' : Prop :=
  nv_cart n' = nv_cart n /\ nv_local n' = nv_local n /\ nv_convergence n' = nv_convergence n /\
  nv_zone n' = nv_zone n /\ nv_northp n' = nv_northp n /\ nv_has_gps n' = nv_has_gps n.
Lemma datum_recorded_same g p f n n' : same_datum n n' -> datum_recorded g p f n -> datum_recorded g p f n'.
Proof. unfold same_datum, datum_recorded. intros (-> & -> & -> & -> & -> & _). exact (fun x => x). Qed.

Record recorded g p (evs : @trace K) n : Prop := {
  rec_manual : nv_manual n = false;
  rec_force : nv_force_zone n = false;
  rec_odom : nv_has_odom n = true <-> some_event odometry evs;
  rec_gps : nv_has_gps n = true <-> some_event usable_fix evs;
  rec_good : nv_good n = true -> nv_has_odom n = true /\ nv_has_gps n = true;
  rec_frame : forall e m, last_with any_fix evs (e, EvGps m) -> nv_gps_frame n = fx_frame m;
  rec_frames : forall e m, last_with odometry evs (e, EvOdom m) -> nv_world_frame n = o_frame m /\ nv_base_frame n = o_child m;
  rec_world : nv_good n = false -> forall e m, last_with odometry evs (e, EvOdom m) ->
    nv_world n = t_of (o_orientation m) (o_position m);
  rec_datum : nv_good n = false -> forall e f, last_with usable_fix evs (e, EvGps f) -> datum_recorded g p f n
}.

Lemma recorded_same g p evs e ev n n' : recorded g p evs n ->
  ~ usable_fix ev -> ~ odometry ev -> ~ any_fix ev ->
  nv_manual n' = nv_manual n -> nv_force_zone n' = nv_force_zone n -> nv_has_odom n' = nv_has_odom n ->
  nv_gps_frame n' = nv_gps_frame n -> nv_world_frame n' = nv_world_frame n -> nv_base_frame n' = nv_base_frame n ->
  same_datum n n' -> nv_world n' = nv_world n ->
  (nv_good n' = false -> nv_good n = false) ->
  (nv_good n' = true -> nv_has_odom n = true /\ nv_has_gps n = true) ->
  recorded g p (evs ++ [(e, ev)]) n'.
Proof.
  intros R U O F Em Ef Eo Eg Ew Eb D Ewd G1 G2. destruct R. constructor.
  - congruence.
  - congruence.
  - rewrite Eo, rec_odom0, some_snoc. cbn [snd]. tauto.
  - destruct D as (_ & _ & _ & _ & _ & ->). rewrite rec_gps0, some_snoc. cbn [snd]. tauto.
  - intros G. destruct D as (_ & _ & _ & _ & _ & ->). rewrite Eo. auto.
  - intros e' m H. apply last_snoc in H as [(H & _)|(_ & H)]; [contradiction|]. rewrite Eg. eauto.
  - intros e' m H. apply last_snoc in H as [(H & _)|(_ & H)]; [contradiction|]. rewrite Ew, Eb. eauto.
  - intros G e' m H. apply last_snoc in H as [(H & _)|(_ & H)]; [contradiction|]. rewrite Ewd. eauto.
  - intros G e' m H. apply last_snoc in H as [(H & _)|(_ & H)]; [contradiction|]. eapply datum_recorded_same; eauto.
Qed.

Lemma good_or n : nv_good n = true \/ nv_good n = false.
Proof. destruct (nv_good n); auto. Qed.
Lemma execution_recorded g p u junk evs n outs : execution g p u junk evs n outs -> p_manual p = false -> no_request evs ->
  recorded g p evs n.
Proof.
  intros H PM N. revert n outs H; induction evs as [|(e, ev) evs IH] using rev_ind; intros n' l H.
  - apply execution_nil in H as (-> & ->). constructor; cbn; try exact PM; try reflexivity; try discriminate;
      try (intros; exfalso; eapply last_nil; eassumption); try (intros _; intros; exfalso; eapply last_nil; eassumption).
    + split; [discriminate|intros (x & [] & _)].
    + split; [discriminate|intros (x & [] & _)].
  - apply execution_snoc in H as (n & outs & o & A & S & ->).
    assert (N' : no_request evs) by (intros x Hx; apply N; apply in_or_app; auto).
    assert (NR : ~ is_request ev) by (apply (N (e, ev)); apply in_or_app; right; left; reflexivity).
    specialize (IH N' _ _ A). clear A.
    destruct ev as [m|m|m|now|d|z|v|lat lon alt]; cbn [nav_step] in S.
    + unfold gpsFixCallback in S. destruct (good_gps m) eqn:GG.
      * apply good_gps_usable in GG. pose proof (rec_manual _ _ _ _ IH) as RM. pose proof (rec_force _ _ _ _ IH) as RF.
        change (nv_good (set_gps_frame (fx_frame m) n)) with (nv_good n) in S.
        change (nv_manual (set_gps_frame (fx_frame m) n)) with (nv_manual n) in S. rewrite RM, andb_true_r in S.
        destruct (g_forward g (fx_lat m) (fx_lon m) (-1)) as [[[[[z np] x] y] gm]|] eqn:F; [|discriminate].
        assert (UF : usable_fix (EvGps m)) by (exists m; auto).
        assert (NO : ~ odometry (EvGps m)) by (intros (q & Q); discriminate).
        assert (AF : any_fix (EvGps m)) by (exists m; auto).
        destruct (setGps_recorded g p m (set_gps_frame (fx_frame m) n) RF) as (DR & HG); [congruence|].
        destruct (setGps_cases g p (fx_lat m) (fx_lon m) (fx_alt m) (set_gps_frame (fx_frame m) n)) as [SE|(v & l & z' & np' & c & SE)].
        -- (* unchanged: only when the state already held it *)
           rewrite SE in *. destruct IH.
           destruct (good_or n) as [G|G]; rewrite G in S; cbn [negb] in S; inversion S; subst; constructor; cbn; try assumption.
           ++ rewrite rec_odom0, some_snoc. cbn [snd]. tauto.
           ++ rewrite some_snoc. cbn [snd]. split; [auto|]. intros _. apply rec_good0; exact G.
           ++ intros e' f H. apply last_snoc in H as [(_ & H)|(H & _)]; [inversion H; reflexivity|contradiction].
           ++ intros e' f H. apply last_snoc in H as [(H & _)|(_ & H)]; [contradiction|]. eauto.
           ++ congruence.
           ++ congruence.
           ++ rewrite rec_odom0, some_snoc. cbn [snd]. tauto.
           ++ rewrite some_snoc. cbn [snd]. split; [auto|]. intros _. exact HG.
           ++ intros e' f H. apply last_snoc in H as [(_ & H)|(H & _)]; [inversion H; reflexivity|contradiction].
           ++ intros e' f H. apply last_snoc in H as [(H & _)|(_ & H)]; [contradiction|]. eauto.
           ++ intros _ e' f H. apply last_snoc in H as [(H & _)|(_ & H)]; [contradiction|]. eauto.
           ++ intros _ e' f H. apply last_snoc in H as [(_ & H)|(H & _)]; [|contradiction]. inversion H; subst.
              eapply datum_recorded_same; [|exact DR]. unfold same_datum; cbn; repeat split.
        -- destruct IH.
           destruct (good_or n) as [G|G]; rewrite G in S; cbn [negb] in S; inversion S; subst; constructor; cbn; try assumption.
           ++ rewrite rec_odom0, some_snoc. cbn [snd]. tauto.
           ++ rewrite some_snoc. cbn [snd]. split; [auto|]. intros _. apply rec_good0; exact G.
           ++ intros e' f H. apply last_snoc in H as [(_ & H)|(H & _)]; [inversion H; reflexivity|contradiction].
           ++ intros e' f H. apply last_snoc in H as [(H & _)|(_ & H)]; [contradiction|]. eauto.
           ++ congruence.
           ++ congruence.
           ++ rewrite SE. exact RM.
           ++ rewrite SE. exact RF.
           ++ rewrite SE. cbn. rewrite rec_odom0, some_snoc. cbn [snd]. tauto.
           ++ rewrite some_snoc. cbn [snd]. split; [auto|]. intros _. exact HG.
           ++ rewrite SE. cbn. congruence.
           ++ rewrite SE. intros e' f H. apply last_snoc in H as [(_ & H)|(H & _)]; [inversion H; reflexivity|contradiction].
           ++ rewrite SE. intros e' f H. apply last_snoc in H as [(H & _)|(_ & H)]; [contradiction|]. eauto.
           ++ rewrite SE. intros _ e' f H. apply last_snoc in H as [(H & _)|(_ & H)]; [contradiction|]. cbn. eauto.
           ++ intros _ e' f H. apply last_snoc in H as [(_ & H)|(H & _)]; [|contradiction]. inversion H; subst.
              eapply datum_recorded_same; [|exact DR]. unfold same_datum; cbn; repeat split.
      * inversion S; subst. assert (NU : ~ usable_fix (EvGps m)).
        { intros (f & Q & U). inversion Q; subst. apply good_gps_usable in U. congruence. }
        assert (NO : ~ odometry (EvGps m)) by (intros (q & Q); discriminate).
        destruct IH; constructor; cbn; try assumption.
        -- rewrite rec_odom0, some_snoc. cbn [snd]. tauto.
        -- rewrite rec_gps0, some_snoc. cbn [snd]. tauto.
        -- intros e' f H. apply last_snoc in H as [(_ & H)|(H & _)]; [inversion H; reflexivity|]. exfalso; apply H. exists m; reflexivity.
        -- intros e' f H. apply last_snoc in H as [(H & _)|(_ & H)]; [contradiction|]. eauto.
        -- intros G e' f H. apply last_snoc in H as [(H & _)|(_ & H)]; [contradiction|]. eauto.
        -- intros G e' f H. apply last_snoc in H as [(H & _)|(_ & H)]; [contradiction|].
           eapply datum_recorded_same; [|eapply rec_datum0; eauto]. unfold same_datum; cbn; repeat split.
    + inversion S; subst.
      assert (X : exists q h, (if nv_imu_sub n then navImuCallback e (im_stamp m) (im_frame m) (im_orientation m) n else n) = set_orientation q h n).
      { destruct (nv_imu_sub n).
        - destruct (navImu_keeps e (im_stamp m) (im_frame m) (im_orientation m) n) as (q & h & -> & _). eauto.
        - exists (nv_orientation n), (nv_has_imu n). destruct n; reflexivity. }
      destruct X as (q & h & ->).
      apply (recorded_same _ _ _ _ _ _ _ IH); try reflexivity; try (intros (f & Q); try destruct Q as (Q & _); discriminate).
      * unfold same_datum; cbn; repeat split.
      * exact (fun x => x).
      * cbn. apply rec_good with (1 := IH).
    + inversion S; subst.
      assert (X : exists n1, odomCallback e p m n = n1 /\ nv_manual n1 = nv_manual n /\ nv_force_zone n1 = nv_force_zone n /\
        nv_world_frame n1 = o_frame m /\ nv_base_frame n1 = o_child m /\ nv_gps_frame n1 = nv_gps_frame n /\ nv_good n1 = nv_good n /\
        same_datum n n1 /\ (nv_good n = false -> nv_world n1 = t_of (o_orientation m) (o_position m)) /\
        (nv_good n = false -> nv_has_odom n1 = true) /\ (nv_good n = true -> nv_has_odom n1 = nv_has_odom n)).
      { eexists; split; [reflexivity|]. unfold odomCallback. change (nv_good (set_frames _ _ n)) with (nv_good n).
        destruct (nv_good n) eqn:G.
        - cbn. unfold same_datum; cbn. rewrite G. repeat split; congruence.
        - destruct (setOdom_shape e p (o_stamp m) (o_child m) (o_position m) (o_orientation m) (set_frames (o_frame m) (o_child m) n)) as (q & h & -> & _).
          cbn. unfold same_datum; cbn. rewrite G. repeat split; congruence. }
      destruct X as (n1 & -> & Em & Ef & Ew & Eb & Eg & EG & D & W & HO & HO').
      assert (OD : odometry (EvOdom m)) by (exists m; reflexivity).
      assert (NU : ~ usable_fix (EvOdom m)) by (intros (f & Q & _); discriminate).
      destruct IH; constructor.
      * congruence.
      * congruence.
      * rewrite some_snoc. cbn [snd]. split; [auto|]. intros _. destruct (nv_good n) eqn:G; [|auto].
        rewrite HO' by reflexivity. apply rec_good0. reflexivity.
      * destruct D as (_ & _ & _ & _ & _ & ->). rewrite rec_gps0, some_snoc. cbn [snd]. tauto.
      * rewrite EG. intros G. rewrite HO' by exact G. destruct D as (_ & _ & _ & _ & _ & ->). auto.
      * rewrite Eg. intros e' f H. apply last_snoc in H as [(H & _)|(_ & H)]; [|eauto]. destruct H as (q & Q); discriminate.
      * intros e' f H. apply last_snoc in H as [(_ & H)|(H & _)]; [|contradiction]. inversion H; subst. auto.
      * rewrite EG. intros G e' f H. apply last_snoc in H as [(_ & H)|(H & _)]; [|contradiction]. inversion H; subst. auto.
      * rewrite EG. intros G e' f H. apply last_snoc in H as [(H & _)|(_ & H)]; [contradiction|].
        eapply datum_recorded_same; eauto.
    + assert (T : forall n2, n' = n2 -> nv_manual n2 = nv_manual n /\ nv_force_zone n2 = nv_force_zone n /\ nv_has_odom n2 = nv_has_odom n /\
        nv_gps_frame n2 = nv_gps_frame n /\ nv_world_frame n2 = nv_world_frame n /\ nv_base_frame n2 = nv_base_frame n /\
        same_datum n n2 /\ nv_world n2 = nv_world n /\ (nv_good n2 = false -> nv_good n = false) /\
        (nv_good n2 = true -> nv_has_odom n = true /\ nv_has_gps n = true)).
      { intros n2 <-.
        destruct (tick_cases _ _ _ _ _ _ _ S) as [(G & _ & m & C & D)|(G & D)].
        - assert (T : nv_manual m = nv_manual n /\ nv_force_zone m = nv_force_zone n /\ nv_has_odom m = nv_has_odom n /\
        nv_gps_frame m = nv_gps_frame n /\ nv_world_frame m = nv_world_frame n /\ nv_base_frame m = nv_base_frame n /\
        same_datum n m /\ nv_world m = nv_world n /\ (nv_good m = true -> nv_has_odom n = true /\ nv_has_gps n = true)).
          { unfold computeTransform in C. rewrite (rec_manual _ _ _ _ IH), andb_false_r in C.
            destruct (negb (nv_good n) && nv_has_odom n && nv_has_gps n && nv_has_imu n)%bool eqn:B; inversion C; subst.
            - rewrite !andb_true_iff in B. unfold same_datum; cbn. repeat split; tauto.
            - unfold same_datum. repeat split; congruence. }
          destruct D as [->|(-> & _)]; unfold same_datum in *; cbn; tauto.
        - pose proof (rec_good _ _ _ _ IH G) as RG. cbn zeta in D.
          destruct (prepareGps_cases e p n) as [(_ & _ & OU & c & m & Q)|(_ & Q)]; rewrite Q in D; cbn [fst snd app] in D;
          destruct D as [(_ & _ & ->)|[(_ & OF & _ & ->)|(_ & _ & m' & c' & _ & ->)]]; unfold same_datum; cbn; repeat split; tauto. }
      destruct (T n' eq_refl) as (T1 & T2 & T3 & T4 & T5 & T6 & T7 & T8 & T9 & T10).
      apply (recorded_same _ _ _ _ _ _ _ IH); try assumption; intros (f & Q); try destruct Q as (Q & _); discriminate.
    + exfalso; apply NR; exact I.
    + exfalso; apply NR; exact I.
    + destruct (toLLCallback _ _ _); [|discriminate]. inversion S; subst.
      apply (recorded_same _ _ _ _ _ _ _ IH); try reflexivity; try (intros (f & Q); try destruct Q as (Q & _); discriminate).
      * unfold same_datum; repeat split.
      * exact (fun x => x).
      * apply rec_good with (1 := IH).
    + destruct (fromLLCallback _ _ _ _ _ _ _); [|discriminate]. inversion S; subst.
      apply (recorded_same _ _ _ _ _ _ _ IH); try reflexivity; try (intros (f & Q); try destruct Q as (Q & _); discriminate).
      * unfold same_datum; repeat split.
      * exact (fun x => x).
      * apply rec_good with (1 := IH).
Qed.

End Generic.
