(** * Publication discipline and life cycle of the navsat_transform node *)

From Coq Require Import ZArith List Bool String Lia Arith.
From Verif Require Import Scalar Mat FilterBase Tf StrMap RosFilter RosPrepare Navsat SpecTf SpecPrepare SpecNavsat PrepareProofs NavsatProofs.
Import ListNotations.
Local Open Scope list_scope.

Section Generic.
Context {K : Scalar}.
Implicit Types (g : geolib K) (p : nav_params K) (n : nav K) (e : penv K) (ev : nav_event K).

Lemma step_odom g p junk e ev n n' o : nav_step g p junk e ev n = Done (n', o) ->
  (exists m, ev = EvOdom m /\ o = [] /\ nv_odom_updated n' = true /\ nv_odom_time n' = o_stamp m /\
     nv_odom_pose n' = t_of (o_orientation m) (o_position m) /\
     nv_odom_cov n' = (fun i j => if (Nat.ltb i 6 && Nat.ltb j 6)%bool then o_pose_cov m (6 * i + j)%nat else s_ofZ 0) /\
     nv_world_frame n' = o_frame m /\ nv_base_frame n' = o_child m) \/
  (~ odometry ev /\ nv_world_frame n' = nv_world_frame n /\ nv_base_frame n' = nv_base_frame n /\
   ((forall m, ~ In (PubFix m) o) /\ (p_publish p = true -> forall m, ~ In (PubGps m) o) /\ same_latest_odom n n' \/
    nv_odom_updated n' = false)).
Proof.
  destruct ev; cbn [nav_step]; intros H.
  - right. split; [intros (f & Q); discriminate|]. unfold gpsFixCallback in H.
    assert (S : forall b, let n2 := (if b : bool then setTransformGps g p (fx_lat m) (fx_lon m) (fx_alt m) (set_gps_frame (fx_frame m) n) else set_gps_frame (fx_frame m) n) in
      nv_world_frame n2 = nv_world_frame n /\ nv_base_frame n2 = nv_base_frame n /\ same_latest_odom n n2).
    { intros b. cbn zeta. destruct b; [|unfold same_latest_odom; cbn; repeat split].
      destruct (setGps_cases g p (fx_lat m) (fx_lon m) (fx_alt m) (set_gps_frame (fx_frame m) n)) as [->|(v & l & z & np & c & ->)];
        unfold same_latest_odom; cbn; repeat split. }
    destruct (good_gps m).
    + specialize (S (negb (nv_good (set_gps_frame (fx_frame m) n)) && negb (nv_manual (set_gps_frame (fx_frame m) n)))%bool).
      cbn zeta in S. destruct (g_forward g (fx_lat m) (fx_lon m) (-1)) as [[[[[z np] x] y] gm]|]; [|discriminate].
      inversion H; subst. destruct S as (S1 & S2 & S3). cbn. split; [exact S1|]. split; [exact S2|]. left.
      split; [intros ? []|]. split; [intros _ ? []|]. unfold same_latest_odom in *; cbn. exact S3.
    + inversion H; subst. cbn. split; [reflexivity|]. split; [reflexivity|]. left.
      split; [intros ? []|]. split; [intros _ ? []|]. unfold same_latest_odom; cbn; repeat split.
  - right. split; [intros (f & Q); discriminate|]. inversion H; subst.
    assert (S : let n2 := (if nv_imu_sub n then navImuCallback e (im_stamp m) (im_frame m) (im_orientation m) n else n) in
      nv_world_frame n2 = nv_world_frame n /\ nv_base_frame n2 = nv_base_frame n /\ same_latest_odom n n2).
    { cbn zeta. destruct (nv_imu_sub n); [|unfold same_latest_odom; repeat split].
      destruct (navImu_keeps e (im_stamp m) (im_frame m) (im_orientation m) n) as (q & h & -> & _).
      unfold same_latest_odom; cbn; repeat split. }
    cbn zeta in S. split; [apply S|]. split; [apply S|]. left. split; [intros ? []|]. split; [intros _ ? []|]. apply S.
  - left. inversion H; subst. exists m. unfold odomCallback. destruct (nv_good _).
    + cbn; auto 10.
    + destruct (setOdom_shape e p (o_stamp m) (o_child m) (o_position m) (o_orientation m) (set_frames (o_frame m) (o_child m) n))
        as (q & h & -> & _). cbn; auto 10.
  - right. split; [intros (f & Q); discriminate|].
    destruct (tick_cases _ _ _ _ _ _ _ H) as [(G & O & m & C & D)|(G & D)].
    + pose proof (compute_keeps e g p now n) as S. rewrite C in S. cbn [fst] in S.
      destruct S as (_ & S & _ & _ & W & B & _ & _).
      destruct D as [->|(-> & _)]; cbn; (split; [exact W|]; split; [exact B|]; left; split;
        [intros m0 I; destruct (O _ I); discriminate|]; split; [intros _ m0 I; destruct (O _ I); discriminate|];
        unfold same_latest_odom in *; cbn; exact S).
    + cbn zeta in D. destruct (prepareGps_cases e p n) as [(_ & _ & OU & c & m & Q)|(_ & Q)]; rewrite Q in D; cbn [fst snd app] in D.
      * destruct D as [(P & -> & ->)|[(_ & OF & _ & ->)|(_ & _ & m' & c' & _ & ->)]].
        -- cbn. split; [reflexivity|]. split; [reflexivity|]. left. split; [intros ? [I|[]]; discriminate|].
           split; [congruence|]. unfold same_latest_odom; cbn; repeat split.
        -- congruence.
        -- cbn. auto.
      * destruct D as [(P & -> & ->)|[(_ & OF & -> & ->)|(_ & _ & m' & c' & -> & ->)]].
        -- split; [reflexivity|]. split; [reflexivity|]. left. split; [intros ? []|]. split; [intros _ ? []|]. apply same_odom_refl.
        -- split; [reflexivity|]. split; [reflexivity|]. left. split; [intros ? []|]. split; [intros _ ? []|]. apply same_odom_refl.
        -- cbn. auto.
  - right. split; [intros (f & Q); discriminate|]. inversion H; subst. cbn. split; [reflexivity|]. split; [reflexivity|]. left.
    split; [intros ? []|]. split; [intros _ ? []|]. unfold same_latest_odom; cbn; repeat split.
  - right. split; [intros (f & Q); discriminate|]. unfold setUTMZoneCallback in H.
    destruct (g_mgrs g zone) as [(z, np)|]; [|discriminate]. inversion H; subst. cbn. split; [reflexivity|]. split; [reflexivity|]. left.
    split; [intros ? []|]. split; [intros _ ? []|]. unfold same_latest_odom; cbn; repeat split.
  - right. split; [intros (f & Q); discriminate|]. destruct (toLLCallback _ _ _); [|discriminate].
    inversion H; subst. split; [reflexivity|]. split; [reflexivity|]. left. split; [intros ? [I|[]]; discriminate|].
    split; [intros _ ? [I|[]]; discriminate|]. apply same_odom_refl.
  - right. split; [intros (f & Q); discriminate|]. destruct (fromLLCallback _ _ _ _ _ _ _); [|discriminate].
    inversion H; subst. split; [reflexivity|]. split; [reflexivity|]. left. split; [intros ? [I|[]]; discriminate|].
    split; [intros _ ? [I|[]]; discriminate|]. apply same_odom_refl.
Qed.

Lemma step_pub g p junk e ev n n' o m : nav_step g p junk e ev n = Done (n', o) -> In (PubGps m) o ->
  (exists now, ev = EvTick now) /\ nv_good n = true /\ nv_gps_updated n = true /\ nv_odom_updated n = true /\
  snd (prepareGpsOdometry e p n) = Some m.
Proof.
  destruct ev; cbn [nav_step]; intros H I.
  - destruct (gpsFixCallback _ _ _ _); inversion H; subst; destruct I.
  - inversion H; subst; destruct I.
  - inversion H; subst; destruct I.
  - destruct (tick_cases _ _ _ _ _ _ _ H) as [(G & O & _)|(G & D)]; [destruct (O _ I); discriminate|].
    cbn zeta in D. destruct (prepareGps_cases e p n) as [(_ & GU & OU & c & m0 & Q)|(_ & Q)]; rewrite Q in *; cbn [fst snd app] in *.
    + assert (m0 = m).
      { destruct D as [(_ & -> & _)|[(_ & _ & -> & _)|(_ & _ & m' & c' & -> & _)]].
        - destruct I as [I|[]]. congruence.
        - destruct I.
        - destruct I as [I|[I|[]]]; [congruence|discriminate]. }
      subst. eauto 10.
    + destruct D as [(_ & -> & _)|[(_ & _ & -> & _)|(_ & _ & m' & c' & -> & _)]]; try destruct I as [].
      * discriminate.
      * destruct H0.
  - inversion H; subst; destruct I.
  - destruct (setUTMZoneCallback _ _ _); inversion H; subst; destruct I.
  - destruct (toLLCallback _ _ _); inversion H; subst. destruct I as [I|[]]; discriminate.
  - destruct (fromLLCallback _ _ _ _ _ _ _); inversion H; subst. destruct I as [I|[]]; discriminate.
Qed.

Lemma step_fix g p junk e ev n n' o m : nav_step g p junk e ev n = Done (n', o) -> In (PubFix m) o ->
  (exists now, ev = EvTick now) /\ nv_good n = true /\ nv_odom_updated n = true /\ p_publish p = true.
Proof.
  destruct ev; cbn [nav_step]; intros H I.
  - destruct (gpsFixCallback _ _ _ _); inversion H; subst; destruct I.
  - inversion H; subst; destruct I.
  - inversion H; subst; destruct I.
  - destruct (tick_cases _ _ _ _ _ _ _ H) as [(G & O & _)|(G & D)]; [destruct (O _ I); discriminate|].
    cbn zeta in D. destruct D as [(_ & -> & _)|[(_ & _ & -> & _)|(P & OU & m' & c' & -> & _)]].
    + destruct (snd (prepareGpsOdometry e p n)); [destruct I as [I|[]]; discriminate|destruct I].
    + destruct I.
    + eauto.
  - inversion H; subst; destruct I.
  - destruct (setUTMZoneCallback _ _ _); inversion H; subst; destruct I.
  - destruct (toLLCallback _ _ _); inversion H; subst. destruct I as [I|[]]; discriminate.
  - destruct (fromLLCallback _ _ _ _ _ _ _); inversion H; subst. destruct I as [I|[]]; discriminate.
Qed.

(** ** The latest fix and odometry of an execution *)
Definition holds_fix g (evs : @trace K) (outs : list (list (nav_out K))) n : Prop :=
  nv_gps_updated n = true -> exists j e f z np x y gm,
    nth_error evs j = Some (e, EvGps f) /\ usable f /\ nv_gps_time n = fx_stamp f /\
    g_forward g (fx_lat f) (fx_lon f) (-1) = Some (z, np, x, y, gm) /\
    t_origin (nv_gps_pose n) = mkV3 x y (fx_alt f) /\ nv_gps_cov n = gps_covariance (fx_cov f) /\
    (forall i f', (j < i)%nat -> event_at evs i (EvGps f') -> ~ usable f') /\
    (forall i m, (j < i)%nat -> ~ output_at outs i (PubGps m)).
Definition holds_odom p (evs : @trace K) (outs : list (list (nav_out K))) n : Prop :=
  nv_odom_updated n = true -> exists j e m,
    nth_error evs j = Some (e, EvOdom m) /\ nv_odom_time n = o_stamp m /\
    nv_odom_pose n = t_of (o_orientation m) (o_position m) /\
    nv_odom_cov n = (fun i j => if (Nat.ltb i 6 && Nat.ltb j 6)%bool then o_pose_cov m (6 * i + j)%nat else s_ofZ 0) /\
    nv_world_frame n = o_frame m /\ nv_base_frame n = o_child m /\
    (forall i m', (j < i)%nat -> ~ event_at evs i (EvOdom m')) /\
    (forall i m', (j < i)%nat -> ~ output_at outs i (PubFix m')) /\
    (p_publish p = true -> forall i m', (j < i)%nat -> ~ output_at outs i (PubGps m')).

Lemma event_snoc (evs : @trace K) e ev i ev' : event_at (evs ++ [(e, ev)]) i ev' ->
  event_at evs i ev' /\ (i < List.length evs)%nat \/ i = List.length evs /\ ev' = ev.
Proof.
  intros (e' & H). destruct (Nat.lt_ge_cases i (List.length evs)) as [L|L].
  - rewrite nth_error_app1 in H by exact L. left. split; [exists e'; exact H|exact L].
  - rewrite nth_error_app2 in H by exact L. right.
    destruct (i - List.length evs)%nat eqn:D; [|destruct n; discriminate H]. inversion H; subst. split; [lia|reflexivity].
Qed.
Lemma output_snoc (outs : list (list (nav_out K))) o i x : output_at (outs ++ [o]) i x ->
  output_at outs i x /\ (i < List.length outs)%nat \/ i = List.length outs /\ In x o.
Proof.
  intros (l & H & I). destruct (Nat.lt_ge_cases i (List.length outs)) as [L|L].
  - rewrite nth_error_app1 in H by exact L. left. split; [exists l; auto|exact L].
  - rewrite nth_error_app2 in H by exact L. right.
    destruct (i - List.length outs)%nat eqn:D; [|destruct n; discriminate H]. inversion H; subst. split; [lia|exact I].
Qed.

Lemma execution_holds g p u junk evs n outs : execution g p u junk evs n outs ->
  holds_fix g evs outs n /\ holds_odom p evs outs n.
Proof.
  revert n outs; induction evs as [|(e, ev) evs IH] using rev_ind; intros n' l H.
  - apply execution_nil in H as (-> & ->). split; intros Q; discriminate Q.
  - apply execution_snoc in H as (n & outs & o & A & S & ->). destruct (IH _ _ A) as (F & O).
    pose proof (execution_length _ _ _ _ _ _ _ A) as L. split.
    + intros GU. destruct (step_gps _ _ _ _ _ _ _ _ S) as [(f & z & np & x & y & gm & -> & U & -> & _ & T & FW & P & C)|(NU & [(NP & SG)|X])]; [| |congruence].
      * exists (List.length evs), e, f, z, np, x, y, gm. rewrite nth_error_app2, Nat.sub_diag by lia. split; [reflexivity|].
        repeat (split; [assumption|]). split.
        -- intros i f' Hi Q. apply event_snoc in Q as [(Q & ?)|(? & ?)]; lia.
        -- intros i m Hi Q. apply output_snoc in Q as [(Q & ?)|(? & [])]; lia.
      * destruct SG as (S1 & S2 & S3 & S4). rewrite S1 in GU.
        destruct (F GU) as (j & e' & f & z & np & x & y & gm & J & U & T & FW & P & C & NF & NPub).
        assert (LJ : (j < List.length evs)%nat) by (apply nth_error_Some; congruence).
        exists j, e', f, z, np, x, y, gm. rewrite nth_error_app1, S2, S3, S4 by exact LJ. repeat (split; [assumption|]). split.
        -- intros i f' Hi Q. apply event_snoc in Q as [(Q & ?)|(? & ?)]; [eapply NF; eauto|]. intros Uf.
           apply NU. exists f'. auto.
        -- intros i m Hi Q. apply output_snoc in Q as [(Q & ?)|(? & Q)]; [eapply NPub; eauto|]. eapply NP; eauto.
    + intros OU. destruct (step_odom _ _ _ _ _ _ _ _ S) as [(m & -> & -> & _ & T & P & C & W & B)|(NO & W & B & [(NX & NP & SO)|X])]; [| |congruence].
      * exists (List.length evs), e, m. rewrite nth_error_app2, Nat.sub_diag by lia. split; [reflexivity|].
        repeat (split; [assumption|]). split; [|split].
        -- intros i f' Hi Q. apply event_snoc in Q as [(Q & ?)|(? & ?)]; lia.
        -- intros i m' Hi Q. apply output_snoc in Q as [(Q & ?)|(? & [])]; lia.
        -- intros _ i m' Hi Q. apply output_snoc in Q as [(Q & ?)|(? & [])]; lia.
      * destruct SO as (S1 & S2 & S3 & S4). rewrite S1 in OU.
        destruct (O OU) as (j & e' & m & J & T & P & C & W' & B' & NO' & NX' & NP').
        assert (LJ : (j < List.length evs)%nat) by (apply nth_error_Some; congruence).
        exists j, e', m. rewrite nth_error_app1, S2, S3, S4, W, B by exact LJ. repeat (split; [assumption|]). split; [|split].
        -- intros i f' Hi Q. apply event_snoc in Q as [(Q & ?)|(? & <-)]; [eapply NO'; eauto|]. apply NO. exists f'. reflexivity.
        -- intros i m' Hi Q. apply output_snoc in Q as [(Q & ?)|(? & Q)]; [eapply NX'; eauto|]. eapply NX; eauto.
        -- intros PB i m' Hi Q. apply output_snoc in Q as [(Q & ?)|(? & Q)]; [eapply NP'; eauto|]. eapply NP; eauto.
Qed.

(** ** C65 *)
Lemma publication g p u junk evs e ev n' outs o m :
  execution g p u junk (evs ++ [(e, ev)]) n' (outs ++ [o]) -> In (PubGps m) o ->
  (exists now, ev = EvTick now) /\
  (exists n, execution g p u junk evs n outs /\ nv_good n = true) /\
  (exists j e' f, nth_error evs j = Some (e', EvGps f) /\ usable f /\ o_stamp m = fx_stamp f /\
     (forall i f', (j < i)%nat -> event_at evs i (EvGps f') -> ~ usable f') /\
     (forall i m', (j < i)%nat -> ~ output_at outs i (PubGps m'))) /\
  (exists j e' q, nth_error evs j = Some (e', EvOdom q) /\ o_frame m = o_frame q /\
     (forall i q', (j < i)%nat -> ~ event_at evs i (EvOdom q')) /\
     (p_publish p = true -> forall i m', (j < i)%nat -> ~ output_at outs i (PubGps m'))).
Proof.
  intros H I. apply execution_snoc in H as (n & outs' & o' & A & S & Q).
  apply app_inj_tail in Q as (<- & <-).
  destruct (step_pub _ _ _ _ _ _ _ _ _ S I) as (T & G & GU & OU & P).
  split; [exact T|]. split; [exists n; auto|].
  destruct (execution_holds _ _ _ _ _ _ _ A) as (F & O).
  assert (PM : o_stamp m = nv_gps_time n /\ o_frame m = nv_world_frame n).
  { unfold prepareGpsOdometry in P. rewrite G, GU, OU in P. cbn [andb snd] in P. inversion P; subst. split; reflexivity. }
  destruct PM as (PS & PF). split.
  - destruct (F GU) as (j & e' & f & z & np & x & y & gm & J & U & T' & _ & _ & _ & NF & NPub).
    exists j, e', f. rewrite PS, T'. auto.
  - destruct (O OU) as (j & e' & q & J & _ & _ & _ & W & _ & NO & _ & NP). exists j, e', q. rewrite PF, W. auto.
Qed.

(** A fix that is not usable only names the frame of the receiver. *)
Lemma unusable_step g p junk e m n : ~ usable m ->
  nav_step g p junk e (EvGps m) n = Done (set_gps_frame (fx_frame m) n, []).
Proof. intros H. apply good_gps_unusable in H. cbn. unfold gpsFixCallback. now rewrite H. Qed.

(** Two executions that differ only in unusable fixes are the same. *)
Inductive same_usable : @trace K -> @trace K -> Prop :=
| su_nil : same_usable [] []
| su_same x l l' : same_usable l l' -> same_usable (x :: l) (x :: l')
| su_fix e e' (m m' : fix_msg K) l l' : ~ usable m -> ~ usable m' -> fx_frame m = fx_frame m' -> same_usable l l' ->
    same_usable ((e, EvGps m) :: l) ((e', EvGps m') :: l').
Lemma same_usable_run g p junk l l' : same_usable l l' -> forall n, nav_run g p junk l n = nav_run g p junk l' n.
Proof.
  induction 1 as [|(e, ev) l l' _ IH|e e' m m' l l' U U' F _ IH]; intros n; cbn [nav_run].
  - reflexivity.
  - destruct (nav_step g p junk e ev n) as [(n1, o)|]; [now rewrite IH|reflexivity].
  - rewrite !unusable_step, F, IH by assumption. reflexivity.
Qed.

End Generic.
