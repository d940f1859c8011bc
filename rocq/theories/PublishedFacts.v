(** * What a started EKF node publishes (C93) *)

From Coq Require Import Reals ZArith List Bool Lia Lra String Arith Permutation.
From Verif Require Import Scalar Mat FilterBase FilterOps Ekf StrMap Tf Diagnostics RosFilter RosConfig ForceTwoD RosPrepare
  SpecConfig SpecNode SpecTf SpecLin SpecFilter SpecPrepare SpecStart SpecAccess SpecPublished
  RBridge RLin EkfPsd NodeProofs NodeInv NodeFacts NodeSmooth NodeCarry Trig TfReal TfRot TfQuat
  PrepareProofs PrepareReal PrepareSeq PreparePsd AccessFacts StartFacts.
Import ListNotations.
Local Open Scope R_scope.

(** ** Queued measurements *)
Section Queued.
Context {K : Scalar} {E : Type}.
Variable pq : pqueue K.
Definition emits (f : node K E -> node K E * list (output K E)) : Prop :=
  forall n, Forall full_meas (queued (snd (f n))).
Lemma emits_sensor warn topic stamp upd thresh (prep : prepfun K E) :
  (forall n v c0, List.length (pr_upd (prep n upd v c0)) = 15%nat) ->
  emits (sensorCallback pq warn topic stamp upd thresh prep).
Proof.
  intros HL n. unfold sensorCallback. destruct (Z.geb (n_set_pose n) stamp); [constructor|]. cbv zeta.
  set (n1 := if sm_mem (n_last_msg n) topic then n else _). specialize (HL n1).
  destruct (sm_find (n_last_msg n1) topic); [|constructor]. destruct (Z.leb _ stamp); [|constructor].
  destruct (pr_ok (prep n1 upd vzero mzero)); [|constructor]. cbn. constructor; [|constructor]. apply HL.
Qed.
Lemma emits_skip : emits skip_callback.
Proof. intros n. constructor. Qed.
Lemma emits_then a b : emits a -> emits b -> emits (andthen a b).
Proof.
  intros Ha Hb n. unfold andthen. specialize (Ha n). destruct (a n) as [n1 o1]. specialize (Hb n1).
  destruct (b n1) as [n2 o2]. cbn [snd] in *. rewrite queued_app. apply Forall_app. split; assumption.
Qed.
Lemma receive_emits (e : penv K) c s m : full s -> emits (receive pq e c s m).
Proof.
  intros Hs.
  assert (HP : forall a x t so i, In a (parts_of s) -> emits (poseCallback pq e c a x t so i)).
  { intros a x t so i Ha. apply emits_sensor. intros n v c0. apply pose_len, Hs, Ha. }
  assert (HT : forall a x t, In a (parts_of s) -> emits (twistCallback pq e c a x t)).
  { intros a x t Ha. apply emits_sensor. intros n v c0. rewrite twist_len. apply Hs, Ha. }
  assert (HA : forall a x t, In a (parts_of s) -> emits (accelerationCallback pq e c a x t)).
  { intros a x t Ha. apply emits_sensor. intros n v c0. rewrite acceleration_len. apply Hs, Ha. }
  destruct s as [t a b|a|a|t a b d], m as [x|x|x|x]; try (exact emits_skip).
  - intros n. unfold receive, odometryCallback. destruct (Z.geb (n_set_pose n) (o_stamp x)); [constructor|].
    apply emits_then.
    + destruct (Z.gtb (cd_sum a) 0); [apply HP; left; reflexivity|apply emits_skip].
    + destruct (Z.gtb (cd_sum b) 0); [apply HT; right; left; reflexivity|apply emits_skip].
  - apply HP. left. reflexivity.
  - apply HT. left. reflexivity.
  - intros n. unfold receive, imuCallback. destruct (Z.geb (n_set_pose n) (im_stamp x)); [constructor|].
    apply emits_then; [|apply emits_then].
    + destruct (_ && _)%bool; [apply HP; left; reflexivity|apply emits_skip].
    + destruct (_ && _)%bool; [apply HT; right; left; reflexivity|apply emits_skip].
    + destruct (_ && _)%bool; [apply HA; right; right; left; reflexivity|apply emits_skip].
Qed.
End Queued.

Lemma no_streams_sound : sound_streams (@no_streams RScalar).
Proof. split; [|split]; intros k x Hx; discriminate Hx. Qed.

(** ** The set_pose request *)
Lemma set_block_into_psd (d : R) n N (B : rmat) : (n <= N)%nat -> 0 <= d -> psd n B ->
  psd N (@set_block RScalar (@mscale RScalar d meye) 0 n B).
Proof.
  intros Hn Hd HB.
  eapply psd_ext; [|apply psd_plus; [apply (set_block_psd 0 n N B Hn HB)|
    apply (psd_diag N (fun i => if Nat.ltb i n then 0 else d)); intros i _; destruct (Nat.ltb i n); lra]].
  intros i j Hi Hj. unfold set_block, mscale, meye. cbn [Nat.leb andb]. rewrite !Nat.sub_0_r, Nat.add_0_l.
  destruct (Nat.ltb_spec i n); destruct (Nat.ltb_spec j n); cbn [andb]; destruct (Nat.eqb_spec i j); try lia; unfold mzero; toR; change (sc RScalar) with R in *; change (IZR 0) with 0; change (IZR 1) with 1; ring.
Qed.

Section SetPose.
Context {E : Type}.
Variables (e : penv RScalar) (c : config RScalar).
Hypothesis H2 : e_two_d e = false.
Hypothesis HB : rigid_buffer (e_buffer e).
Lemma set_pose_result (msg : pose_msg RScalar) (n : node RScalar E) upd v0 :
  sound_streams (n_streams n) -> psd 6 (as_matrix 6 (ps_cov msg)) ->
  let r := preparePose e c msg "set_pose"%string (c_world c) (c_base c) false false false n upd v0 (mscale (lit 1 6) meye) in
  sound_streams (pr_streams r) /\ psd 15 (pr_cov r).
Proof.
  intros HS HP r. unfold r. clear r.
  assert (Hl : 0 <= @lit RScalar 1 6) by (rewrite lit_R; cbn; lra).
  destruct (pose_frames c (ps_frame msg) (c_world c) false false) as [ft pf] eqn:HF.
  destruct (lookupTransformSafe e ft pf (pose_lookup_time e (ps_stamp msg))) as [t|] eqn:L.
  2:{ unfold preparePose. rewrite HF. cbv zeta. rewrite L. cbn [pr_streams pr_cov]. split; [exact HS|].
      eapply psd_ext; [|apply (psd_diag 15 (fun _ => @lit RScalar 1 6)); intros; exact Hl].
      intros i j _ _. unfold mscale, meye. destruct (Nat.eqb i j); cbn; lra. }
  pose proof (lookup_rigid _ _ _ _ _ HB L) as HR.
  pose proof (source_rigid e c HB (c_base c) (pose_lookup_time e (ps_stamp msg))) as HSrc.
  pose proof (source_cov_psd e c (c_base c) (pose_lookup_time e (ps_stamp msg)) _ HP) as HPs.
  pose proof (base_pose_rigid t false msg) as HBP.
  pose proof (pose_ready e c msg "set_pose"%string (c_world c) (c_base c) false false n upd v0 (mscale (lit 1 6) meye) t ft pf HF L HR HSrc) as PR.
  cbv zeta in PR.
  set (p2 := to_base (source_of e c (c_base c) (pose_lookup_time e (ps_stamp msg))) (base_pose t false msg)) in *.
  assert (H2r : rigid p2).
  { unfold p2, to_base. destruct (source_of e c (c_base c) (pose_lookup_time e (ps_stamp msg))) as [s|];
      [apply rigid_mult; [exact HBP|apply HSrc; reflexivity]|exact HBP]. }
  destruct PR as (_ & P2 & _ & P4).
  { apply rigid_mult; assumption. }
  split; [rewrite P2; exact HS|].
  eapply psd_ext; [intros i j _ _; symmetry; apply P4; left; rewrite H2; apply kept_false|].
  apply set_block_into_psd; [lia|exact Hl|]. apply rotate_psd, HPs.
Qed.
End SetPose.

(** ** The EKF in a node *)
Lemma decoupled_diagonal A M : diagonal 15 M -> decoupled 15 A M.
Proof. intros H i j Hi Hj Hne. apply H; [exact Hi|exact Hj|]. intros ->. apply Hne. reflexivity. Qed.

Section Node.
Variable eig : Eigen RScalar.
Variable pq : pqueue RScalar.
Variable c : config RScalar.
Variable dyn : Prop.
Hypothesis Hpq : pq_ok pq.
Hypothesis HQ : noise_ok dyn (c_Q c).
Hypothesis HP : psd 15 (c_P c).
Hypothesis HPd : diagonal 15 (c_P c).

Definition sane (f : ekf RScalar) : Prop :=
  inv dyn f /\ (fb_initialized f = false -> diagonal 15 (fb_P f)).
Definition sane_snap (s : fstate RScalar) : Prop := psd 15 (fs_P s).

Lemma sane_process (f : ekf RScalar) m : sane f -> good_meas m -> sane (processMeasurement (ekf_vtbl eig) f m).
Proof.
  intros [Hi Hd] Hm. split.
  - apply ekf_process_inv; [exact Hm| |exact Hi]. intros Hf. apply decoupled_diagonal, Hd, Hf.
  - rewrite (proj2 (process_time (ekf_vtbl eig) (ekf_neutral eig) f m)). discriminate.
Qed.
Lemma sane_predict (f : ekf RScalar) r d : (0 <= d)%Z -> fb_initialized f = true -> sane f -> sane (v_predict (ekf_vtbl eig) f r d).
Proof.
  intros Hd Hf [Hi _]. split; [apply ekf_predict_inv; assumption|].
  rewrite (proj2 (proj1 (ekf_neutral eig) f r d)), Hf. discriminate.
Qed.
Lemma sane_restore (f : ekf RScalar) s : fb_initialized f = true -> sane f -> sane_snap s -> sane (load f s).
Proof.
  intros Hf [(A & B & C & D) _] Hs. split; [split; [exact Hs|split; [exact B|split; [exact C|exact D]]]|].
  cbn. rewrite Hf. discriminate.
Qed.
Lemma sane_reset (f : ekf RScalar) : sane f ->
  sane (setEstimateErrorCovariance (setProcessNoiseCovariance (setSensorTimeout (fb_reset f) (c_sensor_timeout c)) (c_Q c)) (c_P c)).
Proof.
  intros [(A & B & C & D) _]. split; [|intros _; exact HPd].
  split; [exact HP|]. split; [exact HQ|]. split; [reflexivity|exact D].
Qed.

Let ok := carried sane good_meas sane_snap.

Lemma queued_good is : forall (n : node RScalar unit) subs,
  (forall s, In s subs -> full s) -> sound_streams (n_streams n) ->
  along (usable c subs (filter_after pq (ekf_vtbl eig) c)) pq (ekf_vtbl eig) c n is ->
  Forall good_meas (queued (snd (respond pq (ekf_vtbl eig) c n is))).
Proof.
  induction is as [|i is IH]; intros n subs Hs HS HA; [constructor|].
  destruct HA as [HA1 HA2]. rewrite (proj2 (respond_cons pq (ekf_vtbl eig) c EmptyString is n)). cbn [snd].
  rewrite queued_app. apply Forall_app.
  assert (D : sound_streams (n_streams (fst (deliver pq (ekf_vtbl eig) c n i))) /\
              Forall good_meas (queued (snd (deliver pq (ekf_vtbl eig) c n i)))).
  { destruct i as [e s m|ev]; cbn [deliver].
    - cbn [usable] in HA1. destruct HA1 as (S1 & S2 & S3 & S4).
      destruct (receive_keeps pq e c S2 S3 s m S4 n HS) as [K1 K2]. split; [exact K1|].
      pose proof (receive_emits pq e c s m (Hs s S1) n) as K3.
      rewrite Forall_forall in *. intros x Hx. split; [exact (K3 x Hx)|exact (K2 x Hx)].
    - destruct ev as [| | | | |stamp prep now| |]; try (cbn [usable] in HA1; contradiction);
        try (match goal with |- context [node_step _ _ _ _ ?ev] =>
               destruct (event_keeps pq (ekf_vtbl eig) c Hpq ev n) as [K1 K2];
                 [solve [cbn; auto]|exact HS|split; [exact K1|rewrite K2; constructor]] end).
      cbn [usable] in HA1. destruct HA1 as ((e & msg & U1 & U2 & U3 & -> & ->) & _).
      cbn [node_step fst snd queued]. split; [|constructor].
      cbn [setPoseCallback n_streams with_filter with_diag with_streams].
      apply set_pose_result; [assumption|assumption|exact no_streams_sound|exact U3]. }
  destruct D as [D1 D2]. split; [exact D2|]. eapply IH; eassumption.
Qed.

Lemma set_pose_sane (n : node RScalar unit) subs stamp prep now : ok n ->
  usable c subs (filter_after pq (ekf_vtbl eig) c) n (Event (EvSetPose stamp prep now)) ->
  sane (n_filter (fst (node_step pq (ekf_vtbl eig) c n (EvSetPose stamp prep now)))).
Proof.
  intros Hn. cbn [usable]. intros ((e & msg & U1 & U2 & U3 & -> & ->) & Hd).
  destruct (ca_filter _ _ _ _ Hn) as [(A & B & C & D) _]. split.
  - split; [|split; [exact B|split; [exact C|exact D]]].
    cbn [node_step fst setPoseCallback n_filter with_filter]. cbn [setLastMeasurementTime setEstimateErrorCovariance set_last_time set_P fb_P].
    apply set_pose_result; [assumption|assumption|exact no_streams_sound|exact U3].
  - intros Hf. apply Hd. exact Hf.
Qed.

Lemma flat6_entry (A : rmat) i j : (i < 6)%nat -> (j < 6)%nat -> as_matrix 6 (@flat6 RScalar A) i j = A i j.
Proof.
  intros Hi Hj. unfold as_matrix, flat6.
  rewrite Nat.mul_comm, Nat.div_add_l by lia. rewrite Nat.div_small by exact Hj. rewrite Nat.add_0_r.
  rewrite Nat.add_comm, Nat.mod_add by lia. rewrite Nat.mod_small by exact Hj. reflexivity.
Qed.
Lemma psd_block (A : rmat) o k N : (o + k <= N)%nat -> psd N A -> psd k (fun i j => A (o + i)%nat (o + j)%nat).
Proof.
  intros Hk HA. pose proof (psd_sub (seq o k) A N) as H. rewrite seq_length in H.
  eapply psd_ext; [|apply H; [|exact HA]].
  - intros i j Hi Hj. rewrite !seq_nth by assumption. reflexivity.
  - intros a Ha. apply in_seq in Ha. lia.
Qed.
Lemma shown_psd (o : output RScalar unit) : shown c ok o -> published_psd o.
Proof.
  destruct o as [m|m| | | | | | |]; cbn [shown published_psd]; try (intros _; exact I);
    intros (n & Hn & Hm); destruct (ca_filter _ _ _ _ Hn) as [(A & _) _].
  - unfold getFilteredOdometryMessage in Hm. destruct (fb_initialized (n_filter n)); [|discriminate].
    injection Hm as <-. cbn [o_pose_cov o_twist_cov]. split.
    + eapply psd_ext; [|apply (psd_block (fb_P (n_filter n)) 0 6 15); [lia|exact A]].
      intros i j Hi Hj. rewrite flat6_entry by assumption. reflexivity.
    + eapply psd_ext; [|apply (psd_block (fb_P (n_filter n)) 6 6 15); [lia|exact A]].
      intros i j Hi Hj. rewrite flat6_entry by assumption.
      rewrite (Nat.add_comm i), (Nat.add_comm j). reflexivity.
  - unfold getFilteredAccelMessage in Hm. destruct (fb_initialized (n_filter n)); [|discriminate].
    injection Hm as <-. cbn [ac_cov].
    eapply psd_ext; [|apply (psd_block (fb_P (n_filter n)) 12 3 15); [lia|exact A]].
    intros i j Hi Hj. rewrite flat6_entry by lia.
    apply Nat.ltb_lt in Hi, Hj. rewrite Hi, Hj. cbn [andb]. rewrite (Nat.add_comm i), (Nat.add_comm j). reflexivity.
Qed.

Lemma node_published N subs is (n : node RScalar unit) :
  (forall s, In s subs -> full s) -> sound_streams (n_streams n) -> node_inv c N n -> ok n -> steady_clock N is ->
  along (usable c subs (filter_after pq (ekf_vtbl eig) c)) pq (ekf_vtbl eig) c n is ->
  psd 15 (fb_P (n_filter (fst (respond pq (ekf_vtbl eig) c n is)))) /\
  Forall published_psd (snd (respond pq (ekf_vtbl eig) c n is)).
Proof.
  intros Hs HS Hi Hok Hc HA.
  destruct (respond_carried pq (ekf_vtbl eig) c Hpq (ekf_neutral eig) sane good_meas sane_snap
    sane_process sane_predict (fun f u t H => H) (fun f t H => H)
    (fun f _ H => proj1 (proj1 H)) sane_restore sane_reset _
    (fun n stamp prep now Hn Hu => set_pose_sane n subs stamp prep now Hn Hu) is N n Hi Hc Hok HA
    (queued_good is n subs Hs HS HA)) as [R1 R2].
  split; [apply (ca_filter _ _ _ _ R1)|]. eapply Forall_impl; [|exact R2]. exact shown_psd.
Qed.
End Node.

Lemma zero_psd n : psd n (@mzero RScalar).
Proof.
  eapply psd_ext; [|apply (psd_diag n (fun _ => 0)); intros; lra].
  intros i j _ _. destruct (Nat.eqb i j); reflexivity.
Qed.

(** From start-up on. *)
Lemma started_published eig (pq : pqueue RScalar) (p : params RScalar) period now later g ang nothing ld n t0 is :
  pq_ok pq -> start p period now later (fb_init g tt) ang nothing = Ok (ld, n) -> full_configs p -> covariance_params p ->
  steady_clock t0 is ->
  along (usable (ld_config ld) (ld_subs ld) (filter_after pq (ekf_vtbl eig) (ld_config ld))) pq (ekf_vtbl eig) (ld_config ld) n is ->
  psd 15 (fb_P (n_filter (fst (respond pq (ekf_vtbl eig) (ld_config ld) n is)))) /\
  Forall published_psd (snd (respond pq (ekf_vtbl eig) (ld_config ld) n is)).
Proof.
  intros Hq Hst HF [CP CQ] Hc HA.
  destruct (start_fresh p period now later g tt ang nothing ld n Hst) as (U & _ & _ & _ & _ & _).
  destruct U as (U1 & U2 & U3 & U4 & U5 & U6 & _ & _ & _ & _ & _ & U7).
  destruct (start_filter p period now later g tt ang nothing ld n Hst) as (_ & _ & F3 & _ & _ & F6 & F7 & F8 & F9 & F10).
  pose proof (start_eq _ _ _ _ _ _ _ _ _ Hst) as (HL & _).
  set (dyn := p_dynamic_noise p = true).
  assert (HcQ : noise_ok dyn (c_Q (ld_config ld))).
  { destruct (p_Q p) as [v|] eqn:EQ; [exact (CQ v _ eq_refl F9)|]. cbn in F9. rewrite F9.
    split; [apply zero_psd|]. intros _ i j _ _ _. reflexivity. }
  assert (HfQ : noise_ok dyn (fb_Q (n_filter n))).
  { destruct (p_Q p) as [v|] eqn:EQ; [exact (CQ v _ eq_refl F6)|]. cbn in F6. rewrite F6.
    split; [apply default_Q_psd|]. intros _ i j Hi Hj Hne. unfold default_Q. destruct (Nat.eqb_spec i j); [congruence|]. reflexivity. }
  assert (HcP : psd 15 (c_P (ld_config ld)) /\ diagonal 15 (c_P (ld_config ld))).
  { destruct (p_P p) as [v|] eqn:EP; [exact (CP v _ eq_refl F10)|]. cbn in F10. rewrite F10.
    split; [apply zero_psd|]. intros i j _ _ _. reflexivity. }
  assert (HfP : psd 15 (fb_P (n_filter n)) /\ diagonal 15 (fb_P (n_filter n))).
  { destruct (p_P p) as [v|] eqn:EP; [exact (CP v _ eq_refl F8)|]. cbn in F8. rewrite F8.
    split; [apply default_P_psd|]. intros i j _ _ Hne. unfold mscale, meye. apply Nat.eqb_neq in Hne. rewrite Hne. toR. change (sc RScalar) with R in *. ring. }
  destruct HcP as [HcP1 HcP2]. destruct HfP as [HfP1 HfP2].
  apply (node_published eig pq (ld_config ld) dyn Hq HcQ HcP1 HcP2 t0 (ld_subs ld)).
  - intros s Hs. exact (loaded_full _ _ _ _ _ s HL HF Hs).
  - split; [rewrite U4|split; [rewrite U5|rewrite U6]]; intros k x Hx; discriminate Hx.
  - apply inv_empty; [exact U2|exact U3|]. rewrite U7. discriminate.
  - constructor; [|rewrite U1; constructor|rewrite U2; constructor|rewrite U3; constructor].
    split; [|intros _; exact HfP2]. split; [exact HfP1|]. split; [exact HfQ|]. split; [rewrite F7; reflexivity|].
    rewrite F3. intros H. exact H.
  - exact Hc.
  - exact HA.
Qed.
