(** * A started EKF node in two_d_mode (C94) *)

From Coq Require Import Reals ZArith List Bool Lia Lra String Arith Permutation.
From Verif Require Import Scalar Mat FilterBase FilterOps Ekf StrMap Tf Diagnostics RosFilter RosConfig ForceTwoD RosPrepare
  SpecConfig SpecNode SpecTf SpecLin SpecFilter SpecPrepare SpecStart SpecAccess SpecPublished SpecLevel
  RBridge RLin EkfPsd Pdef Motion TwoD NodeProofs NodeInv NodeFacts NodeSmooth NodeCarry Trig TfReal TfRot TfQuat
  PrepareProofs PrepareReal PrepareSeq PreparePsd ConfigFacts AccessFacts StartFacts PublishedFacts LevelPrepare.
Import ListNotations.
Local Open Scope R_scope.

Lemma no_streams_level : level_streams (@no_streams RScalar).
Proof. split; [exact no_streams_sound|]. intros k x Hx; discriminate Hx. Qed.

Section Forces.
Context {K : Scalar} {E : Type}.
Variables (pq : pqueue K) (vt : vtbl K E) (c : config K).
Hypothesis Hpq : pq_ok pq.

Lemma event_queues_nothing ev (n : node K E) : match ev with EvSensor _ _ _ _ _ _ => False | _ => True end ->
  queued (snd (node_step pq vt c n ev)) = [].
Proof.
  destruct ev as [? ? ? ? ? ?|frame ctl stamp|on| | |? ? ?| |cur later lookup]; cbn [node_step]; intros H; try contradiction; try solve [reflexivity].
  - unfold toggleFilterProcessingCallback. destruct (Bool.eqb on (n_toggled n)); reflexivity.
  - destruct (n_enabled n) eqn:He.
    2:{ rewrite cycle_disabled by exact He. reflexivity. }
    destruct (cycle_obs pq vt c cur later lookup n He) as (_ & HQ & _).
    rewrite HQ. destruct (working_post pq vt c Hpq cur later n) as [W _].
    destruct (working pq vt c cur later n) as [nw ow]. cbn [fst snd] in *.
    destruct W as [(_ & _ & _ & _ & _ & -> & _)|(_ & -> & _)]; reflexivity.
Qed.
Lemma event_streams ev (n : node K E) : ordinary ev -> n_streams (fst (node_step pq vt c n ev)) = n_streams n.
Proof.
  destruct ev as [? ? ? ? ? ?|frame ctl stamp|on| | |? ? ?| |cur later lookup]; cbn [ordinary node_step]; intros H; try contradiction.
  - cbn [fst]. unfold controlStampedCallback. destruct (_ || _)%bool; reflexivity.
  - unfold toggleFilterProcessingCallback. destruct (Bool.eqb on (n_toggled n)); reflexivity.
  - unfold enableFilterSrvCallback. destruct (n_enabled n); reflexivity.
  - destruct (aggregateDiagnostics (n_diag n)) as [r d]. reflexivity.
  - destruct (n_enabled n) eqn:He.
    2:{ rewrite cycle_disabled by exact He. reflexivity. }
    rewrite (cycle_eq pq vt c cur later lookup n He).
    destruct (working_post pq vt c Hpq cur later n) as [_ (_ & _ & _ & _ & _ & K3 & _)].
    destruct (working pq vt c cur later n) as [nw ow]. cbn [fst snd] in *. exact K3.
Qed.
Lemma run_forced is : forall n : node K E,
  (forall i, In i is -> match i with
                        | Message e _ _ => e_two_d e = true
                        | Event (EvSensor _ _ _ _ _ _) => False
                        | Event _ => True
                        end) ->
  Forall forced (queued (snd (respond pq vt c n is))).
Proof.
  induction is as [|i is IH]; intros n HI; [constructor|].
  rewrite (proj2 (respond_cons pq vt c EmptyString is n)). cbn [snd]. rewrite queued_app. apply Forall_app.
  split; [|apply IH; intros j Hj; apply HI; right; exact Hj].
  specialize (HI i (or_introl eq_refl)). destruct i as [e s m|ev]; cbn [deliver].
  - apply receive_forces. exact HI.
  - rewrite event_queues_nothing; [constructor|]. destruct ev; auto.
Qed.
End Forces.

Section Node.
Variable eig : Eigen RScalar.
Hypothesis Heig : eigen_inverse_ok eig.
Variable pq : pqueue RScalar.
Variable c : config RScalar.
Variable dyn : Prop.
Hypothesis Hpq : pq_ok pq.
Hypothesis HQ : noise_ok dyn (c_Q c).
Hypothesis HQd : decoupled 15 vertical (c_Q c).
Hypothesis HP : psd 15 (c_P c).
Hypothesis HPd : diagonal 15 (c_P c).

Definition flat_filter (f : ekf RScalar) : Prop :=
  sane dyn f /\ (fb_initialized f = true -> planar_state (fb_state f)) /\ decoupled 15 vertical (fb_P f) /\
  decoupled 15 vertical (fb_Q f) /\ decoupled 15 vertical (fb_dynQ f) /\ @F_ok RScalar (fb_F f) /\ no_vertical_control f.
Definition flat_meas (m : meas RScalar) : Prop :=
  good_meas m /\ planar_meas m /\ forall i, vertical i = true -> nth i (m_upd m) false = true.
Definition flat_snap (s : fstate RScalar) : Prop :=
  psd 15 (fs_P s) /\ planar_state (fs_state s) /\ decoupled 15 vertical (fs_P s).

Lemma flat_planar f : flat_filter f -> fb_initialized f = true -> planar f.
Proof. intros (A & B & C & D & F & G & H) Hi. split; [exact (B Hi)|]. split; [exact C|]. split; [exact D|]. split; [exact F|]. split; assumption. Qed.
Lemma planar_flat f : sane dyn f -> planar f -> flat_filter f.
Proof. intros A (B & C & D & F & G & H). split; [exact A|]. split; [intros _; exact B|]. split; [exact C|]. split; [exact D|]. split; [exact F|]. split; assumption. Qed.

Lemma flat_process (f : ekf RScalar) m : flat_filter f -> flat_meas m -> flat_filter (processMeasurement (ekf_vtbl eig) f m).
Proof.
  intros Hf (M1 & M2 & M3). pose proof (sane_process eig dyn f m (proj1 Hf) M1) as Hs.
  destruct (fb_initialized f) eqn:Hi.
  - apply planar_flat; [exact Hs|]. apply (planar_process eig Heig dyn); [apply Hf|exact M1|exact M2|apply flat_planar; assumption].
  - split; [exact Hs|]. clear Hs. destruct Hf as (A & B & C & D & F & G & H). destruct M2 as (L & V & W & _).
    unfold processMeasurement. rewrite Hi.
    cbn [fb_state fb_P fb_Q fb_dynQ fb_F fb_initialized set_last_time init_from set_initialized set_P set_state].
    split.
    { intros _ i Vi. unfold flag. rewrite (M3 i Vi), L.
      assert (Nat.ltb i 15 = true) as -> by (apply Nat.ltb_lt; do 15 (destruct i as [|i]; [lia|]); discriminate Vi).
      cbn [andb]. apply V, Vi. }
    split; [|split; [exact D|split; [exact F|split; [exact G|exact H]]]].
    intros i j Hi' Hj Hne. destruct (_ && _)%bool; [apply W|apply C]; assumption.
Qed.
Lemma flat_predict (f : ekf RScalar) r d : (0 <= d)%Z -> fb_initialized f = true -> flat_filter f -> flat_filter (v_predict (ekf_vtbl eig) f r d).
Proof.
  intros Hd Hi Hf. apply planar_flat; [apply sane_predict; [exact Hd|exact Hi|apply Hf]|].
  apply planar_predict. apply flat_planar; assumption.
Qed.
Lemma flat_save (f : ekf RScalar) : fb_initialized f = true -> flat_filter f -> flat_snap (snapshot f).
Proof. intros Hi (A & B & C & _). split; [apply A|]. split; [exact (B Hi)|exact C]. Qed.
Lemma flat_restore (f : ekf RScalar) s : fb_initialized f = true -> flat_filter f -> flat_snap s -> flat_filter (load f s).
Proof.
  intros Hi (A & B & C & D) (S1 & S2 & S3). split; [apply sane_restore; assumption|].
  split; [intros _; exact S2|]. split; [exact S3|exact D].
Qed.
Lemma flat_reset (f : ekf RScalar) : flat_filter f ->
  flat_filter (setEstimateErrorCovariance (setProcessNoiseCovariance (setSensorTimeout (fb_reset f) (c_sensor_timeout c)) (c_Q c)) (c_P c)).
Proof.
  intros (A & B & C & D & F & G & H). split; [apply sane_reset; assumption|].
  split; [intros _ i _; reflexivity|]. split; [apply decoupled_diagonal, HPd|]. split; [exact HQd|]. split; [exact HQd|].
  split; [apply meye_F_ok|exact H].
Qed.

Let ok := carried flat_filter flat_meas flat_snap.
Let usables := @usable_level unit true c.

Lemma queued_flat is : forall (n : node RScalar unit) subs,
  (forall s, In s subs -> full s) -> level_streams (n_streams n) ->
  along (usables subs (filter_after pq (ekf_vtbl eig) c)) pq (ekf_vtbl eig) c n is ->
  Forall flat_meas (queued (snd (respond pq (ekf_vtbl eig) c n is))).
Proof.
  induction is as [|i is IH]; intros n subs Hs HS HA; [constructor|].
  destruct HA as [HA1 HA2]. rewrite (proj2 (respond_cons pq (ekf_vtbl eig) c EmptyString is n)). cbn [snd].
  rewrite queued_app. apply Forall_app.
  assert (D : level_streams (n_streams (fst (deliver pq (ekf_vtbl eig) c n i))) /\
              Forall flat_meas (queued (snd (deliver pq (ekf_vtbl eig) c n i)))).
  { destruct i as [e s m|ev]; cbn [deliver].
    - unfold usables in HA1. cbn [usable_level] in HA1. destruct HA1 as (S1 & S2 & S3 & S4).
      destruct (receive_levels pq e c S2 S3 s m S4 n HS) as [K1 K2]. split; [exact K1|].
      pose proof (receive_emits pq e c s m (Hs s S1) n) as K3.
      pose proof (receive_forces pq e c S2 s m n) as K4.
      rewrite Forall_forall in *. intros x Hx. apply laid_meas; [exact (K2 x Hx)|exact (K4 x Hx)|exact (K3 x Hx)].
    - split.
      + destruct ev as [| | | | |stamp prep now| |]; try (unfold usables in HA1; cbn [usable_level] in HA1; contradiction);
          try (rewrite event_streams; [exact HS|exact Hpq|exact I]).
        * exact no_streams_level.
        * unfold usables in HA1. cbn [usable_level] in HA1. destruct HA1 as ((e & msg & U1 & U2 & U3 & -> & ->) & _).
          cbn [node_step fst setPoseCallback n_streams with_filter with_diag with_streams].
          apply set_pose_level; [assumption|assumption|exact no_streams_level|exact U3].
      + rewrite event_queues_nothing; [constructor|exact Hpq|]. destruct ev; auto. }
  destruct D as [D1 D2]. split; [exact D2|]. eapply IH; eassumption.
Qed.

Lemma set_pose_flat (n : node RScalar unit) subs stamp prep now : ok n ->
  usables subs (filter_after pq (ekf_vtbl eig) c) n (Event (EvSetPose stamp prep now)) ->
  flat_filter (n_filter (fst (node_step pq (ekf_vtbl eig) c n (EvSetPose stamp prep now)))).
Proof.
  intros Hn. unfold usables. cbn [usable_level]. intros ((e & msg & U1 & U2 & U3 & -> & ->) & Hd).
  destruct (ca_filter _ _ _ _ Hn) as (((A & B & C & D) & _) & _ & _ & F & G & H & I).
  match goal with |- flat_filter ?f => set (f' := f) in * end.
  assert (L : let r := preparePose e c msg "set_pose"%string (c_world c) (c_base c) false false false
      (with_set_pose (with_state_hist (with_meas_hist (clearMeasurementQueue (with_streams n no_streams)) []) []) (ps_stamp msg))
      (repeat true STATE_SIZE) vzero (mscale (lit 1 6) meye) in
    level_streams (pr_streams r) /\ planar_state (pr_val r) /\ psd 15 (pr_cov r) /\ decoupled 15 vertical (pr_cov r)).
  { apply set_pose_level; [assumption|assumption|exact no_streams_level|exact U3]. }
  cbv zeta in L. destruct L as (_ & L2 & L3 & L4).
  split; [split|].
  - split; [exact L3|]. split; [exact B|]. split; [exact C|exact D].
  - intros Hf. apply Hd. exact Hf.
  - split; [intros _; exact L2|]. split; [exact L4|]. split; [exact F|]. split; [exact G|]. split; [exact H|exact I].
Qed.

Lemma shown_planar (o : output RScalar unit) : shown c ok o -> published_planar o /\ published_psd o.
Proof.
  intros Hs. split.
  - destruct o as [m|m| | | | | | |]; cbn [shown published_planar] in *; try exact I;
      destruct Hs as (n & Hn & Hm); destruct (ca_filter _ _ _ _ Hn) as (_ & B & _).
    + unfold getFilteredOdometryMessage in Hm. destruct (fb_initialized (n_filter n)); [|discriminate]. specialize (B eq_refl).
      injection Hm as <-. cbn [o_position o_orientation o_linear o_angular X Y Z3 v3x v3y v3z].
      unfold quat_setRPY. cbn [qx qy].
      rewrite (B StateMemberZ eq_refl), (B StateMemberRoll eq_refl), (B StateMemberPitch eq_refl), (B StateMemberVz eq_refl),
        (B StateMemberVroll eq_refl), (B StateMemberVpitch eq_refl).
      toR. rewrite Rmult_0_l, sin_0. repeat split; ring.
    + unfold getFilteredAccelMessage in Hm. destruct (fb_initialized (n_filter n)); [|discriminate]. specialize (B eq_refl).
      injection Hm as <-. cbn [ac_linear X Y Z3 v3x v3y v3z]. apply B. reflexivity.
  - apply (shown_psd c dyn). destruct o as [m|m| | | | | | |]; try exact I;
      destruct Hs as (n & Hn & Hm); exists n; (split; [|exact Hm]); destruct Hn as [N1 N2 N3 N4]; constructor;
      [apply N1|eapply Forall_impl; [|exact N2]; intros a Ha; apply Ha|eapply Forall_impl; [|exact N3]; intros a Ha; apply Ha|
       eapply Forall_impl; [|exact N4]; intros a Ha; apply Ha|
       apply N1|eapply Forall_impl; [|exact N2]; intros a Ha; apply Ha|eapply Forall_impl; [|exact N3]; intros a Ha; apply Ha|
       eapply Forall_impl; [|exact N4]; intros a Ha; apply Ha].
Qed.

Lemma node_planar N subs is (n : node RScalar unit) :
  (forall s, In s subs -> full s) -> level_streams (n_streams n) -> node_inv c N n -> ok n -> steady_clock N is ->
  along (usables subs (filter_after pq (ekf_vtbl eig) c)) pq (ekf_vtbl eig) c n is ->
  flat_filter (n_filter (fst (respond pq (ekf_vtbl eig) c n is))) /\
  Forall (fun o => published_planar o /\ published_psd o) (snd (respond pq (ekf_vtbl eig) c n is)).
Proof.
  intros Hs HS Hi Hok Hc HA.
  destruct (respond_carried pq (ekf_vtbl eig) c Hpq (ekf_neutral eig) flat_filter flat_meas flat_snap
    flat_process flat_predict (fun f u t H => H) (fun f t H => H)
    flat_save flat_restore flat_reset _
    (fun n stamp prep now Hn Hu => set_pose_flat n subs stamp prep now Hn Hu) is N n Hi Hc Hok HA
    (queued_flat is n subs Hs HS HA)) as [R1 R2].
  split; [apply (ca_filter _ _ _ _ R1)|]. eapply Forall_impl; [|exact R2]. exact shown_planar.
Qed.
End Node.

Lemma start_matrix (p : params RScalar) period now later g ang nothing ld n :
  start p period now later (@fb_init RScalar unit g tt) ang nothing = Ok (ld, n) -> fb_F (n_filter n) = meye.
Proof.
  intros H. apply start_eq in H. destruct H as (H & ->). rewrite loadParams_eq in H.
  apply obind_Ok in H. destruct H as (l & _ & H). apply obind_Ok in H. destruct H as (Q & HQ & H).
  apply obind_Ok in H. destruct H as (P & HP & H). cbv zeta in H. injection H as <-. cbv zeta.
  cbn [n_filter with_diag node_init ld_filter ld_config c_Q c_P].
  set (u := (cp_use (load_control p) && negb (Z.eqb (accumulate (l_control l)) 0))%bool). clearbody u.
  destruct P, Q, u; cbn; try reflexivity;
    (destruct (p_initial_state p) as [w|]; [match goal with |- context [if ?b then _ else _] => destruct b end|]; reflexivity).
Qed.

(** From start-up on. *)
Lemma started_planar eig (pq : pqueue RScalar) (p : params RScalar) period now later g ang nothing ld n t0 is :
  eigen_inverse_ok eig -> pq_ok pq -> start p period now later (fb_init g tt) ang nothing = Ok (ld, n) ->
  p_two_d p = true -> full_configs p -> covariance_params p -> planar_params p -> steady_clock t0 is ->
  along (usable_level (ld_two_d ld) (ld_config ld) (ld_subs ld) (filter_after pq (ekf_vtbl eig) (ld_config ld))) pq (ekf_vtbl eig) (ld_config ld) n is ->
  let f := n_filter (fst (respond pq (ekf_vtbl eig) (ld_config ld) n is)) in
  (fb_initialized f = true -> planar_state (fb_state f)) /\ decoupled 15 vertical (fb_P f) /\
  Forall (fun o => published_planar o /\ published_psd o) (snd (respond pq (ekf_vtbl eig) (ld_config ld) n is)).
Proof.
  intros He Hq Hst H2d HF [CP CQ] [LQ LC] Hc HA.
  destruct (start_fresh p period now later g tt ang nothing ld n Hst) as (U & _ & _ & _ & _ & Ef).
  destruct U as (U1 & U2 & U3 & U4 & U5 & U6 & _ & _ & _ & _ & _ & U7).
  destruct (start_filter p period now later g tt ang nothing ld n Hst) as (_ & _ & F3 & _ & _ & F6 & F7 & F8 & F9 & F10).
  pose proof (start_matrix p period now later g ang nothing ld n Hst) as F0.
  pose proof (start_options p period now later (fb_init g tt) ang nothing ld n Hst) as SO. cbv zeta in SO.
  destruct SO as (_ & _ & _ & _ & _ & _ & _ & _ & _ & _ & _ & H2 & _). rewrite H2, H2d in HA. clear H2.
  pose proof (start_eq _ _ _ _ _ _ _ _ _ Hst) as (HL & _).
  set (dyn := p_dynamic_noise p = true).
  assert (HcQ : noise_ok dyn (c_Q (ld_config ld)) /\ decoupled 15 vertical (c_Q (ld_config ld))).
  { destruct (p_Q p) as [v|] eqn:EQ; [split; [exact (CQ v _ eq_refl F9)|exact (LQ v _ eq_refl F9)]|]. cbn in F9. rewrite F9.
    split; [split; [apply zero_psd|]|]; intros; intros i j _ _ _; reflexivity. }
  assert (HfQ : noise_ok dyn (fb_Q (n_filter n)) /\ decoupled 15 vertical (fb_Q (n_filter n))).
  { destruct (p_Q p) as [v|] eqn:EQ; [split; [exact (CQ v _ eq_refl F6)|exact (LQ v _ eq_refl F6)]|]. cbn in F6. rewrite F6.
    split; [split; [apply default_Q_psd|]|]; intros; apply default_Q_dec. }
  assert (HcP : psd 15 (c_P (ld_config ld)) /\ diagonal 15 (c_P (ld_config ld))).
  { destruct (p_P p) as [v|] eqn:EP; [exact (CP v _ eq_refl F10)|]. cbn in F10. rewrite F10.
    split; [apply zero_psd|]. intros i j _ _ _. reflexivity. }
  assert (HfP : psd 15 (fb_P (n_filter n)) /\ diagonal 15 (fb_P (n_filter n))).
  { destruct (p_P p) as [v|] eqn:EP; [exact (CP v _ eq_refl F8)|]. cbn in F8. rewrite F8.
    split; [apply default_P_psd|]. intros i j _ _ Hne. unfold mscale, meye. apply Nat.eqb_neq in Hne. rewrite Hne. toR. change (sc RScalar) with R in *. ring. }
  destruct HcP as [HcP1 HcP2]. destruct HfP as [HfP1 HfP2]. destruct HcQ as [HcQ1 HcQ2]. destruct HfQ as [HfQ1 HfQ2].
  assert (HN : no_vertical_control (n_filter n)).
  { rewrite Ef. unfold no_vertical_control.
    assert (HG : forall j, (2 <= j < 5)%nat -> nth j (fb_control_upd (ld_filter ld)) false = false).
    { intros j Hj. destruct (c_use_control (ld_config ld)) eqn:Eu.
      - rewrite (loaded_control_flags _ _ _ _ _ j HL Eu) by lia.
        rewrite (LC (proj1 (proj1 (control_used_iff _ _ _ _ _ HL) Eu)) j Hj). reflexivity.
      - pose proof (loadParams_spec p period now (@fb_init RScalar unit g tt)) as H. rewrite HL in H.
        destruct H as (_ & l & Q & P & _ & _ & _ & _ & _ & _ & Hf & _). rewrite Eu in Hf. rewrite Hf. cbn.
        do 6 (destruct j as [|j]; [reflexivity|]). destruct j; reflexivity. }
    split; [apply HG; lia|]. split; apply HG; lia. }
  destruct (node_planar eig He pq (ld_config ld) dyn Hq HcQ1 HcQ2 HcP1 HcP2 t0 (ld_subs ld) is n) as [R1 R2].
  - intros s Hs. exact (loaded_full _ _ _ _ _ s HL HF Hs).
  - split; [split; [rewrite U4|split; [rewrite U5|rewrite U6]]|rewrite U6]; intros k x Hx; discriminate Hx.
  - apply inv_empty; [exact U2|exact U3|]. rewrite U7. discriminate.
  - constructor; [|rewrite U1; constructor|rewrite U2; constructor|rewrite U3; constructor].
    split; [split|].
    + split; [exact HfP1|]. split; [exact HfQ1|]. split; [rewrite F7; reflexivity|]. rewrite F3. intros H. exact H.
    + intros _; exact HfP2.
    + split; [rewrite U7; discriminate|]. split; [apply decoupled_diagonal, HfP2|]. split; [exact HfQ2|].
      split; [rewrite F7; exact HfQ2|]. split; [rewrite F0; apply meye_F_ok|exact HN].
  - exact Hc.
  - exact HA.
  - cbv zeta. split; [apply R1|]. split; [apply R1|exact R2].
Qed.
