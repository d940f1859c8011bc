(** * Dead reckoning in a node (C108) *)

From Coq Require Import Reals ZArith List Bool Lia Lra String Arith Permutation.
From Verif Require Import Scalar Mat FilterBase FilterOps Ekf StrMap Tf Diagnostics RosFilter RosConfig ForceTwoD RosPrepare
  SpecConfig SpecNode SpecTf SpecLin SpecFilter SpecPrepare SpecStart SpecAccess SpecPublished SpecSensor SpecReckon
  RBridge RLin EkfPsd Motion NodeProofs NodeInv NodeFacts NodeSmooth NodeCarry PrepareProofs PrepareReal PrepareSeq PreparePsd
  AccessFacts ConfigFacts StartFacts PublishedFacts LevelNode SensorFacts ReckonFacts.
Import ListNotations.
Local Open Scope R_scope.

(** ** No measurement of the position *)
Definition blind (u : list bool) : Prop := forall i, (i < 3)%nat -> nth i u false = false.
Definition blind_sub (s : subscription RScalar) : Prop :=
  match s with
  | SubOdom _ a b => (cd_differential a = true \/ blind (cd_upd a)) /\ blind (cd_upd b)
  | SubPose a => cd_differential a = true \/ blind (cd_upd a)
  | SubTwist a => blind (cd_upd a)
  | SubImu _ a b d => blind (cd_upd a) /\ blind (cd_upd b) /\ blind (cd_upd d)
  end.

Section Prepare.
Context {E : Type}.
Variables (e : penv RScalar) (c : config RScalar).
Hypothesis H2 : e_two_d e = false.
Lemma twist_blind msg topic target (n : node RScalar E) u v0 c0 : blind u -> blind (pr_upd (prepareTwist e c msg topic target n u v0 c0)).
Proof.
  intros Hu i Hi. unfold prepareTwist. cbv zeta. destruct (lookupTransformSafe _ _ _ _) as [t|]; [|exact (Hu i Hi)].
  rewrite H2. cbn [finish pr_upd]. rewrite !unmask_other by (cbn; lia). exact (Hu i Hi).
Qed.
Lemma acceleration_blind msg topic target rel (n : node RScalar E) u v0 c0 : blind u ->
  blind (pr_upd (prepareAcceleration e c msg topic target rel n u v0 c0)).
Proof.
  intros Hu i Hi. unfold prepareAcceleration. cbv zeta. destruct (lookupTransformSafe _ _ _ _) as [t|]; [|exact (Hu i Hi)].
  rewrite H2. cbn [finish pr_upd]. rewrite !unmask_other by (cbn; lia). exact (Hu i Hi).
Qed.
Lemma differential_blind u : blind (differential_flags u).
Proof. intros i Hi. do 3 (destruct i as [|i]; [reflexivity|]). lia. Qed.
Lemma turned_blind (r r' : mat3 RScalar) u : List.length u = 15%nat -> blind u -> blind (@unmask RScalar (m3mul r' (mask3 u 3)) 3 (unmask (m3mul r (mask3 u 0)) 0 u)).
Proof.
  intros HL Hu i Hi. rewrite unmask_other by lia. destruct (nth i (unmask _ 0 u) false) eqn:F; [|reflexivity]. exfalso.
  destruct (turned_flag r u 0 i Hi ltac:(lia) F) as (j & Hj & G & _). rewrite Hu in G by exact Hj. discriminate.
Qed.
Lemma pose_blind msg topic target source d rel imu (n : node RScalar E) u v0 c0 : List.length u = 15%nat -> d = true \/ blind u ->
  pr_ok (preparePose e c msg topic target source d rel imu n u v0 c0) = true ->
  blind (pr_upd (preparePose e c msg topic target source d rel imu n u v0 c0)).
Proof.
  intros HL Hu. unfold preparePose. destruct (pose_frames _ _ _ _ _) as [ft pf].
  destruct (lookupTransformSafe e ft pf _) as [t|]; [|discriminate]. cbv zeta. destruct d.
  - destruct (sm_find (st_previous (n_streams n)) topic) as [prev|]; [|discriminate].
    destruct (sm_find (st_prev_cov (n_streams n)) topic) as [pc|]; [|discriminate].
    destruct (quatToRPY _) as [[r pt] y]. intros _. cbn [pr_upd]. apply twist_blind, differential_blind.
  - destruct Hu as [Hu|Hu]; [discriminate|]. destruct rel; destruct (quatToRPY _) as [[r pt] y]; rewrite H2; cbn [finish pr_upd];
      intros _; (apply turned_blind; assumption).
Qed.

Variable pq : pqueue RScalar.
Definition tells_blind (f : node RScalar E -> node RScalar E * list (output RScalar E)) : Prop :=
  forall n, Forall no_position (queued (snd (f n))).
Lemma sensor_blind warn topic stamp upd thresh (prep : prepfun RScalar E) :
  (forall n v c0, pr_ok (prep n upd v c0) = true -> blind (pr_upd (prep n upd v c0))) ->
  tells_blind (sensorCallback pq warn topic stamp upd thresh prep).
Proof.
  intros HL n. unfold sensorCallback. destruct (Z.geb (n_set_pose n) stamp); [constructor|]. cbv zeta.
  set (n1 := if sm_mem (n_last_msg n) topic then n else _). specialize (HL n1 vzero mzero).
  destruct (sm_find (n_last_msg n1) topic); [|constructor]. destruct (Z.leb _ stamp); [|constructor].
  destruct (pr_ok (prep n1 upd vzero mzero)); [|constructor]. cbn. constructor; [|constructor]. apply HL. reflexivity.
Qed.
Lemma skip_blind : tells_blind skip_callback.
Proof. intros n. constructor. Qed.
Lemma then_blind a b : tells_blind a -> tells_blind b -> tells_blind (andthen a b).
Proof.
  intros Ha Hb n. unfold andthen. specialize (Ha n). destruct (a n) as [n1 o1]. specialize (Hb n1).
  destruct (b n1) as [n2 o2]. cbn [snd] in *. rewrite queued_app. apply Forall_app. split; assumption.
Qed.
Lemma receive_blind s m : full s -> blind_sub s -> tells_blind (receive pq e c s m).
Proof.
  intros Hs HB.
  assert (HP : forall a x t so i, In a (parts_of s) -> cd_differential a = true \/ blind (cd_upd a) -> tells_blind (poseCallback pq e c a x t so i)).
  { intros a x t so i Ha Hb. apply sensor_blind. intros n v c0. apply pose_blind; [apply Hs, Ha|exact Hb]. }
  assert (HT : forall a x t, blind (cd_upd a) -> tells_blind (twistCallback pq e c a x t)).
  { intros a x t Ha. apply sensor_blind. intros n v c0 _. apply twist_blind, Ha. }
  assert (HA : forall a x t, blind (cd_upd a) -> tells_blind (accelerationCallback pq e c a x t)).
  { intros a x t Ha. apply sensor_blind. intros n v c0 _. apply acceleration_blind, Ha. }
  destruct s as [t a b|a|a|t a b d], m as [x|x|x|x]; try (exact skip_blind); cbn [blind_sub] in HB.
  - destruct HB as [B1 B2]. intros n. unfold receive, odometryCallback. destruct (Z.geb (n_set_pose n) (o_stamp x)); [constructor|].
    apply then_blind.
    + destruct (Z.gtb (cd_sum a) 0); [apply HP; [left; reflexivity|exact B1]|apply skip_blind].
    + destruct (Z.gtb (cd_sum b) 0); [apply HT; exact B2|apply skip_blind].
  - apply HP; [left; reflexivity|exact HB].
  - apply HT. exact HB.
  - destruct HB as (B1 & B2 & B3). intros n. unfold receive, imuCallback. destruct (Z.geb (n_set_pose n) (im_stamp x)); [constructor|].
    apply then_blind; [|apply then_blind].
    + destruct (_ && _)%bool; [apply HP; [left; reflexivity|right; exact B1]|apply skip_blind].
    + destruct (_ && _)%bool; [apply HT; exact B2|apply skip_blind].
    + destruct (_ && _)%bool; [apply HA; exact B3|apply skip_blind].
Qed.
End Prepare.

Lemma loaded_blind {E} (p : params RScalar) period now (f : fb RScalar E) ld s :
  loadParams p period now f = Ok ld -> dead_reckoning p -> In s (ld_subs ld) -> blind_sub s.
Proof.
  intros HL (Fo & Fp) Hs. rewrite Forall_forall in Fo, Fp.
  assert (Z : forall o keep v, masked o keep v -> (forall i, (i < 3)%nat -> keep i = false) \/ unlocated o -> blind v).
  { intros o keep v (_ & Hm) [H|H] i Hi; rewrite Hm, (H i Hi); [reflexivity|apply andb_false_r]. }
  assert (W : forall i, (i < 3)%nat -> negb (within 0 6 i) = false) by (intros i Hi; do 3 (destruct i as [|i]; [reflexivity|]); lia).
  destruct (subs_from p period now f ld s HL Hs) as [H|[H|[H|H]]].
  - destruct H as (i & o & Hi & a & b & -> & M1 & M2 & _ & _ & (D & _) & _). apply nth_error_In in Hi. specialize (Fo _ Hi).
    split; [|apply (Z _ _ _ M2); left; exact W]. destruct Fo as [Fo|Fo]; [left; rewrite D; exact Fo|right; apply (Z _ _ _ M1); right; exact Fo].
  - destruct H as (i & o & Hi & a & -> & M1 & _ & (D & _) & _). apply nth_error_In in Hi. specialize (Fp _ Hi).
    cbn. destruct Fp as [Fp|Fp]; [left; rewrite D; exact Fp|right; apply (Z _ _ _ M1); right; exact Fp].
  - destruct H as (i & o & Hi & a & -> & M1 & _). apply (Z _ _ _ M1). left. exact W.
  - destruct H as (i & o & Hi & a & b & d' & -> & M1 & M2 & M3 & _).
    split; [apply (Z _ _ _ M1)|split; [apply (Z _ _ _ M2)|apply (Z _ _ _ M3)]]; left; intros k Hk; do 3 (destruct k as [|k]; [reflexivity|]); lia.
Qed.

(** ** The node *)
Section Node.
Variable eig : Eigen RScalar.
Variable pq : pqueue RScalar.
Variable c : config RScalar.
Variable dyn : Prop.
Variable S : rmat.
Hypothesis Hpq : pq_ok pq.
Hypothesis HQ : noise_ok dyn (c_Q c).
Hypothesis HP : psd 15 (c_P c).
Hypothesis HPd : diagonal 15 (c_P c).
Hypothesis HS : position_only S.
Hypothesis HPS : loewner_le 15 S (c_P c).

Definition reckoner (f : ekf RScalar) : Prop := sane dyn f /\ @F_ok RScalar (fb_F f) /\ loewner_le 15 S (fb_P f).
Definition blind_meas (m : meas RScalar) : Prop := good_meas m /\ no_position m.
Definition blind_snap (s : fstate RScalar) : Prop := psd 15 (fs_P s) /\ loewner_le 15 S (fs_P s).

Let O : rmat := fun _ _ => 0.
Lemma without (t : R) (P : rmat) : loewner_le 15 (fun i j => S i j + t * O i j) P -> loewner_le 15 S P.
Proof. intros H x. specialize (H x). rewrite (quad_ext 15 S (fun i j => S i j + t * O i j)); [exact H|]. intros i j _ _. unfold O. ring. Qed.
Lemma zero_only : position_only O.
Proof. intros i j _ _ _. reflexivity. Qed.
Lemma zero_noise (f : ekf RScalar) : inv dyn f -> loewner_le 15 O (fb_Q f).
Proof.
  intros (_ & [[_ H] _] & _) x. apply Rle_trans with 0; [right|apply H]. unfold quad. apply rsum_zero. intros. apply rsum_zero. intros. unfold O. ring.
Qed.

Lemma process_F (vt : vtbl RScalar unit) (s : ekf RScalar) m : (forall s r d, @F_ok RScalar (fb_F s) -> @F_ok RScalar (fb_F (v_predict vt s r d))) ->
  (forall s m, @F_ok RScalar (fb_F s) -> @F_ok RScalar (fb_F (v_correct vt s m))) -> @F_ok RScalar (fb_F s) -> @F_ok RScalar (fb_F (processMeasurement vt s m)).
Proof.
  intros Hp Hc HF. unfold processMeasurement. destruct (fb_initialized s); [|exact HF]. cbv zeta.
  match goal with |- context [v_correct vt ?x m] => set (s1 := x) end.
  assert (E : @F_ok RScalar (fb_F s1)).
  { unfold s1. destruct (Z.gtb _ _); [|exact HF]. specialize (Hp s (m_time m) (m_time m - fb_last_time s)%Z HF).
    generalize dependent (v_predict vt s (m_time m) (m_time m - fb_last_time s)%Z). intros x Hx. exact Hx. }
  specialize (Hc s1 m E). generalize dependent (v_correct vt s1 m). intros x Hx. destruct (Z.geb _ _); exact Hx.
Qed.
Lemma predict_F_ok (s : ekf RScalar) r d : @F_ok RScalar (fb_F s) -> @F_ok RScalar (fb_F (ekf_predict s r d)).
Proof.
  intros HF. assert (fb_F (ekf_predict s r d) = EkfFacts.predict_F s d) as -> by apply (EkfFacts.predict_other s r d). apply transfer_F_ok, HF.
Qed.
Lemma correct_F_ok (s : ekf RScalar) m : @F_ok RScalar (fb_F s) -> @F_ok RScalar (fb_F (ekf_correct eig s m)).
Proof.
  intros HF. assert (fb_F (ekf_correct eig s m) = fb_F s) as -> by apply (EkfFacts.correct_other eig s m). exact HF.
Qed.

Lemma reckoner_process (f : ekf RScalar) m : reckoner f -> blind_meas m -> reckoner (processMeasurement (ekf_vtbl eig) f m).
Proof.
  intros (A & B & C) (M1 & M2). split; [apply sane_process; assumption|]. split.
  - apply process_F; [exact predict_F_ok|exact correct_F_ok|exact B].
  - eapply without. apply (process_above eig dyn S O f m); try assumption.
    + split; [exact M1|]. intros Hf. apply decoupled_diagonal. apply A. exact Hf.
    + apply A.
    + exact zero_only.
    + apply zero_noise, A.
    + intros _ i j. reflexivity.
Qed.
Lemma reckoner_predict (f : ekf RScalar) r d : (0 <= d)%Z -> fb_initialized f = true -> reckoner f -> reckoner (v_predict (ekf_vtbl eig) f r d).
Proof.
  intros Hd Hi (A & B & C). split; [apply sane_predict; assumption|]. split; [apply predict_F_ok; exact B|].
  eapply without. apply (predict_above dyn S O f r d); try assumption.
  - apply A.
  - apply zero_noise, A.
  - intros _ i j. reflexivity.
Qed.
Lemma reckoner_save (f : ekf RScalar) : fb_initialized f = true -> reckoner f -> blind_snap (snapshot f).
Proof. intros _ (A & _ & C). split; [apply A|exact C]. Qed.
Lemma reckoner_restore (f : ekf RScalar) s : fb_initialized f = true -> reckoner f -> blind_snap s -> reckoner (load f s).
Proof. intros Hi (A & B & C) (S1 & S2). split; [apply sane_restore; assumption|]. split; [exact B|exact S2]. Qed.
Lemma reckoner_reset (f : ekf RScalar) : reckoner f ->
  reckoner (setEstimateErrorCovariance (setProcessNoiseCovariance (setSensorTimeout (fb_reset f) (c_sensor_timeout c)) (c_Q c)) (c_P c)).
Proof. intros (A & B & C). split; [apply sane_reset; assumption|]. split; [apply meye_F_ok|exact HPS]. Qed.

Let ok := carried reckoner blind_meas blind_snap.
Let after := filter_after pq (ekf_vtbl eig) c.
Definition leaves_floor (n : node RScalar unit) (i : input (K:=RScalar) (E:=unit)) : Prop :=
  match i with
  | Event (EvSetPose stamp prep now) => loewner_le 15 S (fb_P (after n (EvSetPose stamp prep now)))
  | _ => True
  end.
Let Cond (subs : list (subscription RScalar)) (n : node RScalar unit) (i : input (K:=RScalar) (E:=unit)) : Prop :=
  usable c subs after n i /\ leaves_floor n i.

Lemma along_weak {E} (C D : node RScalar E -> input (K:=RScalar) (E:=E) -> Prop) vt is : (forall n i, C n i -> D n i) ->
  forall n, along C pq vt c n is -> along D pq vt c n is.
Proof. intros H. induction is as [|i is IH]; intros n HA; [exact I|]. destruct HA as [A B]. split; [apply H, A|apply IH, B]. Qed.

Lemma queued_blind is : forall (n : node RScalar unit) subs,
  (forall s, In s subs -> full s) -> (forall s, In s subs -> blind_sub s) ->
  along (usable c subs after) pq (ekf_vtbl eig) c n is ->
  Forall no_position (queued (snd (respond pq (ekf_vtbl eig) c n is))).
Proof.
  induction is as [|i is IH]; intros n subs Hs HB HA; [constructor|].
  destruct HA as [HA1 HA2]. rewrite (proj2 (respond_cons pq (ekf_vtbl eig) c EmptyString is n)). cbn [snd].
  rewrite queued_app. apply Forall_app. split; [|eapply IH; eassumption].
  destruct i as [e s m|ev]; cbn [deliver].
  - cbn [usable] in HA1. destruct HA1 as (S1 & S2 & S3 & S4). apply receive_blind; [exact S2|apply Hs, S1|apply HB, S1].
  - rewrite event_queues_nothing; [constructor|exact Hpq|]. destruct ev; auto.
Qed.

Lemma set_pose_reckoner (n : node RScalar unit) subs stamp prep now : ok n -> Cond subs n (Event (EvSetPose stamp prep now)) ->
  reckoner (n_filter (fst (node_step pq (ekf_vtbl eig) c n (EvSetPose stamp prep now)))).
Proof.
  intros Hn [Hu Hl]. destruct (ca_filter _ _ _ _ Hn) as (A & B & C).
  split; [|split; [exact B|exact Hl]].
  apply (set_pose_sane eig pq c dyn n subs); [|exact Hu].
  destruct Hn as [N1 N2 N3 N4]. constructor; [apply N1| | |]; eapply Forall_impl; [|exact N2| |exact N3| |exact N4]; intros a Ha; apply Ha.
Qed.

Lemma shown_floor (o : output RScalar unit) m : shown c ok o -> o = OutOdom m -> loewner_le 3 S (as_matrix 6 (o_pose_cov m)).
Proof.
  intros Hs ->. cbn [shown] in Hs. destruct Hs as (n & Hn & Hm). destruct (ca_filter _ _ _ _ Hn) as (_ & _ & C).
  unfold getFilteredOdometryMessage in Hm. destruct (fb_initialized (n_filter n)); [|discriminate].
  injection Hm as <-. cbn [o_pose_cov]. intros x.
  assert (R3 : forall (M : rmat), quad 3 M x = quad 15 M (fun k => if Nat.ltb k 3 then x k else 0)).
  { intros M. unfold quad. cbn [rsum Nat.ltb Nat.leb]. ring. }
  match goal with |- _ <= quad 3 ?A x => rewrite (quad_ext 3 A (fb_P (n_filter n))) end.
  - rewrite !R3. apply C.
  - intros i j Hi Hj. rewrite flat6_entry by lia. reflexivity.
Qed.

Lemma node_floor N subs is (n : node RScalar unit) :
  (forall s, In s subs -> full s) -> (forall s, In s subs -> blind_sub s) -> sound_streams (n_streams n) -> node_inv c N n -> ok n -> steady_clock N is ->
  along (Cond subs) pq (ekf_vtbl eig) c n is ->
  forall m, In (OutOdom m) (snd (respond pq (ekf_vtbl eig) c n is)) -> loewner_le 3 S (as_matrix 6 (o_pose_cov m)).
Proof.
  intros Hs HB HSt Hi Hok Hc HA m Hm.
  assert (HU : along (usable c subs after) pq (ekf_vtbl eig) c n is) by (revert HA; apply along_weak; intros a b H; apply H).
  assert (HG : Forall blind_meas (queued (snd (respond pq (ekf_vtbl eig) c n is)))).
  { pose proof (queued_good eig pq c Hpq is n subs Hs HSt HU) as G1. pose proof (queued_blind is n subs Hs HB HU) as G2.
    rewrite Forall_forall in *. intros y Hy. split; [apply G1, Hy|apply G2, Hy]. }
  destruct (respond_carried pq (ekf_vtbl eig) c Hpq (ekf_neutral eig) reckoner blind_meas blind_snap
    reckoner_process reckoner_predict (fun f u t H => H) (fun f t H => H)
    reckoner_save reckoner_restore reckoner_reset (Cond subs)
    (fun n stamp prep now Hn Hu => set_pose_reckoner n subs stamp prep now Hn Hu) is N n Hi Hc Hok HA HG) as [_ R2].
  rewrite Forall_forall in R2. exact (shown_floor _ m (R2 _ Hm) eq_refl).
Qed.
End Node.

Lemma taken_agree (v : list R) (d1 d2 : mat RScalar) (A B : mat RScalar) :
  taken_as (K := RScalar) (Some v) d1 A -> taken_as (K := RScalar) (Some v) d2 B -> meq 15 15 A B.
Proof.
  intros [A1 A2] [B1 B2] i j Hi Hj. destruct (Nat.eq_dec (List.length v) 15) as [H|H].
  - destruct (A1 H) as [A3 A4]. destruct (B1 H) as [B3 B4]. destruct (Nat.eq_dec i j) as [<-|Hne].
    + specialize (A3 i Hi). specialize (B3 i Hi). congruence.
    + rewrite A4, B4 by assumption. reflexivity.
  - specialize (A2 H i j Hi Hj). specialize (B2 H i j Hi Hj). congruence.
Qed.
Lemma part_only (M : rmat) : position_only (position_part M).
Proof.
  intros i j _ _ H. unfold position_part. destruct (Nat.ltb_spec i 3); [|reflexivity]. destruct (Nat.ltb_spec j 3); [lia|reflexivity].
Qed.
Lemma part_below (M P : rmat) : psd 15 P -> diagonal 15 P -> meq 15 15 M P -> loewner_le 15 (position_part M) P.
Proof.
  intros HP HD HE x.
  rewrite (quad_ext 15 (position_part M) (fun i j => if Nat.eqb i j then (if Nat.ltb i 3 then P i i else 0) else 0)).
  - rewrite (quad_ext 15 P (fun i j => if Nat.eqb i j then P i i else 0)).
    + rewrite !quad_diag.
      assert (G : forall n, (n <= 15)%nat -> rsum n (fun i => (if Nat.ltb i 3 then P i i else 0) * (x i * x i)) <= rsum n (fun i => P i i * (x i * x i))).
      { induction n as [|n IH]; intros Hn; [cbn; lra|]. cbn [rsum]. specialize (IH ltac:(lia)).
        pose proof (psd_diag_nonneg 15 P n HP ltac:(lia)) as Hp. pose proof (Rle_0_sqr (x n)) as Hx. unfold Rsqr in Hx.
        pose proof (Rmult_le_pos _ _ Hp Hx). destruct (Nat.ltb n 3); lra. }
      apply G. lia.
    + intros i j Hi Hj. destruct (Nat.eqb_spec i j) as [<-|Hne]; [reflexivity|]. apply HD; assumption.
  - intros i j Hi Hj. unfold position_part. destruct (Nat.eqb_spec i j) as [<-|Hne].
    + destruct (Nat.ltb i 3); [cbn; apply HE; assumption|reflexivity].
    + destruct (_ && _)%bool; [|reflexivity]. rewrite HE by assumption. apply HD; assumption.
Qed.

(** From start-up on. *)
Lemma started_floor eig (pq : pqueue RScalar) (p : params RScalar) period now later g ang nothing ld n t0 is v (M : rmat) :
  pq_ok pq -> start p period now later (fb_init g tt) ang nothing = Ok (ld, n) -> full_configs p -> covariance_params p -> dead_reckoning p ->
  p_P p = Some v -> taken_as (K := RScalar) (Some v) mzero M -> steady_clock t0 is ->
  along (fun n i => usable (ld_config ld) (ld_subs ld) (filter_after pq (ekf_vtbl eig) (ld_config ld)) n i /\
     match i with
     | Event (EvSetPose stamp prep now) => loewner_le 15 (position_part M) (fb_P (filter_after pq (ekf_vtbl eig) (ld_config ld) n (EvSetPose stamp prep now)))
     | _ => True
     end) pq (ekf_vtbl eig) (ld_config ld) n is ->
  forall m, In (OutOdom m) (snd (respond pq (ekf_vtbl eig) (ld_config ld) n is)) -> loewner_le 3 M (as_matrix 6 (o_pose_cov m)).
Proof.
  intros Hq Hst HF [CP CQ] HD EP HM Hc HA m Hm.
  destruct (start_fresh p period now later g tt ang nothing ld n Hst) as (U & _ & _ & _ & _ & _).
  destruct U as (U1 & U2 & U3 & U4 & U5 & U6 & _ & _ & _ & _ & _ & U7).
  destruct (start_filter p period now later g tt ang nothing ld n Hst) as (_ & _ & F3 & _ & _ & F6 & F7 & F8 & F9 & F10).
  pose proof (start_matrix p period now later g ang nothing ld n Hst) as F0.
  pose proof (start_eq _ _ _ _ _ _ _ _ _ Hst) as (HL & _).
  set (dyn := p_dynamic_noise p = true).
  assert (HcQ : noise_ok dyn (c_Q (ld_config ld))).
  { destruct (p_Q p) as [w|] eqn:EQ; [exact (CQ w _ eq_refl F9)|]. cbn in F9. rewrite F9.
    split; [apply zero_psd|]. intros _ i j _ _ _. reflexivity. }
  assert (HfQ : noise_ok dyn (fb_Q (n_filter n))).
  { destruct (p_Q p) as [w|] eqn:EQ; [exact (CQ w _ eq_refl F6)|]. cbn in F6. rewrite F6.
    split; [apply default_Q_psd|]. intros _ i j Hi Hj Hne. unfold default_Q. destruct (Nat.eqb_spec i j); [congruence|]. reflexivity. }
  rewrite EP in F8, F10.
  destruct (CP v _ EP F10) as [HcP1 HcP2].
  assert (F8' : taken_as (K := RScalar) (Some v) mzero (fb_P (n_filter n))) by exact F8.
  destruct (CP v _ EP F8') as [HfP1 HfP2].
  assert (G : loewner_le 3 (position_part M) (as_matrix 6 (o_pose_cov m))).
  { refine (node_floor eig pq (ld_config ld) dyn (position_part M) Hq HcQ HcP1 HcP2 (part_only M) _ t0 (ld_subs ld) is n _ _ _ _ _ Hc HA m Hm).
    - apply part_below; [exact HcP1|exact HcP2|exact (taken_agree _ _ _ _ _ HM F10)].
    - intros s Hs. exact (loaded_full _ _ _ _ _ s HL HF Hs).
    - intros s Hs. exact (loaded_blind _ _ _ _ _ s HL HD Hs).
    - split; [rewrite U4|split; [rewrite U5|rewrite U6]]; intros k x Hx; discriminate Hx.
    - apply inv_empty; [exact U2|exact U3|]. rewrite U7. discriminate.
    - constructor; [|rewrite U1; constructor|rewrite U2; constructor|rewrite U3; constructor].
      split; [split|split].
      + split; [exact HfP1|]. split; [exact HfQ|]. split; [rewrite F7; reflexivity|]. rewrite F3. intros H. exact H.
      + intros _; exact HfP2.
      + rewrite F0. apply meye_F_ok.
      + apply part_below; [exact HfP1|exact HfP2|exact (taken_agree _ _ _ _ _ HM F8)]. }
  intros x. specialize (G x). rewrite (quad_ext 3 M (position_part M)); [exact G|].
  intros i j Hi Hj. unfold position_part. apply Nat.ltb_lt in Hi, Hj. rewrite Hi, Hj. reflexivity.
Qed.
