(** * Two nodes with related contents do related things *)

From Coq Require Import ZArith List Bool String Lia.
From Verif Require Import Scalar Mat FilterBase Tf StrMap Diagnostics RosFilter RosConfig RosPrepare SpecNode SpecPrepare SpecShift NodeProofs.
Import ListNotations.
Local Open Scope Z_scope.
Local Open Scope list_scope.

(** ** Lists *)
Section Lists.
Context {A : Type} (R : A -> A -> Prop).
Lemma pop_while_two (p : A -> bool) (Hp : forall a a', R a a' -> p a' = p a) l l' : Forall2 R l l' ->
  Forall2 R (fst (pop_while p l)) (fst (pop_while p l')) /\ Forall2 R (snd (pop_while p l)) (snd (pop_while p l')).
Proof.
  induction 1 as [|a a' l l' Ha Hl IH]; [split; constructor|]. cbn [pop_while]. rewrite (Hp _ _ Ha). destruct (p a).
  - destruct (pop_while p l), (pop_while p l'). cbn in *. destruct IH. split; [assumption|constructor; assumption].
  - cbn. split; constructor; assumption.
Qed.
Lemma rev_two l l' : Forall2 R l l' -> Forall2 R (rev l) (rev l').
Proof. induction 1; cbn; [constructor|]. apply Forall2_app; [assumption|repeat constructor; assumption]. Qed.
Lemma pop_back_two (p : A -> bool) (Hp : forall a a', R a a' -> p a' = p a) l l' : Forall2 R l l' ->
  Forall2 R (fst (pop_back_while p l)) (fst (pop_back_while p l')) /\ Forall2 R (snd (pop_back_while p l)) (snd (pop_back_while p l')).
Proof.
  intros H. unfold pop_back_while. destruct (pop_while_two p Hp _ _ (rev_two _ _ H)) as (H1 & H2).
  destruct (pop_while p (rev l)), (pop_while p (rev l')). cbn in *. split; [apply rev_two; assumption|assumption].
Qed.
Lemma last_two l l' : Forall2 R l l' ->
  match last_opt l, last_opt l' with Some a, Some a' => R a a' | None, None => True | _, _ => False end.
Proof. intros H. apply rev_two in H. unfold last_opt. inversion H; subst; auto. Qed.
Lemma length_two l l' : Forall2 R l l' -> List.length l' = List.length l.
Proof. induction 1; cbn; congruence. Qed.
End Lists.

Section Sim.
Context {K : Scalar} {E : Type}.
Variable pq : pqueue K.
Variable vt : vtbl K E.
Variable c : config K.
Hypothesis Hok : pq_ok pq.
Hypothesis Hpq : time_blind pq.

Variable Rf : fb K E -> fb K E -> Prop.
Variable Rm : meas K -> meas K -> Prop.
Variable Rs : fstate K -> fstate K -> Prop.
Variable Rt : streams K -> streams K -> Prop.
Variable Ro : output K E -> output K E -> Prop.
(** what must hold when a measurement is fused *)
Variable okf : fb K E -> meas K -> Prop.
Definition fusions (os : list (output K E)) : Prop :=
  Forall (fun o => match o with OutFused f m => okf f m | _ => True end) os.

Definition Rn (n n' : node K E) : Prop :=
  exists f q mh sh st,
    n' = mkNode f q mh sh st (n_last_msg n) (n_set_pose n) (n_last_diag n) (n_ctl n) (n_ctl_time n)
           (n_last_pub n) (n_toggled n) (n_enabled n) (n_ang n) (n_diag n) /\
    Rf (n_filter n) f /\ Forall2 Rm (n_queue n) q /\ Forall2 Rm (n_meas_hist n) mh /\ Forall2 Rs (n_state_hist n) sh /\
    Rt (n_streams n) st.

Hypothesis Hm_fields : forall m m', Rm m m' -> m_time m' = m_time m /\ m_control m' = m_control m /\ m_control_time m' = m_control_time m.
Hypothesis Hs_time : forall s s', Rs s s' -> fs_time s' = fs_time s.
Hypothesis Hf_fields : forall f f', Rf f f' -> fb_initialized f' = fb_initialized f /\ fb_last_time f' = fb_last_time f /\
  fb_sensor_timeout f' = fb_sensor_timeout f /\ fb_P f' = fb_P f /\
  (fb_initialized f = true -> forall k, (9 <= k < 12)%nat -> fb_state f' k = fb_state f k).
Hypothesis Hproc : forall f f' m m', Rf f f' -> Rm m m' -> okf f m -> Rf (processMeasurement vt f m) (processMeasurement vt f' m').
Hypothesis Hproc_init : forall f m, fb_initialized (processMeasurement vt f m) = true.
Hypothesis Hpred : forall f f' r dt, Rf f f' -> fb_initialized f = true -> Rf (v_predict vt f r dt) (v_predict vt f' r dt).
Hypothesis Htime : forall f f' t, Rf f f' -> Rf (set_last_time f t) (set_last_time f' t).
Hypothesis Hctl : forall f f' u t, Rf f f' -> Rf (setControl f u t) (setControl f' u t).
Hypothesis Hsave : forall f f', Rf f f' -> fb_initialized f = true -> Rs (snapshot f) (snapshot f').
Hypothesis Hload : forall f f' s s', Rf f f' -> Rs s s' -> Rf (load f s) (load f' s').
Hypothesis Hreset : forall f f', Rf f f' ->
  Rf (setEstimateErrorCovariance (setProcessNoiseCovariance (setSensorTimeout (fb_reset f) (c_sensor_timeout c)) (c_Q c)) (c_P c))
     (setEstimateErrorCovariance (setProcessNoiseCovariance (setSensorTimeout (fb_reset f') (c_sensor_timeout c)) (c_Q c)) (c_P c)).
Hypothesis Hnone : Rt no_streams no_streams.
Hypothesis Hvis : forall n n' lookup, Rn n n' -> Forall2 Ro (visible c n lookup) (visible c n' lookup).
Hypothesis Ho_fused : forall f f' m m', Rf f f' -> Rm m m' -> Ro (OutFused f m) (OutFused f' m').
Hypothesis Ho_queued : forall m m', Rm m m' -> Ro (OutQueued m) (OutQueued m').
Hypothesis Ho_predict : forall r dt, Ro (OutPredict r dt) (OutPredict r dt).
Hypothesis Ho_status : forall b, Ro (OutStatus b) (OutStatus b).
Hypothesis Ho_report : forall r, Ro (OutReport r) (OutReport r).

Let Rm_time m m' (H : Rm m m') : m_time m' = m_time m := proj1 (Hm_fields m m' H).

Lemma push_sim m m' q q' : Rm m m' -> Forall2 Rm q q' -> Forall2 Rm (pq_push pq m q) (pq_push pq m' q').
Proof. exact (proj1 (Hpq Rm Rm_time) m m' q q'). Qed.
Lemma pop_sim q q' : Forall2 Rm q q' ->
  match pq_pop pq q, pq_pop pq q' with
  | None, None => True | Some (m, r), Some (m', r') => Rm m m' /\ Forall2 Rm r r' | _, _ => False end.
Proof. exact (proj2 (Hpq Rm Rm_time) q q'). Qed.

Lemma Rn_filter n n' : Rn n n' -> Rf (n_filter n) (n_filter n').
Proof. intros (f & q & mh & sh & st & -> & H & _). exact H. Qed.
Lemma Rn_queue n n' : Rn n n' -> Forall2 Rm (n_queue n) (n_queue n').
Proof. intros (f & q & mh & sh & st & -> & _ & H & _). exact H. Qed.

Lemma loop_node_sim restored n n' m m' r r' : Rn n n' -> Rm m m' -> Forall2 Rm r r' ->
  okf (loop_filter c restored (n_filter n) m) m ->
  Rn (loop_node pq vt c restored n m r) (loop_node pq vt c restored n' m' r') /\
  Rf (loop_filter c restored (n_filter n) m) (loop_filter c restored (n_filter n') m').
Proof.
  intros (f & q & mh & sh & st & -> & H1 & H2 & H3 & H4 & H5) Hm Hr Hk.
  destruct (Hm_fields _ _ Hm) as (M1 & M2 & M3).
  assert (HL : Rf (loop_filter c restored (n_filter n) m) (loop_filter c restored f m')).
  { unfold loop_filter. rewrite M2, M3. destruct (loop_control c restored); [apply Hctl|]; exact H1. }
  split; [|exact HL]. unfold loop_node. cbn [n_filter n_meas_hist n_state_hist n_streams n_last_msg n_set_pose n_last_diag n_ctl n_ctl_time n_last_pub n_toggled n_enabled n_ang n_diag].
  pose proof (Hproc _ _ _ _ HL Hm Hk) as HP. destruct (Hf_fields _ _ HP) as (F1 & F2 & _).
  assert (HS : loop_saves pq r' (processMeasurement vt (loop_filter c restored f m') m') =
               loop_saves pq r (processMeasurement vt (loop_filter c restored (n_filter n) m) m)).
  { unfold loop_saves. rewrite F2. pose proof (pop_sim _ _ Hr) as HQ.
    destruct (pq_pop pq r) as [[a ra]|], (pq_pop pq r') as [[a' ra']|]; try contradiction; [|reflexivity].
    rewrite (Rm_time _ _ (proj1 HQ)). reflexivity. }
  rewrite HS. do 5 eexists. split; [reflexivity|]. cbn [n_filter n_queue n_meas_hist n_state_hist n_streams].
  split; [exact HP|]. split; [exact Hr|]. split; [destruct (c_smooth c); [apply Forall2_app; [exact H3|repeat constructor; exact Hm]|exact H3]|].
  split; [|exact H5]. destruct (c_smooth c && _)%bool; [|exact H4]. apply Forall2_app; [exact H4|]. repeat constructor.
  apply Hsave; [exact HP|]. apply Hproc_init.
Qed.

Lemma loop_sim fuel now : forall restored n n', Rn n n' ->
  fusions (snd (integrate_loop pq vt c fuel now restored n)) ->
  Rn (fst (integrate_loop pq vt c fuel now restored n)) (fst (integrate_loop pq vt c fuel now restored n')) /\
  Forall2 Ro (snd (integrate_loop pq vt c fuel now restored n)) (snd (integrate_loop pq vt c fuel now restored n')).
Proof.
  induction fuel as [|fuel IH]; intros restored n n' HR; [cbn; intros _; split; [exact HR|constructor]|].
  rewrite !loop_step. pose proof (pop_sim _ _ (Rn_queue _ _ HR)) as HQ.
  destruct (pq_pop pq (n_queue n)) as [[m r]|], (pq_pop pq (n_queue n')) as [[m' r']|]; try contradiction;
    [|cbn; intros _; split; [exact HR|constructor]].
  destruct HQ as (Hm & Hr). rewrite (Rm_time _ _ Hm).
  destruct (now <? m_time m); [cbn; intros _; split; [exact HR|constructor]|].
  pose proof (loop_node_sim restored n n' m m' r r' HR Hm Hr) as HS.
  specialize (IH (loop_count c restored) (loop_node pq vt c restored n m r) (loop_node pq vt c restored n' m' r')).
  destruct (integrate_loop pq vt c fuel now (loop_count c restored) (loop_node pq vt c restored n m r)) as [n3 o3].
  destruct (integrate_loop pq vt c fuel now (loop_count c restored) (loop_node pq vt c restored n' m' r')) as [n3' o3'].
  cbn [fst snd] in *. intros HF. inversion HF as [|? ? Hk HF']; subst. destruct (HS Hk) as (HN & HL).
  destruct (IH HN HF') as (I1 & I2). split; [exact I1|]. constructor; [|exact I2]. apply Ho_fused; assumption.
Qed.

Lemma restore_sim n n' s s' t : Rn n n' -> Rs s s' -> Rn (restoreSnapshot pq n s t) (restoreSnapshot pq n' s' t).
Proof.
  intros (f & q & mh & sh & st & -> & H1 & H2 & H3 & H4 & H5) Hs. unfold restoreSnapshot. cbn [n_meas_hist n_filter n_queue].
  assert (HP : forall m m', Rm m m' -> (m_time m' >? t) = (m_time m >? t)) by (intros m m' HM; rewrite (Rm_time _ _ HM); reflexivity).
  destruct (pop_back_two Rm _ HP _ _ H3) as (A & B).
  destruct (pop_back_while _ (n_meas_hist n)) as [k p]. destruct (pop_back_while _ mh) as [k' p']. cbn [fst snd] in A, B.
  do 5 eexists. split; [reflexivity|]. cbn [n_filter n_queue n_meas_hist n_state_hist n_streams with_queue with_meas_hist with_filter].
  split; [apply (Hload _ _ s s' H1 Hs)|]. split; [|auto].
  clear - B H2 Hs Hs_time Hpq Rm_time. rewrite (Hs_time _ _ Hs). revert H2. generalize (n_queue n) q.
  induction B as [|m m' p p' Hm HB IH]; intros u u' Hu; [exact Hu|]. cbn [fold_left]. apply IH.
  rewrite (Rm_time _ _ Hm). destruct (fs_time s <=? m_time m); [|exact Hu].
  exact (proj1 (Hpq Rm Rm_time) m m' u u' Hm Hu).
Qed.
Lemma revert_sim n n' t : Rn n n' -> Rn (snd (revertTo pq n t)) (snd (revertTo pq n' t)).
Proof.
  intros HR. assert (HR0 := HR). destruct HR as (f & q & mh & sh & st & E' & H1 & H2 & H3 & H4 & H5). unfold revertTo.
  assert (HP : forall s s', Rs s s' -> (fs_time s' >? t) = (fs_time s >? t)) by (intros s s' HM; rewrite (Hs_time _ _ HM); reflexivity).
  assert (HH : n_state_hist n' = sh) by (rewrite E'; reflexivity). rewrite HH.
  destruct (pop_back_two Rs _ HP _ _ H4) as (A & B).
  destruct (pop_back_while _ (n_state_hist n)) as [k p]. destruct (pop_back_while _ sh) as [k' p']. cbn [fst snd] in A, B.
  assert (HK : Rn (with_state_hist n k) (with_state_hist n' k')).
  { rewrite E'. do 5 eexists. split; [reflexivity|]. auto. }
  pose proof (last_two Rs _ _ A) as LA. pose proof (last_two Rs _ _ B) as LB.
  destruct (last_opt k) as [s|], (last_opt k') as [s'|]; try contradiction; cbn [snd]; [apply restore_sim; assumption|].
  destruct (last_opt p) as [s|], (last_opt p') as [s'|]; try contradiction; cbn [snd]; [apply restore_sim; assumption|exact HK].
Qed.
Lemma lag_sim n n' : Rn n n' ->
  fst (revert_if_lagged pq c n') = fst (revert_if_lagged pq c n) /\
  Rn (snd (revert_if_lagged pq c n)) (snd (revert_if_lagged pq c n')).
Proof.
  intros HR. unfold revert_if_lagged. pose proof (pop_sim _ _ (Rn_queue _ _ HR)) as HQ.
  destruct (pq_pop pq (n_queue n)) as [[m r]|], (pq_pop pq (n_queue n')) as [[m' r']|]; try contradiction; [|cbn; auto].
  destruct (Hf_fields _ _ (Rn_filter _ _ HR)) as (_ & F2 & _). rewrite F2, (Rm_time _ _ (proj1 HQ)).
  destruct (_ && _)%bool; [|cbn; auto]. cbn [fst snd]. pose proof (revert_sim n n' (m_time m - 1) HR) as HV.
  split; [|exact HV]. rewrite (length_two Rm _ _ (Rn_queue _ _ HV)), (length_two Rm _ _ (Rn_queue _ _ HR)). reflexivity.
Qed.

Lemma catch_up_sim now n n' : Rn n n' -> fusions (snd (catch_up pq vt c now n)) ->
  Rn (fst (catch_up pq vt c now n)) (fst (catch_up pq vt c now n')) /\
  Forall2 Ro (snd (catch_up pq vt c now n)) (snd (catch_up pq vt c now n')).
Proof.
  intros HR. unfold catch_up. pose proof (Rn_queue _ _ HR) as HQ.
  destruct (lag_sim n n' HR) as (L1 & L2).
  inversion HQ; [cbn; intros _; split; [exact HR|constructor]|].
  destruct (revert_if_lagged pq c n) as [z m0], (revert_if_lagged pq c n') as [z' m0']. cbn [fst snd] in *. subst z'.
  rewrite (length_two Rm _ _ (Rn_queue _ _ L2)). apply loop_sim. exact L2.
Qed.
Lemma fusions_app os os' : fusions (os ++ os') -> fusions os /\ fusions os'.
Proof. apply Forall_app. Qed.

Lemma integrate_sim now n n' : Rn n n' -> fusions (snd (integrateMeasurements pq vt c now n)) ->
  Rn (fst (integrateMeasurements pq vt c now n)) (fst (integrateMeasurements pq vt c now n')) /\
  Forall2 Ro (snd (integrateMeasurements pq vt c now n)) (snd (integrateMeasurements pq vt c now n')).
Proof.
  intros HR. rewrite !integrate_eq by exact Hok. pose proof (catch_up_sim now n n' HR) as HC.
  assert (HJ : projects c now n' = projects c now n).
  { unfold projects. destruct (Hf_fields _ _ (Rn_filter _ _ HR)) as (F1 & F2 & F3 & _). rewrite F1, F2, F3.
    pose proof (Rn_queue _ _ HR) as HQ. inversion HQ; reflexivity. }
  rewrite HJ. destruct (catch_up pq vt c now n) as [n1 o1], (catch_up pq vt c now n') as [n1' o1']. cbn [fst snd] in HC.
  intros HF. assert (HF1 : fusions o1).
  { destruct (_ && _)%bool in HF; cbn [snd] in HF; [apply fusions_app in HF; tauto|exact HF]. }
  destruct (HC HF1) as (C1 & C2). destruct (Hf_fields _ _ (Rn_filter _ _ C1)) as (F1 & F2 & _). rewrite F1.
  destruct (fb_initialized (n_filter n1)) eqn:EI; cbn [andb]; [|cbn; auto].
  destruct (projects c now n); cbn [fst snd]; [|auto]. split.
  - unfold project. rewrite F2. destruct C1 as (f & q & mh & sh & st & -> & H1 & H2 & H3 & H4 & H5).
    cbn [n_filter]. do 5 eexists. split; [reflexivity|]. cbn [n_filter with_filter n_queue n_meas_hist n_state_hist n_streams].
    split; [|auto]. pose proof (Hpred _ _ now (now - fb_last_time (n_filter n1)) H1 EI) as HP.
    destruct (Hf_fields _ _ HP) as (_ & G2 & _). rewrite G2. apply Htime. exact HP.
  - apply Forall2_app; [exact C2|]. rewrite F2. repeat constructor. apply Ho_predict.
Qed.

Lemma differentiate_sim now n n' : Rn n n' -> Rn (differentiateMeasurements now n) (differentiateMeasurements now n').
Proof.
  intros HR. unfold differentiateMeasurements. destruct (Hf_fields _ _ (Rn_filter _ _ HR)) as (F1 & _ & _ & FP & FS). rewrite F1.
  destruct (fb_initialized (n_filter n)) eqn:EI; [|exact HR]. rewrite FP, !FS by (try exact EI; lia).
  destruct HR as (f & q & mh & sh & st & -> & H). do 5 eexists. split; [reflexivity|exact H].
Qed.

Lemma working_sim cur later n n' : Rn n n' -> fusions (snd (working pq vt c cur later n)) ->
  Rn (fst (working pq vt c cur later n)) (fst (working pq vt c cur later n')) /\
  Forall2 Ro (snd (working pq vt c cur later n)) (snd (working pq vt c cur later n')).
Proof.
  intros HR. unfold working. assert (HT : n_toggled n' = n_toggled n) by (destruct HR as (f & q & mh & sh & st & -> & _); reflexivity).
  rewrite HT. destruct (n_toggled n).
  - pose proof (integrate_sim cur n n' HR) as HI.
    destruct (integrateMeasurements pq vt c cur n) as [m o], (integrateMeasurements pq vt c cur n') as [m' o']. cbn [fst snd] in *.
    intros HF. destruct (HI HF) as (I1 & I2). split; [apply differentiate_sim; exact I1|exact I2].
  - cbn [fst snd]. intros _. split; [|constructor].
    destruct (Hf_fields _ _ (Rn_filter _ _ HR)) as (F1 & _). rewrite F1.
    destruct HR as (f & q & mh & sh & st & -> & H1 & H2 & H3 & H4 & H5).
    destruct (fb_initialized (n_filter n)); (do 5 eexists; split; [reflexivity|]);
      cbn [n_filter with_filter with_queue n_queue n_meas_hist n_state_hist n_streams]; (split; [|repeat split; try assumption; constructor]).
    + apply Htime. exact H1.
    + exact H1.
Qed.

Lemma concluded_sim cur n n' : Rn n n' -> Rn (concluded c cur n) (concluded c cur n').
Proof.
  intros HR. assert (HR0 := HR). destruct (Hf_fields _ _ (Rn_filter _ _ HR)) as (F1 & F2 & _).
  unfold concluded. rewrite F1, F2. destruct HR as (f & q & mh & sh & st & -> & H1 & H2 & H3 & H4 & H5).
  do 5 eexists. split; [reflexivity|]. cbn [n_filter n_queue n_meas_hist n_state_hist n_streams].
  split; [exact H1|]. split; [exact H2|]. unfold pop_front_while.
  split; [|split; [|exact H5]].
  - destruct (c_smooth c); [|exact H3]. apply pop_while_two; [|exact H3]. intros m m' HM. rewrite (Rm_time _ _ HM). reflexivity.
  - destruct (c_smooth c); [|exact H4]. apply pop_while_two; [|exact H4]. intros s s' HM. rewrite (Hs_time _ _ HM). reflexivity.
Qed.

Lemma cycle_sim cur later lookup n n' : Rn n n' -> fusions (snd (periodicUpdate pq vt c cur later lookup n)) ->
  Rn (fst (periodicUpdate pq vt c cur later lookup n)) (fst (periodicUpdate pq vt c cur later lookup n')) /\
  Forall2 Ro (snd (periodicUpdate pq vt c cur later lookup n)) (snd (periodicUpdate pq vt c cur later lookup n')).
Proof.
  intros HR. assert (HE : n_enabled n' = n_enabled n) by (destruct HR as (f & q & mh & sh & st & -> & _); reflexivity).
  destruct (n_enabled n) eqn:EN.
  - rewrite (cycle_eq pq vt c cur later lookup n EN), (cycle_eq pq vt c cur later lookup n' HE).
    pose proof (working_sim cur later n n' HR) as HW.
    destruct (working pq vt c cur later n) as [n1 o1], (working pq vt c cur later n') as [n1' o1']. cbn [fst snd] in *.
    intros HF. apply fusions_app in HF. destruct (HW (proj1 HF)) as (W1 & W2).
    split; [apply concluded_sim; exact W1|]. apply Forall2_app; [exact W2|]. apply Forall2_app; [apply Hvis; exact W1|].
    destruct W1 as (f & q & mh & sh & st & -> & _). unfold diag_due. cbn [n_last_diag n_diag].
    destruct (_ && _)%bool; [|constructor]. repeat constructor. apply Ho_report.
  - unfold periodicUpdate. rewrite EN, HE. cbn. intros _. split; [exact HR|constructor].
Qed.

(** What a sensor callback needs of the two preparations. *)
Definition prep_sim (upd : list bool) (prep prep' : prepfun K E) : Prop :=
  forall n n', Rn n n' ->
  let r := prep n upd vzero mzero in let r' := prep' n' upd vzero mzero in
  pr_ok r' = pr_ok r /\ pr_diag r' = pr_diag r /\ Rt (pr_streams r) (pr_streams r') /\
  (pr_ok r = true -> forall topic stamp thresh u t,
     Rm (mkMeas topic stamp (pr_val r) (pr_cov r) (pr_upd r) thresh u t) (mkMeas topic stamp (pr_val r') (pr_cov r') (pr_upd r') thresh u t)).

Lemma sensor_sim warn topic stamp upd thresh prep prep' n n' : prep_sim upd prep prep' -> Rn n n' ->
  Rn (fst (sensorCallback pq warn topic stamp upd thresh prep n)) (fst (sensorCallback pq warn topic stamp upd thresh prep' n')) /\
  Forall2 Ro (snd (sensorCallback pq warn topic stamp upd thresh prep n)) (snd (sensorCallback pq warn topic stamp upd thresh prep' n')).
Proof.
  intros HP HR. unfold sensorCallback.
  assert (HB : n_set_pose n' = n_set_pose n /\ n_last_msg n' = n_last_msg n) by (destruct HR as (f & q & mh & sh & st & -> & _); auto).
  destruct HB as (-> & HM). rewrite HM. destruct (n_set_pose n >=? stamp).
  { cbn [fst snd]. split; [|constructor]. destruct HR as (f & q & mh & sh & st & -> & H).
    destruct warn; (do 5 eexists; split; [reflexivity|exact H]). }
  set (n1 := if sm_mem (n_last_msg n) topic then n else with_last_msg n (sm_set (n_last_msg n) topic stamp)).
  set (n1' := if sm_mem (n_last_msg n) topic then n' else with_last_msg n' (sm_set (n_last_msg n) topic stamp)).
  assert (H1 : Rn n1 n1').
  { subst n1 n1'. destruct (sm_mem _ _); [exact HR|]. destruct HR as (f & q & mh & sh & st & -> & H). do 5 eexists. split; [reflexivity|exact H]. }
  clearbody n1 n1'. clear HR HM n n'.
  assert (HM : n_last_msg n1' = n_last_msg n1) by (destruct H1 as (f & q & mh & sh & st & -> & _); reflexivity). rewrite HM.
  destruct (sm_find (n_last_msg n1) topic) as [last|]; [|cbn; split; [exact H1|constructor]].
  destruct (last <=? stamp).
  - pose proof (HP n1 n1' H1) as (P1 & P2 & P3 & P4). cbv zeta. set (r := prep n1 upd vzero mzero) in *. set (r' := prep' n1' upd vzero mzero) in *.
    rewrite P1, P2. clearbody r r'. destruct H1 as (f & q & mh & sh & st & -> & G1 & G2 & G3 & G4 & G5).
    destruct (pr_ok r); cbn [fst snd].
    + split.
      * do 5 eexists. split; [reflexivity|]. cbn. repeat split; try assumption. apply push_sim; [|exact G2].
        cbn. apply P4. reflexivity.
      * repeat constructor. apply Ho_queued. cbn. apply P4. reflexivity.
    + split; [|constructor]. do 5 eexists. split; [reflexivity|]. cbn. repeat split; assumption.
  - cbn [fst snd]. split; [|constructor]. destruct H1 as (f & q & mh & sh & st & -> & H). do 5 eexists. split; [reflexivity|exact H].
Qed.

(** What a set_pose call needs. *)
Definition pose_sim (prep prep' : prepfun K E) : Prop :=
  forall n n', Rn n n' ->
  let C := mscale (lit 1 6) meye in
  let r := prep n (repeat true STATE_SIZE) vzero C in let r' := prep' n' (repeat true STATE_SIZE) vzero C in
  pr_diag r' = pr_diag r /\ Rt (pr_streams r) (pr_streams r') /\
  forall f f' now, Rf f f' ->
  Rf (setLastMeasurementTime (setEstimateErrorCovariance (setState f (pr_val r)) (pr_cov r)) now)
     (setLastMeasurementTime (setEstimateErrorCovariance (setState f' (pr_val r')) (pr_cov r')) now).

Lemma set_pose_sim stamp prep prep' now n n' : pose_sim prep prep' -> Rn n n' ->
  Rn (setPoseCallback stamp prep now n) (setPoseCallback stamp prep' now n').
Proof.
  intros HP HR. unfold setPoseCallback. cbv zeta.
  set (n2 := with_set_pose _ stamp). set (n2' := with_set_pose (with_state_hist (with_meas_hist (clearMeasurementQueue (with_streams n' no_streams)) []) []) stamp).
  assert (H2 : Rn n2 n2').
  { subst n2 n2'. destruct HR as (f & q & mh & sh & st & -> & H1 & _). do 5 eexists. split; [reflexivity|]. cbn.
    repeat split; try constructor; assumption. }
  clearbody n2 n2'. destruct (HP n2 n2' H2) as (P2 & P3 & P4).
  set (r := prep n2 _ _ _) in *. set (r' := prep' n2' _ _ _) in *. rewrite P2. clearbody r r'.
  destruct H2 as (f & q & mh & sh & st & -> & H1 & H). do 5 eexists. split; [reflexivity|]. cbn. split; [apply P4; exact H1|].
  destruct H as (G2 & G3 & G4 & G5). auto.
Qed.

Lemma step_sim ev n n' : match ev with EvSensor _ _ _ _ _ _ | EvSetPose _ _ _ => False | _ => True end -> Rn n n' ->
  fusions (snd (node_step pq vt c n ev)) ->
  Rn (fst (node_step pq vt c n ev)) (fst (node_step pq vt c n' ev)) /\
  Forall2 Ro (snd (node_step pq vt c n ev)) (snd (node_step pq vt c n' ev)).
Proof.
  intros HV HR. destruct ev as [| frame ctl stamp|on| | | | |cur later lookup]; try contradiction; cbn [node_step]; intros HF.
  - cbn [fst snd]. split; [|constructor]. unfold controlStampedCallback. destruct (_ || _)%bool; [|exact HR].
    destruct HR as (f & q & mh & sh & st & -> & H1 & H). do 5 eexists. split; [reflexivity|]. split; [apply Hctl; exact H1|exact H].
  - unfold toggleFilterProcessingCallback.
    assert (HT : n_toggled n' = n_toggled n) by (destruct HR as (f & q & mh & sh & st & -> & _); reflexivity). rewrite HT.
    destruct (Bool.eqb on (n_toggled n)); cbn [fst snd]; (split; [|repeat constructor; apply Ho_status]); [exact HR|].
    destruct HR as (f & q & mh & sh & st & -> & H). do 5 eexists. split; [reflexivity|exact H].
  - unfold enableFilterSrvCallback.
    assert (HT : n_enabled n' = n_enabled n) by (destruct HR as (f & q & mh & sh & st & -> & _); reflexivity). rewrite HT.
    cbn [fst snd]. split; [|repeat constructor; apply Ho_status]. destruct (n_enabled n); [exact HR|].
    destruct HR as (f & q & mh & sh & st & -> & H). do 5 eexists. split; [reflexivity|exact H].
  - cbn [fst snd]. split; [|constructor]. destruct HR as (f & q & mh & sh & st & -> & H1 & _). do 5 eexists. split; [reflexivity|].
    split; [apply Hreset; exact H1|]. cbn. repeat split; try constructor. exact Hnone.
  - assert (HD : n_diag n' = n_diag n) by (destruct HR as (f & q & mh & sh & st & -> & _); reflexivity). rewrite HD.
    destruct (aggregateDiagnostics (n_diag n)) as [r dg]. cbn [fst snd]. split; [|repeat constructor; apply Ho_report].
    destruct HR as (f & q & mh & sh & st & -> & H). do 5 eexists. split; [reflexivity|exact H].
  - apply cycle_sim; assumption.
Qed.

(** ** Messages and other events *)
Definition call_sim (a a' : node K E -> node K E * list (output K E)) : Prop :=
  forall n n', Rn n n' -> fusions (snd (a n)) -> Rn (fst (a n)) (fst (a' n')) /\ Forall2 Ro (snd (a n)) (snd (a' n')).
Lemma skip_sim : call_sim skip_callback skip_callback.
Proof. intros n n' H _. split; [exact H|constructor]. Qed.
Lemma then_sim a a' b b' : call_sim a a' -> call_sim b b' -> call_sim (andthen a b) (andthen a' b').
Proof.
  intros Ha Hb n n' H. unfold andthen. specialize (Ha n n' H). destruct (a n) as [n1 o1], (a' n') as [n1' o1'].
  specialize (Hb n1 n1'). destruct (b n1) as [n2 o2], (b' n1') as [n2' o2']. cbn [fst snd] in *.
  intros HF. apply fusions_app in HF. destruct (Ha (proj1 HF)) as (A1 & A2). destruct (Hb A1 (proj2 HF)) as (B1 & B2).
  split; [exact B1|]. apply Forall2_app; assumption.
Qed.
Lemma sensor_call_sim warn topic stamp upd thresh prep prep' : prep_sim upd prep prep' ->
  call_sim (sensorCallback pq warn topic stamp upd thresh prep) (sensorCallback pq warn topic stamp upd thresh prep').
Proof. intros HP n n' H _. apply sensor_sim; assumption. Qed.
Lemma barrier_sim topic n n' : Rn n n' -> Rn (add_diag n (stale_call topic barrier_text)) (add_diag n' (stale_call topic barrier_text)).
Proof. intros (f & q & mh & sh & st & -> & H). do 5 eexists. split; [reflexivity|exact H]. Qed.

Definition input_sim (i i' : @input K E) : Prop := call_sim (fun n => deliver pq vt c n i) (fun n => deliver pq vt c n i').
Theorem respond_sim is is' : Forall2 input_sim is is' -> forall n n', Rn n n' -> fusions (snd (respond pq vt c n is)) ->
  Rn (fst (respond pq vt c n is)) (fst (respond pq vt c n' is')) /\
  Forall2 Ro (snd (respond pq vt c n is)) (snd (respond pq vt c n' is')).
Proof.
  induction 1 as [|i i' is is' Hi His IH]; intros n n' HR; cbn [respond]; [intros _; split; [exact HR|constructor]|].
  specialize (Hi n n' HR). cbn beta in Hi. destruct (deliver pq vt c n i) as [n1 o1], (deliver pq vt c n' i') as [n1' o1'].
  specialize (IH n1 n1'). destruct (respond pq vt c n1 is) as [n2 o2], (respond pq vt c n1' is') as [n2' o2']. cbn [fst snd] in *.
  intros HF. apply fusions_app in HF. destruct (Hi (proj1 HF)) as (A1 & A2). destruct (IH A1 (proj2 HF)) as (B1 & B2).
  split; [exact B1|]. apply Forall2_app; assumption.
Qed.
End Sim.
