(** * A node fusing absolute positions does not depend on the choice of the
      origin (C95) *)

From Coq Require Import Reals ZArith List Bool Lia Lra String Arith FunctionalExtensionality.
From Verif Require Import Scalar Mat FilterBase FilterOps Ekf StrMap Tf ForceTwoD RosFilter RosConfig RosPrepare SpecLin SpecNode SpecPrepare SpecShift
  RLin RBridge Motion NodeProofs NodeInv NodeSmooth PrepareProofs NodeMore NodeSim ShiftFilter ShiftPrepare.
Import ListNotations.
Local Open Scope R_scope.
Local Open Scope list_scope.

(** The list queue looks at times only. *)
Lemma list_pq_blind K : time_blind (list_pq K).
Proof.
  intros R HT. split; [intros m m' q q' Hm Hq; constructor; assumption|]. cbn [pq_pop list_pq].
  induction 1 as [|m m' q q' Hm Hq IH]; [exact I|]. cbn [take_min].
  destruct (take_min q) as [[x r]|], (take_min q') as [[x' r']|]; try contradiction.
  - destruct IH as (Hx & Hr). unfold meas_later. rewrite (HT _ _ Hm), (HT _ _ Hx).
    destruct (m_time m >? m_time x)%Z; split; try assumption; constructor; assumption.
  - split; [assumption|constructor].
Qed.

Section Node.
Context {E : Type}.
Variable VT : vtbl RScalar E.
Variable pq : pqueue RScalar.
Variable c : config RScalar.
Hypothesis Hok : pq_ok pq.
Hypothesis Hpq : time_blind pq.
Variable d : vec3 RScalar.
Variable D : string -> vec3 RScalar.
(** How the filters of the two runs are related and what a fusion needs. *)
Variable RF : fb RScalar E -> fb RScalar E -> Prop.
Variable OK : fb RScalar E -> meas RScalar -> Prop.

Definition Rs (s s' : fstate RScalar) : Prop :=
  exists x, s' = mkFs x (fs_P s) (fs_time s) (fs_control s) (fs_control_time s) /\ moved_vec d (fs_state s) x.
Local Notation RM := (moved_meas d).
Local Notation RT := (moved_streams D).
Local Notation RO := (moved_output d).
Local Notation RN := (Rn (K := RScalar) (E := E) RF RM Rs RT).

Hypothesis RF_moved : forall f f', RF f f' -> moved_filter d f f'.
Hypothesis H_proc : forall f f' m m', RF f f' -> RM m m' -> OK f m -> RF (processMeasurement VT f m) (processMeasurement VT f' m').
Hypothesis H_init : forall f m, fb_initialized (processMeasurement VT f m) = true.
Hypothesis H_pred : forall f f' r dt, RF f f' -> fb_initialized f = true -> RF (v_predict VT f r dt) (v_predict VT f' r dt).
Hypothesis H_time : forall f f' t, RF f f' -> RF (set_last_time f t) (set_last_time f' t).
Hypothesis H_ctl : forall f f' u t, RF f f' -> RF (setControl f u t) (setControl f' u t).
Hypothesis H_put : forall f f' x x' P, RF f f' -> moved_vec d x x' -> RF (set_P (set_state f x) P) (set_P (set_state f' x') P).
Hypothesis H_reset : forall f f', RF f f' ->
  RF (setEstimateErrorCovariance (setProcessNoiseCovariance (setSensorTimeout (fb_reset f) (c_sensor_timeout c)) (c_Q c)) (c_P c))
     (setEstimateErrorCovariance (setProcessNoiseCovariance (setSensorTimeout (fb_reset f') (c_sensor_timeout c)) (c_Q c)) (c_P c)).

Lemma filter_all_of (f f' : fb RScalar E) : RF f f' -> fb_initialized f = true ->
  exists x p e, f' = set_ext (set_predicted (set_state f x) p) e /\ moved_vec d (fb_state f) x.
Proof. intros HR HI. destruct (RF_moved f f' HR) as (x & p & e & E' & H). exists x, p, e. split; [exact E'|]. intros k. apply H. left. exact HI. Qed.

Lemma filter_high (f f' : fb RScalar E) k : RF f f' -> (3 <= k)%nat -> fb_state f' k = fb_state f k.
Proof.
  intros HR Hk. destruct (RF_moved f f' HR) as (x & p & e & -> & H). change (x k = fb_state f k). rewrite H by (right; apply ax_high; exact Hk).
  rewrite (ax_high d k Hk). toR. ring.
Qed.
Lemma filter_same (f f' : fb RScalar E) : RF f f' -> fb_initialized f' = fb_initialized f /\ fb_last_time f' = fb_last_time f /\
  fb_sensor_timeout f' = fb_sensor_timeout f /\ fb_P f' = fb_P f /\
  (fb_initialized f = true -> forall k, (9 <= k < 12)%nat -> fb_state f' k = fb_state f k).
Proof.
  intros HR. split; [|split; [|split; [|split]]]; try (destruct (RF_moved f f' HR) as (x & p & e & -> & H); reflexivity).
  intros _ k Hk. apply filter_high; [exact HR|lia].
Qed.

Lemma node_state (n n' : node RScalar E) : RN n n' -> state_angular n' = state_angular n /\ n_ang n' = n_ang n /\
  n_last_msg n' = n_last_msg n /\ RT (n_streams n) (n_streams n') /\
  (forall k, (3 <= k < 6)%nat -> fb_state (n_filter n') k = fb_state (n_filter n) k).
Proof.
  intros HR. pose proof (Rn_filter _ _ _ _ _ _ HR) as HF. split; [|split; [|split; [|split]]].
  - unfold state_angular. rewrite !(filter_high _ _ _ HF) by lia. reflexivity.
  - destruct HR as (f & q & mh & sh & st & -> & _). reflexivity.
  - destruct HR as (f & q & mh & sh & st & -> & _). reflexivity.
  - destruct HR as (f & q & mh & sh & st & -> & _ & _ & _ & _ & H). exact H.
  - intros k Hk. apply filter_high; [exact HF|lia].
Qed.

Lemma meas_same topic stamp v C u th ut t : (forall k, (k < 3)%nat -> flag u k = true -> along_axis d k = 0) ->
  RM (mkMeas topic stamp v C u th ut t) (mkMeas topic stamp v C u th ut t).
Proof.
  intros H. exists v. split; [reflexivity|]. cbn [m_upd m_value]. intros k Hk.
  destruct (le_lt_dec 3 k) as [G|G]; [rewrite (ax_high d k G)|rewrite (H k G Hk)]; toR; ring.
Qed.

(** ** Preparations *)
Section Prep.
Variable e : penv RScalar.
Hypothesis He : level_move d e.
Lemma height_fixed k : e_two_d e = true /\ k = 2%nat -> along_axis d k = 0.
Proof. intros (E1 & ->). exact (He E1). Qed.

Lemma twist_sim msg topic target upd : no_position upd ->
  prep_sim RF RM Rs RT upd (prepareTwist e c msg topic target) (prepareTwist e c msg topic target).
Proof.
  intros HN n n' HR. destruct (node_state n n' HR) as (N1 & N2 & N3 & N4 & N5).
  destruct (twist_prep e c msg topic target n n' upd vzero mzero N1) as (T1 & T2 & T3 & T4 & T5 & T6 & T7 & T8).
  cbv zeta. rewrite T1, T2, T3, T4, T5, T6, T7. split; [reflexivity|]. split; [reflexivity|]. split; [exact N4|].
  intros _ tp st th u t. apply meas_same. intros k Hk HF. apply height_fixed. apply (T8 k Hk); [|exact HF]. apply HN. exact Hk.
Qed.
Lemma acc_sim msg topic target rel upd : no_position upd ->
  prep_sim RF RM Rs RT upd (prepareAcceleration e c msg topic target rel) (prepareAcceleration e c msg topic target rel).
Proof.
  intros HN n n' HR. destruct (node_state n n' HR) as (N1 & N2 & N3 & N4 & N5).
  destruct (acc_prep e c msg topic target rel n n' upd vzero mzero N1 N2 N5) as (T1 & T2 & T3 & T4 & T5 & T6 & T7 & T8).
  cbv zeta. rewrite T1, T2, T3, T4, T5, T6, T7. split; [reflexivity|]. split; [reflexivity|]. split; [exact N4|].
  intros _ tp st th u t. apply meas_same. intros k Hk HF. apply height_fixed. apply (T8 k Hk); [|exact HF]. apply HN. exact Hk.
Qed.
Lemma pose_prep_sim msg topic target source diff rel imu upd :
  (diff = true \/ no_position upd \/ (rel = true /\ d = v3zero) \/
   (rel = false /\ forall t, pose_lookup e c msg target diff imu = Some t -> m3mv (if imu then m3eye else t_basis t) (D topic) = d)) ->
  prep_sim RF RM Rs RT upd (preparePose e c msg topic target source diff rel imu)
    (preparePose e c (moved_pose (D topic) msg) topic target source diff rel imu).
Proof.
  intros HC n n' HR. destruct (node_state n n' HR) as (N1 & N2 & N3 & N4 & N5).
  destruct (pose_prep e c msg (D topic) D topic target source diff rel imu n n' upd vzero mzero N1 N3 N4 (or_introl eq_refl))
    as (T1 & T2 & T3 & T4 & T5 & T6 & T7 & T8).
  cbv zeta. set (r := preparePose e c msg topic target source diff rel imu n upd vzero mzero) in *.
  set (r' := preparePose e c (moved_pose (D topic) msg) topic target source diff rel imu n' upd vzero mzero) in *. clearbody r r'.
  rewrite T1, T2, T3, T4. split; [reflexivity|]. split; [reflexivity|]. split; [exact T5|].
  intros HO tp st th u t. destruct diff.
  - destruct (T6 eq_refl HO) as (-> & HF). apply meas_same. intros k Hk Hf. apply height_fixed. apply HF; assumption.
  - destruct (pose_lookup e c msg target false imu) as [tr|] eqn:EL; [|rewrite (T8 eq_refl eq_refl) in HO; discriminate].
    destruct (T7 eq_refl tr eq_refl) as (_ & w & W1 & W2 & W3).
    exists (pr_val r'). split; [reflexivity|]. cbn [m_upd m_value]. intros k Hf. rewrite W2. f_equal.
    destruct (e_two_d e && Nat.eqb k 2)%bool eqn:EB.
    { apply andb_prop in EB. destruct EB as (B1 & B2). symmetry. apply height_fixed. split; [exact B1|]. apply Nat.eqb_eq. exact B2. }
    destruct HC as [HC|[HC|[(HC & HD)|(HC & HD)]]]; [discriminate| | |].
    + destruct (le_lt_dec 3 k) as [G|G]; [rewrite !ax_high by exact G; reflexivity|].
      destruct (W3 HC k G Hf) as (B1 & ->). rewrite B1 in EB. discriminate.
    + subst rel. rewrite W1, HD. reflexivity.
    + subst rel. rewrite W1, (HD tr eq_refl). reflexivity.
Qed.
End Prep.

Lemma set_pose_prep e p v t : level_move d e -> looked_up e c p = Some t -> m3mv (t_basis t) v = d ->
  pose_sim RF RM Rs RT (preparePose e c p "set_pose" (c_world c) (c_base c) false false false)
    (preparePose e c (moved_pose v p) "set_pose" (c_world c) (c_base c) false false false).
Proof.
  intros He HL HV n n' HR. destruct (node_state n n' HR) as (N1 & N2 & N3 & N4 & N5). intros C.
  destruct (pose_prep e c p v D "set_pose" (c_world c) (c_base c) false false false n n' (repeat true 15) vzero C N1 N3 N4
    (or_intror (conj eq_refl eq_refl))) as (T1 & T2 & T3 & T4 & T5 & T6 & T7 & T8).
  cbv zeta. set (r := preparePose e c p _ _ _ _ _ _ n _ _ _) in *. set (r' := preparePose e c (moved_pose v p) _ _ _ _ _ _ n' _ _ _) in *.
  clearbody r r'. split; [exact T2|]. split; [exact T5|]. intros f f' now HF. rewrite T4.
  apply H_time. apply H_put; [exact HF|]. intros k.
  destruct (T7 eq_refl t HL) as (_ & w & W1 & W2 & _). rewrite W2. f_equal.
  destruct (e_two_d e && Nat.eqb k 2)%bool eqn:EB.
  - apply andb_prop in EB. destruct EB as (B1 & B2). apply Nat.eqb_eq in B2. subst k. symmetry. exact (He B1).
  - rewrite W1, HV. reflexivity.
Qed.

(** ** Publishing *)
Lemma odom_moved (n n' : node RScalar E) : RN n n' ->
  getFilteredOdometryMessage c n' = option_map (moved_odom d) (getFilteredOdometryMessage c n).
Proof.
  intros HR. pose proof (Rn_filter _ _ _ _ _ _ HR) as HF. destruct (filter_same _ _ HF) as (F1 & F2 & F3 & F4 & _).
  unfold getFilteredOdometryMessage. rewrite F1, F2, F4. destruct (fb_initialized (n_filter n)) eqn:EI; [|reflexivity].
  cbn [option_map]. unfold moved_odom. cbn [o_stamp o_frame o_child o_position o_orientation o_linear o_angular o_pose_cov o_twist_cov].
  rewrite (filter_high _ _ 3 HF), (filter_high _ _ 4 HF), (filter_high _ _ 5 HF), (filter_high _ _ 6 HF), (filter_high _ _ 7 HF), (filter_high _ _ 8 HF),
    (filter_high _ _ 9 HF), (filter_high _ _ 10 HF), (filter_high _ _ 11 HF) by lia. do 2 f_equal.
  destruct (filter_all_of _ _ HF EI) as (x & p & e & -> & H). apply v3_eq; unfold v3add; cbn [v3x v3y v3z]; apply H.
Qed.
Lemma accel_moved (n n' : node RScalar E) : RN n n' -> getFilteredAccelMessage c n' = getFilteredAccelMessage c n.
Proof.
  intros HR. pose proof (Rn_filter _ _ _ _ _ _ HR) as HF. destruct (filter_same _ _ HF) as (F1 & F2 & F3 & F4 & _).
  destruct (node_state n n' HR) as (_ & N2 & _).
  unfold getFilteredAccelMessage. rewrite F1, F2, F4, N2. rewrite !(filter_high _ _ _ HF) by lia. reflexivity.
Qed.
Lemma always_valid (o : odom_msg RScalar) : validateFilterOutput o = true.
Proof. reflexivity. Qed.
Lemma broadcast_moved o lookup : Forall2 RO (broadcast (E := E) c o lookup) (broadcast c (moved_odom d o) lookup).
Proof.
  unfold broadcast. cbn [o_stamp o_frame o_child o_position o_orientation moved_odom].
  destruct (String.eqb (o_frame o) (c_odom c)); [repeat constructor|].
  destruct (String.eqb (o_frame o) (c_map c)); [|constructor]. destruct lookup as [b|]; [|constructor].
  constructor; [|constructor]. cbn [moved_output]. 
  change (t_of (o_orientation o) (v3add (o_position o) d)) with (moved_place d (t_of (o_orientation o) (o_position o))).
  rewrite mult_left_moved. reflexivity.
Qed.
Lemma visible_moved n n' lookup : RN n n' -> Forall2 RO (visible c n lookup) (visible c n' lookup).
Proof.
  intros HR. unfold visible. rewrite (odom_moved n n' HR), (accel_moved n n' HR).
  assert (EC : corrected c n' = corrected c n).
  { pose proof (Rn_filter _ _ _ _ _ _ HR) as HF. destruct (filter_same _ _ HF) as (F1 & F2 & _).
    unfold corrected. rewrite F1, F2. destruct HR as (f & q & mh & sh & st & -> & _). reflexivity. }
  rewrite EC. apply Forall2_app.
  - destruct (getFilteredOdometryMessage c n) as [o|]; cbn [option_map]; [|constructor]. rewrite !always_valid.
    apply Forall2_app; [constructor|]. apply Forall2_app.
    + destruct (_ && _)%bool; [apply broadcast_moved|constructor].
    + destruct (corrected c n); [constructor|repeat constructor].
  - destruct (_ && _)%bool; [|constructor]. destruct (getFilteredAccelMessage c n); repeat constructor.
Qed.

(** ** The filter as the node uses it *)
Lemma H_meas m m' : RM m m' -> m_time m' = m_time m /\ m_control m' = m_control m /\ m_control_time m' = m_control_time m.
Proof. intros (v & -> & _). auto. Qed.
Lemma H_saved s s' : Rs s s' -> fs_time s' = fs_time s.
Proof. intros (x & -> & _). reflexivity. Qed.
Lemma H_save f f' : RF f f' -> fb_initialized f = true -> Rs (snapshot f) (snapshot f').
Proof. intros HM HI. destruct (filter_all_of f f' HM HI) as (x & p & e & -> & H). exists x. split; [reflexivity|exact H]. Qed.
Lemma H_load f f' s s' : RF f f' -> Rs s s' -> RF (load f s) (load f' s').
Proof. intros HF (y & -> & HY). unfold load. apply H_time. apply H_put; [exact HF|exact HY]. Qed.

Lemma call_sensor warn topic stamp upd thresh prep prep' : prep_sim RF RM Rs RT upd prep prep' ->
  call_sim RF RM Rs RT RO OK (sensorCallback pq warn topic stamp upd thresh prep) (sensorCallback pq warn topic stamp upd thresh prep').
Proof.
  apply (sensor_call_sim pq Hpq RF RM Rs RT RO OK H_meas). intros m m' H. cbn. exists m'. auto.
Qed.
Lemma call_skip : call_sim RF RM Rs RT RO OK skip_callback skip_callback.
Proof. exact (skip_sim RF RM Rs RT RO OK). Qed.
Lemma call_pose e cd p target source imu : level_move d e ->
  (cd_differential cd = true \/ no_position (cd_upd cd) \/ (cd_relative cd = true /\ d = v3zero) \/
   (cd_relative cd = false /\ forall t, pose_lookup e c p target (cd_differential cd) imu = Some t -> m3mv (if imu then m3eye else t_basis t) (D (cd_topic cd)) = d)) ->
  call_sim RF RM Rs RT RO OK (poseCallback pq e c cd p target source imu) (poseCallback pq e c cd (moved_pose (D (cd_topic cd)) p) target source imu).
Proof. intros He HC. apply call_sensor. apply pose_prep_sim; assumption. Qed.
Lemma moves_world e cd p : pose_moves d D e c cd p ->
  cd_differential cd = true \/ no_position (cd_upd cd) \/ (cd_relative cd = true /\ d = v3zero) \/
   (cd_relative cd = false /\ forall t, pose_lookup e c p (c_world c) (cd_differential cd) false = Some t -> m3mv (t_basis t) (D (cd_topic cd)) = d).
Proof.
  intros [H|[H|[H|(H1 & H2)]]]; auto. destruct (cd_differential cd) eqn:ED; [auto|]. right. right. right. split; [exact H1|].
  intros t Ht. apply H2. unfold looked_up. unfold pose_lookup in Ht. exact Ht.
Qed.
Lemma call_twist e cd t target : level_move d e -> no_position (cd_upd cd) ->
  call_sim RF RM Rs RT RO OK (twistCallback pq e c cd t target) (twistCallback pq e c cd t target).
Proof. intros He HN. apply call_sensor. apply twist_sim; assumption. Qed.
Lemma call_acc e cd i target : level_move d e -> no_position (cd_upd cd) ->
  call_sim RF RM Rs RT RO OK (accelerationCallback pq e c cd i target) (accelerationCallback pq e c cd i target).
Proof. intros He HN. apply call_sensor. apply acc_sim; assumption. Qed.

Lemma set_pose_field (n n' : node RScalar E) : RN n n' -> n_set_pose n' = n_set_pose n.
Proof. intros (f & q & mh & sh & st & -> & _). reflexivity. Qed.

Lemma input_moved i i' : moved_input d D c i i' -> input_sim pq VT c RF RM Rs RT RO OK i i'.
Proof.
  intros [e cd p He HC|e topic a b o He HC HB|e a t He HN|e topic a b g m He HD HA HB HG|e p v now t He HL HV|ev HE]; unfold input_sim; cbn [deliver receive].
  - apply call_pose; [exact He|]. apply moves_world. exact HC.
  - intros n n' HR. unfold odometryCallback. rewrite (set_pose_field n n' HR).
    change (o_stamp (moved_odometry (D (cd_topic a)) o)) with (o_stamp o).
    change (o_child (moved_odometry (D (cd_topic a)) o)) with (o_child o).
    change (odom_pose (moved_odometry (D (cd_topic a)) o)) with (moved_pose (D (cd_topic a)) (odom_pose o)).
    change (odom_twist (moved_odometry (D (cd_topic a)) o)) with (odom_twist o).
    destruct (_ >=? _)%Z.
    + intros _. split; [apply barrier_sim; exact HR|constructor].
    + revert n n' HR. refine (then_sim RF RM Rs RT RO OK _ _ _ _ _ _).
      * destruct (cd_sum a >? 0)%Z; [|exact call_skip]. apply call_pose; [exact He|]. apply moves_world. exact HC.
      * destruct (cd_sum b >? 0)%Z; [|exact call_skip]. apply call_twist; assumption.
  - apply call_twist; assumption.
  - intros n n' HR. unfold imuCallback. rewrite (set_pose_field n n' HR). destruct (_ >=? _)%Z.
    + intros _. split; [apply barrier_sim; exact HR|constructor].
    + revert n n' HR. refine (then_sim RF RM Rs RT RO OK _ _ _ _ _ _); [|refine (then_sim RF RM Rs RT RO OK _ _ _ _ _ _)].
      * destruct (_ && _)%bool; [|exact call_skip].
        pose proof (call_pose e a (imu_pose m) (c_base c) (c_base c) true He (or_intror (or_introl HA))) as HP.
        rewrite HD, moved_pose_zero in HP. exact HP.
      * destruct (_ && _)%bool; [|exact call_skip]. apply call_twist; assumption.
      * destruct (_ && _)%bool; [|exact call_skip]. apply call_acc; assumption.
  - intros n n' HR _. cbn [node_step fst snd]. split; [|constructor].
    apply set_pose_sim; [exact (no_streams_moved D)| |exact HR]. exact (set_pose_prep e p v t He HL HV).
  - intros n n' HR HF. refine (step_sim pq VT c Hok Hpq RF RM Rs RT RO OK H_meas H_saved filter_same _ H_init H_pred H_time H_ctl H_save H_load H_reset (no_streams_moved D)
      visible_moved _ _ _ _ ev n n' HE HR HF).
    + exact H_proc.
    + intros f f' m m' Hf Hm. cbn. exists f', m'. split; [reflexivity|]. split; [exact (RF_moved f f' Hf)|exact Hm].
    + reflexivity.
    + reflexivity.
    + reflexivity.
Qed.

Lemma respond_moved_by is is' n : Forall2 (moved_input d D c) is is' ->
  RF (n_filter n) (n_filter n) -> n_queue n = [] -> n_meas_hist n = [] -> n_state_hist n = [] -> n_streams n = no_streams ->
  fusions OK (snd (respond pq VT c n is)) ->
  Forall2 RO (snd (respond pq VT c n is)) (snd (respond pq VT c n is')).
Proof.
  intros HI F0 Q0 M0 S0 T0 HA.
  assert (HS : Forall2 (input_sim pq VT c RF RM Rs RT RO OK) is is').
  { clear HA. induction HI; constructor; [apply input_moved; assumption|assumption]. }
  refine (proj2 (respond_sim pq VT c RF RM Rs RT RO OK is is' HS n n _ HA)).
  exists (n_filter n), (n_queue n), (n_meas_hist n), (n_state_hist n), (n_streams n).
  split; [destruct n; reflexivity|]. rewrite Q0, M0, S0, T0. split; [exact F0|repeat split; try constructor; intros t; reflexivity].
Qed.
End Node.

(** ** The EKF *)
Theorem respond_moved eig (pq : pqueue RScalar) (c : config RScalar) d D is is' n : pq_ok pq -> time_blind pq ->
  Forall2 (moved_input d D c) is is' ->
  fb_initialized (n_filter n) = false -> fb_F (n_filter n) = meye -> n_queue n = [] -> n_meas_hist n = [] -> n_state_hist n = [] ->
  n_streams n = no_streams ->
  anchored d (snd (respond pq (ekf_vtbl eig) c n is)) ->
  Forall2 (moved_output d) (snd (respond pq (ekf_vtbl eig) c n is)) (snd (respond pq (ekf_vtbl eig) c n is')).
Proof.
  intros Hok Hpq HI F0 FF Q0 M0 S0 T0 HA.
  apply (respond_moved_by (ekf_vtbl eig) pq c Hok Hpq d D (Rf d) (starts_fixed d)); try assumption.
  - intros f f' (H & _). apply moved_ekf_filter. exact H.
  - exact (process_moved d eig).
  - intros f m. exact (proj2 (process_time (ekf_vtbl eig) (ekf_neutral eig) f m)).
  - exact (predict_moved d).
  - intros f f' t ((x & p & -> & H) & HF). split; [exists x, p; split; [reflexivity|exact H]|exact HF].
  - intros f f' u t ((x & p & -> & H) & HF). split; [exists x, p; split; [reflexivity|exact H]|exact HF].
  - intros f f' y y' P ((x & p & -> & H) & HF) HY. split; [|exact HF]. exists y', p. split; [reflexivity|]. intros k _. exact (HY k).
  - intros f f' ((x & p & -> & H) & HF). split; [|apply meye_F_ok]. exists vzero, vzero. split; [reflexivity|].
    intros k [Hk|Hk]; [discriminate Hk|]. rewrite Hk. cbn. toR. ring.
  - split; [|rewrite FF; apply meye_F_ok]. exists (fb_state (n_filter n)), (fb_predicted (n_filter n)).
    split; [destruct (n_filter n); reflexivity|]. intros k [Hk|Hk]; [congruence|]. rewrite Hk. toR. symmetry. apply Rplus_0_r.
Qed.
