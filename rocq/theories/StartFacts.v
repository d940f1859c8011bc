(** * What start-up leaves in the node (C86) *)

From Coq Require Import ZArith List Bool String Ascii Arith Lia.
From Verif Require Import Scalar Mat FilterBase StrMap Diagnostics RosFilter RosConfig SpecConfig SpecNode SpecStart
  NodeScenario NodeFacts NodeInv NodeMore ConfigProofs ConfigAll ConfigFacts.
Import ListNotations.

Lemma obind_Ok {A B : Type} (e : outcome A) (f : A -> outcome B) b : obind e f = Ok b -> exists a, e = Ok a /\ f a = Ok b.
Proof. destruct e as [a|]; [|discriminate]. intros H. exists a. split; [reflexivity|exact H]. Qed.

Lemma Ok_inj {A : Type} (a b : A) : Ok a = Ok b -> a = b.
Proof. intros H. injection H as ->. reflexivity. Qed.

Section Start.
Context {K : Scalar} {E : Type}.

(** ** Gravity flags *)
Lemma count_pose_gravity d tt tp v (l l' : loading K) : count_pose d tt tp v l = Ok l' -> l_gravity l' = l_gravity l.
Proof.
  unfold count_pose. destruct d; intros H; apply obind_Ok in H; destruct H as (a & _ & [= <-]); reflexivity.
Qed.
Lemma count_twist_gravity tt v (l l' : loading K) : count_twist tt v l = Ok l' -> l_gravity l' = l_gravity l.
Proof. unfold count_twist. intros H. apply obind_Ok in H. destruct H as (a & _ & [= <-]). reflexivity. Qed.

Ltac unbind H := apply obind_Ok in H; let a := fresh "a" in destruct H as (a & _ & H).
Lemma load_odom_gravity i p (l l' : loading K) : load_odom i p l = Ok l' -> l_gravity l' = l_gravity l.
Proof.
  unfold load_odom. intros H. unbind H. unbind H. apply obind_Ok in H. destruct H as (l2 & H2 & H).
  assert (G : l_gravity l2 = l_gravity l).
  { destruct (Z.gtb (accumulate a) 0).
    - apply count_pose_gravity in H2. rewrite H2. destruct (Z.gtb (accumulate a + accumulate a0) 0); reflexivity.
    - injection H2 as <-. destruct (Z.gtb (accumulate a + accumulate a0) 0); reflexivity. }
  rewrite <- G. destruct (Z.gtb (accumulate a0) 0); [apply (count_twist_gravity _ _ _ _ H)|]. injection H as <-. reflexivity.
Qed.
Lemma load_pose_gravity i p (l l' : loading K) : load_pose i p l = Ok l' -> l_gravity l' = l_gravity l.
Proof.
  unfold load_pose. intros H. unbind H. unbind H. destruct (Z.gtb (accumulate a0) 0).
  - apply count_pose_gravity in H. exact H.
  - injection H as <-. reflexivity.
Qed.
Lemma load_twist_gravity i p (l l' : loading K) : load_twist i p l = Ok l' -> l_gravity l' = l_gravity l.
Proof.
  unfold load_twist. intros H. unbind H. destruct (Z.gtb (accumulate a) 0).
  - apply count_twist_gravity in H. exact H.
  - injection H as <-. reflexivity.
Qed.
Lemma load_imu_gravity i p (l l' : loading K) : load_imu i p l = Ok l' ->
  l_gravity l' = sm_set (l_gravity l) (numbered "imu" i ++ "_acceleration") (ip_remove_gravity p).
Proof.
  unfold load_imu. intros H. do 11 (unbind H). apply obind_Ok in H. destruct H as (l2 & H2 & H).
  assert (G : l_gravity l2 = sm_set (l_gravity l) (numbered "imu" i ++ "_acceleration") (ip_remove_gravity p)).
  { destruct (Z.gtb (accumulate a1) 0).
    - apply count_pose_gravity in H2. rewrite H2. destruct (Z.gtb _ 0); reflexivity.
    - apply Ok_inj in H2. rewrite <- H2. destruct (Z.gtb _ 0); reflexivity. }
  rewrite <- G. destruct (Z.gtb (accumulate a4) 0); [apply (count_twist_gravity _ _ _ _ H)|]. apply Ok_inj in H. rewrite <- H. reflexivity.
Qed.
Lemma load_all_gravity {P : Type} (load : nat -> P -> loading K -> outcome (loading K)) :
  (forall i p l l', load i p l = Ok l' -> l_gravity l' = l_gravity l) ->
  forall ps i l l', load_all load i ps l = Ok l' -> l_gravity l' = l_gravity l.
Proof.
  intros HS ps. induction ps as [|p ps IH]; intros i l l'; cbn [load_all]; [intros [= <-]; reflexivity|].
  intros H. apply obind_Ok in H. destruct H as (l1 & H1 & H). rewrite (IH _ _ _ H). apply (HS _ _ _ _ H1).
Qed.
Definition accel_name (i : nat) : string := (numbered "imu" i ++ "_acceleration")%string.
Lemma accel_name_inj i j : accel_name i = accel_name j -> i = j.
Proof.
  intros H. apply (family_inj "imu" ["_acceleration"]%string i j (accel_name i)).
  - intros s [<-|[]]. right. eexists. reflexivity.
  - left. reflexivity.
  - left. symmetry. exact H.
Qed.
Lemma load_imus_gravity ps : forall i (l l' : loading K), load_all load_imu i ps l = Ok l' ->
  (forall j p, nth_error ps j = Some p -> sm_find (l_gravity l') (accel_name (i + j)) = Some (ip_remove_gravity p)) /\
  (forall k, (forall j, (j < List.length ps)%nat -> k <> accel_name (i + j)) -> sm_find (l_gravity l') k = sm_find (l_gravity l) k).
Proof.
  induction ps as [|p ps IH]; intros i l l'; cbn [load_all].
  - intros [= <-]. split; [|auto]. intros [|j] p; discriminate.
  - intros H. apply obind_Ok in H. destruct H as (l1 & H1 & H). apply load_imu_gravity in H1.
    destruct (IH _ _ _ H) as (I1 & I2). split.
    + intros [|j] q; cbn [nth_error].
      * intros [= <-]. rewrite I2.
        { rewrite H1, sm_set_find, Nat.add_0_r. unfold accel_name. rewrite String.eqb_refl. reflexivity. }
        { intros j _ He. apply accel_name_inj in He. lia. }
      * intros Hq. replace (i + S j)%nat with (S i + j)%nat by lia. apply I1. exact Hq.
    + intros k Hk. rewrite I2.
      * rewrite H1, sm_set_find. destruct (String.eqb_spec (numbered "imu" i ++ "_acceleration") k) as [<-|_]; [|reflexivity].
        exfalso. apply (Hk 0%nat); [cbn; lia|]. rewrite Nat.add_0_r. reflexivity.
      * intros j Hj. specialize (Hk (S j)). replace (S i + j)%nat with (i + S j)%nat by lia. apply Hk. cbn. lia.
Qed.
Lemma load_inputs_gravity p ctl (l : loading K) : load_inputs p ctl = Ok l ->
  (forall i o, nth_error (p_imus p) i = Some o -> sm_find (l_gravity l) (accel_name i) = Some (ip_remove_gravity o)) /\
  (forall k, (forall i, (i < List.length (p_imus p))%nat -> k <> accel_name i) -> sm_find (l_gravity l) k = None).
Proof.
  unfold load_inputs. intros H. apply obind_Ok in H. destruct H as (l1 & H1 & H).
  apply obind_Ok in H. destruct H as (l2 & H2 & H). apply obind_Ok in H. destruct H as (l3 & H3 & H).
  apply (load_all_gravity _ load_odom_gravity) in H1. apply (load_all_gravity _ load_pose_gravity) in H2.
  apply (load_all_gravity _ load_twist_gravity) in H3. destruct (load_imus_gravity _ _ _ _ H) as (I1 & I2).
  split; [exact I1|]. intros k Hk. rewrite I2 by exact Hk. rewrite H3, H2, H1. reflexivity.
Qed.

(** ** Covariances *)
Lemma covariance_taken (o : option (list K)) m d : load_covariance o = Ok m ->
  taken_as o d (match m with Some M => M | None => d end) /\ (o = None -> m = None) /\ (o <> None -> exists M, m = Some M).
Proof.
  unfold load_covariance, taken_as. destruct o as [v|].
  - destruct (Nat.eqb_spec (List.length v) STATE_SIZE) as [H|H].
    + intros [= <-]. split; [|split; [discriminate|eauto]]. split; [|intros Hn; elim Hn; exact H].
      intros _. split.
      * intros i Hi. rewrite Nat.eqb_refl. apply nth_error_nth'. lia.
      * intros i j _ _ Hij. apply Nat.eqb_neq in Hij. rewrite Hij. reflexivity.
    + destruct (Nat.leb_spec 225 (List.length v)) as [H2|H2]; [|discriminate].
      intros [= <-]. split; [|split; [discriminate|eauto]]. split; [intros Hn; elim H; exact Hn|].
      intros _ i j Hi Hj. change (15 * j)%nat with (STATE_SIZE * j)%nat. apply nth_error_nth'. lia.
  - intros [= <-]. split; [reflexivity|]. split; [reflexivity|]. intros Hn. elim Hn. reflexivity.
Qed.

(** ** The whole *)
Lemma start_eq (p : params K) period now later (f : fb K E) ang nothing ld n :
  start p period now later f ang nothing = Ok (ld, n) ->
  loadParams p period now f = Ok ld /\
  n = with_diag (node_init (ld_filter ld) (mkAng (a_acc ang) mzero (a_last_twist ang) (a_last_time ang))
        (if c_use_control (ld_config ld) then vzero else nothing) (p_disabled p) later) (ld_diag ld).
Proof. unfold start. intros H. apply obind_Ok in H. destruct H as (l & H1 & [= <- <-]). split; [exact H1|reflexivity]. Qed.

Lemma start_fresh (p : params K) period now later g (e : E) ang nothing ld n :
  start p period now later (fb_init g e) ang nothing = Ok (ld, n) ->
  untouched_node n /\ n_enabled n = negb (p_disabled p) /\ ld_enabled ld = negb (p_disabled p) /\ n_last_diag n = later /\
  n_diag n = ld_diag ld /\ n_filter n = ld_filter ld.
Proof.
  intros H. apply start_eq in H. destruct H as (H & ->). rewrite loadParams_eq in H.
  apply obind_Ok in H. destruct H as (l & _ & H). apply obind_Ok in H. destruct H as (Q & _ & H).
  apply obind_Ok in H. destruct H as (P & _ & H). cbv zeta in H. injection H as <-.
  unfold untouched_node. cbn. repeat split.
  destruct P, Q; cbn [when]; (match goal with |- context [if ?u then _ else _] => destruct u end); cbn;
    (reflexivity || (destruct (p_initial_state p) as [w|]; [destruct (Nat.eqb (List.length w) STATE_SIZE)|]; reflexivity)).
Qed.

Ltac run_setters := repeat match goal with
  | |- context [if ?u then setControlParams _ _ _ _ _ _ _ else _] => destruct u
  | |- context [when ?o _ _] => destruct o; cbn [when]
  end; cbn;
  repeat match goal with
  | |- context [match p_initial_state ?p with _ => _ end] => destruct (p_initial_state p) as [?w|]
  | |- context [Nat.eqb (List.length ?w) 15] => destruct (Nat.eqb_spec (List.length w) 15)
  end; cbn; try reflexivity.

Lemma start_filter (p : params K) period now later g (e : E) ang nothing ld n :
  start p period now later (fb_init g e) ang nothing = Ok (ld, n) ->
  let f := n_filter n in
  fb_last_time f = now /\
  fb_sensor_timeout f = dur_from_seconds (timeout_of (p_sensor_timeout p) (p_frequency p)) /\
  fb_use_dyn f = p_dynamic_noise p /\
  (forall v, p_initial_state p = Some v -> List.length v = 15%nat ->
     forall i, (i < 15)%nat -> nth_error v i = Some (fb_state f i)) /\
  ((forall v, p_initial_state p = Some v -> List.length v <> 15%nat) -> forall i, fb_state f i = s_ofZ 0) /\
  taken_as (p_Q p) default_Q (fb_Q f) /\ fb_dynQ f = fb_Q f /\
  taken_as (p_P p) (mscale (lit 1 9) meye) (fb_P f) /\
  taken_as (p_Q p) mzero (c_Q (ld_config ld)) /\ taken_as (p_P p) mzero (c_P (ld_config ld)).
Proof.
  intros H. apply start_eq in H. destruct H as (H & ->). rewrite loadParams_eq in H.
  apply obind_Ok in H. destruct H as (l & _ & H). apply obind_Ok in H. destruct H as (Q & HQ & H).
  apply obind_Ok in H. destruct H as (P & HP & H). cbv zeta in H. injection H as <-. cbv zeta.
  cbn [n_filter with_diag node_init ld_filter ld_config c_Q c_P].
  destruct (covariance_taken _ _ default_Q HQ) as (Q1 & Q2 & Q3).
  destruct (covariance_taken _ _ mzero HQ) as (Q4 & _ & _).
  destruct (covariance_taken _ _ (mscale (lit 1 9) meye) HP) as (P1 & P2 & P3).
  destruct (covariance_taken _ _ mzero HP) as (P4 & _ & _).
  set (u := (cp_use (load_control p) && negb (Z.eqb (accumulate (l_control l)) 0))%bool). clearbody u.
  set (T := dur_from_seconds _).
  split; [destruct P, Q, u; cbn; run_setters|]. split; [destruct P, Q, u; cbn; run_setters|].
  split; [destruct P, Q, u; cbn; run_setters|]. split.
  { intros v Hv Hl i Hi. rewrite Hv, Hl. cbn [Nat.eqb].
    replace (nth_error v i) with (Some (nth i v (s_ofZ 0))) by (symmetry; apply nth_error_nth'; lia).
    destruct P, Q, u; reflexivity. }
  split.
  { intros Hv i. destruct (p_initial_state p) as [v|].
    - specialize (Hv v eq_refl). change STATE_SIZE with 15%nat. apply Nat.eqb_neq in Hv. rewrite Hv. destruct P, Q, u; reflexivity.
    - destruct P, Q, u; reflexivity. }
  split.
  { match goal with |- taken_as _ _ ?M => replace M with (match Q with Some X => X | None => default_Q end) end; [exact Q1|].
    destruct P, Q, u; cbn; run_setters. }
  split; [destruct P, Q, u; cbn; run_setters|]. split.
  { match goal with |- taken_as _ _ ?M => replace M with (match P with Some X => X | None => mscale (lit 1 9) meye end) end; [exact P1|].
    destruct P, Q, u; cbn; run_setters. }
  split; [destruct Q; exact Q4|destruct P; exact P4].
Qed.

Lemma start_options (p : params K) period now later (f : fb K E) ang nothing ld n :
  start p period now later f ang nothing = Ok (ld, n) ->
  let c := ld_config ld in
  c_smooth c = p_smooth p /\ c_predict_now c = p_predict_now p /\ c_permit c = p_permit p /\
  c_publish_tf c = p_publish_tf p /\ c_publish_acc c = p_publish_acc p /\ c_print_diag c = p_print_diag p /\
  c_history c = dur_from_seconds (s_abs (p_history p)) /\
  c_sensor_timeout c = dur_from_seconds (timeout_of (p_sensor_timeout p) (p_frequency p)) /\
  c_tf_offset c = dur_from_seconds (p_tf_offset p) /\ c_diag_period c = period /\
  ld_gravity ld = p_gravity p /\ ld_two_d ld = p_two_d p /\ ld_tf_timeout ld = dur_from_seconds (p_tf_timeout p) /\
  (forall i o, nth_error (p_imus p) i = Some o ->
     sm_find (ld_gravity_flags ld) (numbered "imu" i ++ "_acceleration") = Some (ip_remove_gravity o)) /\
  (forall k, (forall i, (i < List.length (p_imus p))%nat -> k <> (numbered "imu" i ++ "_acceleration")%string) ->
     sm_find (ld_gravity_flags ld) k = None).
Proof.
  intros H. apply start_eq in H. destruct H as (H & ->). rewrite loadParams_eq in H.
  apply obind_Ok in H. destruct H as (l & HI & H). apply obind_Ok in H. destruct H as (Q & HQ & H).
  apply obind_Ok in H. destruct H as (P & HP & H). cbv zeta in H. injection H as <-. cbv zeta.
  destruct (load_inputs_gravity _ _ _ HI) as (G1 & G2).
  cbn [ld_config ld_gravity ld_two_d ld_tf_timeout ld_gravity_flags c_smooth c_predict_now c_permit c_publish_tf c_publish_acc
    c_print_diag c_history c_sensor_timeout c_tf_offset c_diag_period].
  repeat (split; [reflexivity|]). split; [exact G1|exact G2].
Qed.

Lemma start_control (p : params K) period now later g (e : E) ang nothing ld n :
  start p period now later (fb_init g e) ang nothing = Ok (ld, n) ->
  let f := n_filter n in
  fb_use_control f = c_use_control (ld_config ld) /\
  (c_use_control (ld_config ld) = false -> n_ctl n = nothing) /\
  (c_use_control (ld_config ld) = true ->
     n_ctl n = vzero /\
     fb_control_timeout f = dur_from_seconds (p_control_timeout p) /\
     fb_acc_limits f = or_else (p_acc_limits p) (repeat (s_ofZ 1) 6) /\
     fb_dec_limits f = or_else (p_dec_limits p) (fb_acc_limits f) /\
     gains_taken (p_acc_gains p) [] (fb_acc_gains f) /\
     gains_taken (p_dec_gains p) (fb_acc_gains f) (fb_dec_gains f)).
Proof.
  intros H. apply start_eq in H. destruct H as (H & ->). rewrite loadParams_eq in H.
  apply obind_Ok in H. destruct H as (l & HI & H). apply obind_Ok in H. destruct H as (Q & HQ & H).
  apply obind_Ok in H. destruct H as (P & HP & H). cbv zeta in H. injection H as <-. cbv zeta.
  cbn [n_filter with_diag node_init ld_filter ld_config c_use_control n_ctl].
  set (u := (cp_use (load_control p) && negb (Z.eqb (accumulate (l_control l)) 0))%bool).
  assert (HU : u = true -> p_use_control p = true).
  { unfold u, load_control. destruct (p_use_control p); [reflexivity|]. intros X; exact X. }
  clearbody u. split.
  { destruct P, Q, u; cbn; run_setters. }
  destruct u; split; try discriminate; [|reflexivity]. intros _. specialize (HU eq_refl). split; [reflexivity|].
  assert (G : forall v : list K, six_or_ones v (gains v)).
  { intros v. unfold six_or_ones, gains, six. change TWIST_SIZE with 6%nat.
    destruct (Nat.eqb_spec (List.length v) 6); split; try tauto; reflexivity. }
  split; [destruct P, Q; reflexivity|].
  set (cp := load_control p).
  match goal with |- fb_acc_limits ?ff = _ /\ _ => set (F := ff) end.
  assert (A1 : fb_acc_limits F = cp_acc_limits cp) by (unfold F; destruct P, Q; reflexivity).
  assert (A2 : fb_dec_limits F = cp_dec_limits cp) by (unfold F; destruct P, Q; reflexivity).
  assert (A3 : fb_acc_gains F = cp_acc_gains cp) by (unfold F; destruct P, Q; reflexivity).
  assert (A4 : fb_dec_gains F = cp_dec_gains cp) by (unfold F; destruct P, Q; reflexivity).
  rewrite A1, A2, A3, A4. unfold cp, load_control. rewrite HU. cbn.
  split; [destruct (p_acc_limits p); reflexivity|]. split; [destruct (p_dec_limits p); reflexivity|].
  split; [destruct (p_acc_gains p); [apply G|reflexivity]|]. destruct (p_dec_gains p); [apply G|reflexivity].
Qed.
End Start.

Section StartMore.
Context {K : Scalar} {E : Type}.
Lemma taken_transposed v d (M : mat K) : taken_as (Some v) d M -> List.length v <> 15%nat -> row_major v (mT M).
Proof.
  intros (_ & H) Hl i j Hi Hj. unfold mT. specialize (H Hl j i Hj Hi). rewrite <- H. f_equal. lia.
Qed.
Lemma taken_symmetric v d (M : mat K) : taken_as (Some v) d M -> List.length v <> 15%nat ->
  (forall i j, (i < 15)%nat -> (j < 15)%nat -> nth_error v (15 * i + j) = nth_error v (15 * j + i)) -> row_major v M.
Proof.
  intros (_ & H) Hl Hs i j Hi Hj. rewrite Hs by assumption. rewrite <- (H Hl i j Hi Hj). f_equal. lia.
Qed.
Lemma start_transposed (p : params K) period now later g (e : E) ang nothing ld n v :
  start p period now later (fb_init g e) ang nothing = Ok (ld, n) -> List.length v <> 15%nat ->
  (p_Q p = Some v -> row_major v (mT (fb_Q (n_filter n)))) /\ (p_P p = Some v -> row_major v (mT (fb_P (n_filter n)))).
Proof.
  intros H Hl. destruct (start_filter _ _ _ _ _ _ _ _ _ _ H) as (_ & _ & _ & _ & _ & HQ & _ & HP & _).
  split; intros Hv; rewrite Hv in *; [exact (taken_transposed _ _ _ HQ Hl)|exact (taken_transposed _ _ _ HP Hl)].
Qed.
Lemma start_symmetric (p : params K) period now later g (e : E) ang nothing ld n v :
  start p period now later (fb_init g e) ang nothing = Ok (ld, n) -> List.length v <> 15%nat ->
  (forall i j, (i < 15)%nat -> (j < 15)%nat -> nth_error v (15 * i + j) = nth_error v (15 * j + i)) ->
  (p_Q p = Some v -> row_major v (fb_Q (n_filter n))) /\ (p_P p = Some v -> row_major v (fb_P (n_filter n))).
Proof.
  intros H Hl Hs. destruct (start_filter _ _ _ _ _ _ _ _ _ _ H) as (_ & _ & _ & _ & _ & HQ & _ & HP & _).
  split; intros Hv; rewrite Hv in *; [exact (taken_symmetric _ _ _ HQ Hl Hs)|exact (taken_symmetric _ _ _ HP Hl Hs)].
Qed.
End StartMore.

Section StartDisabled.
Context {K : Scalar} {E : Type} (pq : pqueue K) (vt : vtbl K E) (c : config K).
Lemma sensor_uninit warn topic stamp upd thresh prep (n : node K E) :
  n_filter (fst (sensorCallback pq warn topic stamp upd thresh prep n)) = n_filter n.
Proof.
  unfold sensorCallback. destruct (Z.geb (n_set_pose n) stamp); [destruct warn; reflexivity|]. cbv zeta.
  assert (X : n_filter (if sm_mem (n_last_msg n) topic then n else with_last_msg n (sm_set (n_last_msg n) topic stamp)) = n_filter n)
    by (destruct (sm_mem _ _); reflexivity).
  destruct (sm_find _ topic); [|exact X]. destruct (Z.leb _ stamp); [|exact X].
  destruct (pr_ok _); exact X.
Qed.
Lemma disabled_uninit es : forall n : node K E, n_enabled n = false -> Forall not_enable es -> fb_initialized (n_filter n) = false ->
  fb_initialized (n_filter (fst (node_run pq vt c n es))) = false.
Proof.
  induction es as [|e es IH]; intros n Hen Hne Hi; [exact Hi|]. inversion Hne as [|x l Hx Hl]; subst.
  assert (Hs : n_enabled (fst (node_step pq vt c n e)) = false /\ fb_initialized (n_filter (fst (node_step pq vt c n e))) = false).
  { destruct e as [warn topic stamp upd thresh prep|frame ctl stamp|on| | |stamp prep now| |cur later lookup];
      cbn [node_step]; try (destruct Hx; fail).
    - rewrite sensor_uninit. split; [|exact Hi].
      destruct (sensor_fields pq warn topic stamp upd thresh prep n) as (_ & _ & _ & _ & _ & D & _). cbv zeta in D.
      rewrite D. exact Hen.
    - cbn [fst]. unfold controlStampedCallback. destruct (_ || _)%bool; split; (exact Hen || exact Hi).
    - unfold toggleFilterProcessingCallback. destruct (Bool.eqb on (n_toggled n)); split; (exact Hen || exact Hi).
    - split; [exact Hen|reflexivity].
    - split; [exact Hen|exact Hi].
    - split; [exact Hen|exact Hi].
    - unfold periodicUpdate. rewrite Hen. split; [exact Hen|exact Hi]. }
  cbn [node_run]. destruct (node_step pq vt c n e) as (n1, o1) eqn:Hs1. cbn [fst] in Hs. destruct Hs as (S1 & S2).
  specialize (IH n1 S1 Hl S2). destruct (node_run pq vt c n1 es) as (n2, o2). exact IH.
Qed.
End StartDisabled.
Lemma start_disabled (K : Scalar) E (pq : pqueue K) (vt : vtbl K E) (p : params K) period now later g (e : E) ang nothing ld n es :
  pq_ok pq -> start p period now later (fb_init g e) ang nothing = Ok (ld, n) -> p_disabled p = true -> Forall not_enable es ->
  let r := node_run pq vt (ld_config ld) n es in
  fused (snd r) = [] /\ intervals (snd r) = [] /\ odoms (snd r) = [] /\ accels (snd r) = [] /\ tfs (snd r) = [] /\
  fb_initialized (n_filter (fst r)) = false.
Proof.
  intros Hq H Hd He. cbv zeta. destruct (start_fresh _ _ _ _ _ _ _ _ _ _ H) as (Hf & Hn & _).
  rewrite Hd in Hn. destruct (disabled_quiet pq vt (ld_config ld) Hq es n Hn He) as (_ & A & B & C & D & F).
  repeat (split; [assumption|]). apply disabled_uninit; try assumption. apply Hf.
Qed.
