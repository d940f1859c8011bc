(** * Settings stay as set (C105) *)

From Coq Require Import ZArith List Permutation Bool Lia String Arith.
From Verif Require Import Scalar Mat FilterBase FilterOps Tf StrMap Diagnostics RosFilter RosConfig RosPrepare Ekf Ukf SpecConfig SpecNode SpecPrepare
  SpecPublished SpecMains SpecStart SpecSettings
  NodeProofs NodeInv NodeFacts NodeTime PrepareProofs PrepareSeq NodeCarry ConfigProofs ConfigFacts StartFacts UkfProofs EkfFacts MainsFacts.
Import ListNotations.
Local Open Scope Z_scope.

(** ** What predictions and corrections leave alone *)
Section Alike.
Context {K : Scalar} {E : Type}.
Definition alike (f f' : fb K E) : Prop :=
  fb_initialized f' = fb_initialized f /\ fb_last_time f' = fb_last_time f /\
  fb_use_control f' = fb_use_control f /\ drive_of f' = drive_of f /\ fb_use_dyn f' = fb_use_dyn f /\
  fb_sensor_timeout f' = fb_sensor_timeout f /\ fb_control f' = fb_control f /\ fb_control_time f' = fb_control_time f /\
  fb_Q f' = fb_Q f.
Definition keeps_settings (vt : vtbl K E) : Prop :=
  (forall f r d, alike f (v_predict vt f r d)) /\ (forall f m, alike f (v_correct vt f m)).
Lemma alike_refl f : alike f f.
Proof. repeat split. Qed.
Lemma alike_trans a b c : alike a b -> alike b c -> alike a c.
Proof.
  intros (A1 & A2 & A3 & A4 & A5 & A6 & A7 & A8 & A9) (B1 & B2 & B3 & B4 & B5 & B6 & B7 & B8 & B9).
  repeat split; congruence.
Qed.
End Alike.

Section Filters.
Context {K : Scalar} (eig : Eigen K).
Lemma ekf_keeps : keeps_settings (ekf_vtbl eig).
Proof.
  split; intros f a.
  - intros d. change (v_predict (ekf_vtbl eig) f a d) with (ekf_predict f a d).
    destruct (predict_other f a d) as (A1 & A2 & A3 & A4 & A5 & A6 & A7 & A8 & A9 & A10 & A11 & A12 & A13 & A14 & _).
    unfold alike, drive_of. rewrite A1, A2, A3, A4, A5, A6, A7, A8, A9, A10, A11, A12, A13, A14. repeat split.
  - change (v_correct (ekf_vtbl eig) f a) with (ekf_correct eig f a).
    destruct (correct_other eig f a) as (A1 & A2 & A3 & A4 & A5 & A6 & A7 & A8 & A9 & A10 & A11 & A12 & A13 & A14 & _).
    unfold alike, drive_of. rewrite A1, A2, A3, A4, A5, A6, A7, A8, A9, A10, A11, A12, A13, A14. repeat split.
Qed.
Lemma ukf_keeps : keeps_settings (ukf_vtbl eig).
Proof.
  split; intros f a.
  - intros d. change (v_predict (ukf_vtbl eig) f a d) with (ukf_predict eig f a d). unfold ukf_predict. cbv zeta.
    destruct (project_all _ _ _ _) as [F sg]. cbn [fb_use_dyn set_F set_ext set_state generateSigmaPoints prepareControl set_control_acc].
    destruct (fb_use_dyn f) eqn:Hd; unfold alike, drive_of; cbn; rewrite ?Hd; repeat split.
  - change (v_correct (ukf_vtbl eig) f a) with (ukf_correct eig f a). unfold ukf_correct. cbv zeta.
    destruct (u_uncorrected _), (checkMahalanobisThreshold _ _ _ _); repeat split.
Qed.
End Filters.

(** ** Histories of calls *)
Section History.
Context {K : Scalar} {E : Type} (vt : vtbl K E).
Hypothesis Hvt : keeps_settings vt.

Lemma lastly_app {A} (pick : fb_op K -> option A) os : forall b o,
  lastly pick b (os ++ [o]) = match pick o with Some a => a | None => lastly pick b os end.
Proof. induction os as [|x os IH]; intros b o; [reflexivity|]. cbn [app lastly]. apply IH. Qed.
Lemma run_snoc os o (f : fb K E) : fb_run vt f (os ++ [o]) = fb_exec vt (fb_run vt f os) o.
Proof. unfold fb_run. rewrite fold_left_app. reflexivity. Qed.

Lemma built_in i j : @default_Q K i j = built_in_noise i j.
Proof. unfold default_Q, built_in_noise. destruct (Nat.eqb i j); reflexivity. Qed.

Definition told (g : vec K) (os : list (fb_op K)) (f : fb K E) : Prop :=
  fb_initialized f = lastly gives_initialised false os /\ fb_last_time f = clock (rev os) /\
  (fb_use_control f, drive_of f) = lastly gives_drive no_drive os /\ fb_use_dyn f = lastly gives_dynamic false os /\
  fb_sensor_timeout f = lastly gives_timeout 33333333 os /\ (fb_control f, fb_control_time f) = lastly gives_command (g, 0) os /\
  forall i j, fb_Q f i j = lastly gives_noise built_in_noise os i j.

Lemma told_alike g os o f f' : told g os f -> alike f f' ->
  gives_initialised o = None -> gives_drive o = None -> gives_dynamic o = None -> gives_timeout o = None ->
  gives_command o = None -> gives_noise o = None -> clock (rev (os ++ [o])) = clock (rev os) -> told g (os ++ [o]) f'.
Proof.
  intros (T1 & T2 & T3 & T4 & T5 & T6 & T7) (A1 & A2 & A3 & A4 & A5 & A6 & A7 & A8 & A9) O1 O2 O3 O4 O5 O6 O7.
  unfold told. rewrite !lastly_app, O1, O2, O3, O4, O5, O6, O7, A1, A2, A3, A4, A5, A6, A7, A8, A9. repeat split; assumption.
Qed.

Lemma process_alike f m :
  let f' := processMeasurement vt f m in
  fb_initialized f' = true /\ fb_last_time f' = (if fb_initialized f then Z.max (fb_last_time f) (m_time m) else m_time m) /\
  fb_use_control f' = fb_use_control f /\ drive_of f' = drive_of f /\ fb_use_dyn f' = fb_use_dyn f /\
  fb_sensor_timeout f' = fb_sensor_timeout f /\ fb_control f' = fb_control f /\ fb_control_time f' = fb_control_time f /\
  fb_Q f' = fb_Q f.
Proof.
  cbv zeta. unfold processMeasurement. destruct (fb_initialized f) eqn:Hi; [|repeat split].
  set (delta := m_time m - fb_last_time f). set (s1 := if delta >? 0 then _ else f).
  assert (A1 : alike f s1).
  { unfold s1. destruct (delta >? 0); [|apply alike_refl].
    destruct (proj1 Hvt f (m_time m) delta) as (X1 & X2 & X3 & X4 & X5 & X6 & X7 & X8 & X9).
    repeat split; cbn; assumption. }
  pose proof (alike_trans _ _ _ A1 (proj2 Hvt s1 m)) as (X1 & X2 & X3 & X4 & X5 & X6 & X7 & X8 & X9).
  destruct (Z.geb_spec delta 0) as [Hd|Hd]; cbn [fb_initialized set_last_time fb_last_time fb_use_control fb_use_dyn fb_sensor_timeout fb_control fb_control_time fb_Q].
  - split; [congruence|]. split; [unfold delta in Hd; lia|]. repeat split; assumption.
  - split; [congruence|]. split; [rewrite X2; unfold delta in Hd; lia|]. repeat split; assumption.
Qed.

Lemma history_told g (e : E) os : told g os (fb_run vt (fb_init g e) os).
Proof.
  induction os as [|o os IH] using rev_ind.
  - unfold told. cbn [rev clock lastly]. repeat (split; [reflexivity|]). exact built_in.
  - rewrite run_snoc. set (f := fb_run vt (fb_init g e) os) in *. clearbody f.
    destruct o as [r d|m|m|u t|axes timeout al ag dl dg|b|P|t|Q|d|x|]; cbn [fb_exec].
    1,2: (eapply told_alike; [exact IH|apply Hvt|reflexivity..|rewrite rev_unit; reflexivity]).
    { destruct (process_alike f m) as (A1 & A2 & A3 & A4 & A5 & A6 & A7 & A8 & A9).
      destruct IH as (T1 & T2 & T3 & T4 & T5 & T6 & T7). unfold told. rewrite !lastly_app, rev_unit.
      cbn [gives_initialised gives_drive gives_dynamic gives_timeout gives_command gives_noise clock].
      rewrite rev_involutive, A1, A2, A3, A4, A5, A6, A7, A8, A9, T1, T2. repeat split; assumption. }
    all: (destruct IH as (T1 & T2 & T3 & T4 & T5 & T6 & T7); unfold told; rewrite !lastly_app, rev_unit;
      cbn [gives_initialised gives_drive gives_dynamic gives_timeout gives_command gives_noise clock];
      repeat (split; [first [assumption|reflexivity]|]); first [assumption|exact built_in|reflexivity]).
Qed.

Lemma set_and_read (f : fb K E) o : leaves_estimate o ->
  fb_state (fb_exec vt f o) = fb_state f /\ fb_P (fb_exec vt f o) = fb_P f.
Proof. destruct o; try contradiction; split; reflexivity. Qed.
End History.

(** ** Running nodes *)
Section Keep.
Context {K : Scalar} {E : Type}.
Variable pq : pqueue K.
Variable vt : vtbl K E.
Variable c : config K.
Variable f0 : fb K E.
Variable R : mat K -> Prop.
Hypothesis Hpq : pq_ok pq.
Hypothesis Hvt : keeps_settings vt.
Hypothesis Htime : fb_sensor_timeout f0 = c_sensor_timeout c.

Let P (f : fb K E) : Prop := same_settings f0 f /\ R (fb_Q f).
Let good (n : node K E) : Prop := P (n_filter n).
Let fine : output K E -> Prop := fusing P.

Lemma P_alike f f' : fb_use_control f' = fb_use_control f -> drive_of f' = drive_of f -> fb_use_dyn f' = fb_use_dyn f ->
  fb_sensor_timeout f' = fb_sensor_timeout f -> fb_Q f' = fb_Q f -> P f -> P f'.
Proof.
  intros A B C D F ((X1 & X2 & X3 & X4) & X5). split; [|rewrite F; exact X5].
  unfold same_settings. rewrite A, B, C, D. repeat split; assumption.
Qed.
Lemma process_keep f m : P f -> P (processMeasurement vt f m).
Proof.
  destruct (process_alike vt Hvt f m) as (_ & _ & A3 & A4 & A5 & A6 & _ & _ & A9). apply P_alike; assumption.
Qed.
Lemma predict_keep f r d t : P f -> P (set_last_time (v_predict vt f r d) t).
Proof.
  destruct (proj1 Hvt f r d) as (_ & _ & A3 & A4 & A5 & A6 & _ & _ & A9). apply P_alike; assumption.
Qed.

Lemma loop_keep fuel : forall now restored n n' o, good n ->
  integrate_loop pq vt c fuel now restored n = (n', o) -> good n' /\ Forall fine o.
Proof.
  induction fuel as [|fuel IH]; intros now restored n n' o H Hrun.
  - cbn in Hrun. injection Hrun as <- <-. split; [exact H|constructor].
  - rewrite loop_step in Hrun. destruct (pq_pop pq (n_queue n)) as [[m rest]|].
    2:{ injection Hrun as <- <-. split; [exact H|constructor]. }
    destruct (now <? m_time m). { injection Hrun as <- <-. split; [exact H|constructor]. }
    destruct (integrate_loop pq vt c fuel now (loop_count c restored) (loop_node pq vt c restored n m rest))
      as [n3 o3] eqn:Hrec. injection Hrun as <- <-.
    assert (Hf1 : P (loop_filter c restored (n_filter n) m)).
    { unfold loop_filter. destruct (loop_control c restored); exact H. }
    assert (H2 : good (loop_node pq vt c restored n m rest)) by (apply process_keep, Hf1).
    destruct (IH _ _ _ _ _ H2 Hrec) as [I1 I2]. split; [exact I1|]. constructor; [exact Hf1|exact I2].
Qed.

Lemma revert_keep (n : node K E) : good n -> good (snd (revert_if_lagged pq c n)).
Proof.
  intros H. unfold revert_if_lagged. destruct (pq_pop pq (n_queue n)) as [[first r]|]; [|exact H].
  destruct (c_smooth c && _)%bool; [|exact H].
  pose proof (revert_cases pq Hpq n (m_time first - 1)) as Hr.
  destruct (revertTo pq n (m_time first - 1)) as [ok n0]. cbn [snd].
  assert (Hgo : forall s kept, revert_to_snapshot n n0 (m_time first - 1) s kept -> good n0).
  { intros s kept (F1 & _). unfold good. rewrite F1. exact H. }
  destruct Hr as [(_ & _ & ->)|[(pre & s & post & _ & _ & _ & _ & Hrs)|(s & post & _ & _ & _ & Hrs)]].
  - exact H.
  - exact (Hgo _ _ Hrs).
  - exact (Hgo _ _ Hrs).
Qed.

Lemma catch_up_keep now n : good n -> good (fst (catch_up pq vt c now n)) /\ Forall fine (snd (catch_up pq vt c now n)).
Proof.
  intros H. unfold catch_up. destruct (n_queue n); [split; [exact H|constructor]|].
  pose proof (revert_keep n H) as Hr. destruct (revert_if_lagged pq c n) as [restored n0]. cbn in Hr.
  destruct (integrate_loop pq vt c (List.length (n_queue n0)) now restored n0) as [n1 o1] eqn:Hl.
  exact (loop_keep _ _ _ _ _ _ Hr Hl).
Qed.

Lemma integrate_keep now n : good n ->
  good (fst (integrateMeasurements pq vt c now n)) /\ Forall fine (snd (integrateMeasurements pq vt c now n)).
Proof.
  intros H. rewrite (integrate_eq pq vt c Hpq). destruct (catch_up_keep now n H) as (H1 & H2).
  destruct (catch_up pq vt c now n) as [n1 o1]. cbn [fst snd] in *.
  destruct (_ && _)%bool; [|split; assumption]. cbn [fst snd]. split.
  - unfold good. cbn. apply predict_keep, H1.
  - apply Forall_app. split; [exact H2|]. constructor; [exact I|constructor].
Qed.

Lemma working_keep cur later n : good n ->
  good (fst (working pq vt c cur later n)) /\ Forall fine (snd (working pq vt c cur later n)).
Proof.
  intros H. unfold working. destruct (n_toggled n).
  - destruct (integrate_keep cur n H) as (H3 & H4). destruct (integrateMeasurements pq vt c cur n) as [n0 o]. cbn [fst snd] in *.
    split; [|exact H4]. unfold good. rewrite (proj1 (diff_fields cur n0)). exact H3.
  - cbn [fst snd]. split; [|constructor]. destruct (fb_initialized (n_filter n)); exact H.
Qed.

Lemma visible_unfused (n : node K E) lookup : Forall fine (visible c n lookup).
Proof.
  unfold visible, getFilteredOdometryMessage, getFilteredAccelMessage. destruct (fb_initialized (n_filter n)).
  2:{ cbn. destruct (_ && _)%bool; constructor. }
  apply Forall_app. split.
  - apply Forall_app. split; [destruct (validateFilterOutput _); repeat constructor|]. apply Forall_app. split.
    + destruct (_ && _)%bool; [|constructor]. unfold broadcast.
      destruct (_ =? _)%string; [repeat constructor|]. destruct (_ =? _)%string; [destruct lookup|]; repeat constructor.
    + destruct (corrected c n); repeat constructor.
  - destruct (_ && _)%bool; repeat constructor.
Qed.

Lemma step_keep n e : (e = EvReset -> R (c_Q c)) -> good n ->
  good (fst (node_step pq vt c n e)) /\ Forall fine (snd (node_step pq vt c n e)).
Proof.
  intros HR H. destruct e as [w topic stamp u th prep|fr ctl stamp|on| | |stamp prep now| |cur later lookup]; cbn [node_step].
  - unfold sensorCallback. destruct (_ >=? _); [split; [|constructor]; destruct w; exact H|].
    set (n1 := if sm_mem _ _ then n else _).
    assert (H1 : good n1) by (unfold n1; destruct (sm_mem _ _); exact H). clearbody n1.
    destruct (sm_find (n_last_msg n1) topic); [|split; [exact H1|constructor]].
    destruct (_ <=? _); [|split; [exact H1|constructor]].
    set (r := prep n1 u vzero mzero). clearbody r. destruct (pr_ok r); [|split; [exact H1|constructor]].
    cbn [enqueueMeasurement fst snd]. split; [exact H1|repeat constructor].
  - split; [|constructor]. unfold controlStampedCallback. destruct (_ || _)%bool; exact H.
  - unfold toggleFilterProcessingCallback. destruct (Bool.eqb _ _); (split; [exact H|repeat constructor]).
  - unfold enableFilterSrvCallback. destruct (n_enabled n); (split; [exact H|repeat constructor]).
  - cbn [fst snd]. split; [|constructor]. unfold good, reset. destruct H as ((X1 & X2 & X3 & X4) & _).
    split; [|exact (HR eq_refl)]. repeat split; try assumption. symmetry. exact Htime.
  - split; [exact H|constructor].
  - destruct (aggregateDiagnostics (n_diag n)) as [r d]. split; [exact H|repeat constructor].
  - destruct (n_enabled n) eqn:En; [|unfold periodicUpdate; rewrite En; split; [exact H|constructor]].
    rewrite (cycle_eq pq vt c cur later lookup n En).
    destruct (working_keep cur later n H) as (H1 & H2).
    destruct (working pq vt c cur later n) as [n1 o1]. cbn [fst snd] in *. split; [exact H1|].
    apply Forall_app. split; [exact H2|]. apply Forall_app. split; [apply visible_unfused|].
    destruct (diag_due c cur n1); repeat constructor.
Qed.

Lemma run_keep es : (In EvReset es -> R (c_Q c)) -> forall n, good n ->
  good (fst (node_run pq vt c n es)) /\ Forall fine (snd (node_run pq vt c n es)).
Proof.
  induction es as [|e es IH]; intros HR n H; [split; [exact H|constructor]|]. cbn [node_run].
  destruct (step_keep n e (fun Q => HR (or_introl Q)) H) as (H1 & H2). destruct (node_step pq vt c n e) as [n1 o1]. cbn [fst snd] in *.
  destruct (IH (fun Q => HR (or_intror Q)) n1 H1) as (H3 & H4). destruct (node_run pq vt c n1 es) as [n2 o2]. cbn [fst snd] in *.
  split; [exact H3|]. apply Forall_app. split; assumption.
Qed.

Lemma expanded_reset (is : list (input (K:=K) (E:=E))) ess : Forall2 expands is ess -> In EvReset (List.concat ess) -> In (Event EvReset) is.
Proof.
  induction 1 as [|i es is ess Hi His IH]; [intros []|]. cbn [List.concat]. intros Hin. apply in_app_or in Hin. destruct Hin as [Hin|Hin].
  - left. destruct Hi as [e s m es Hr|ev].
    + rewrite Forall_forall in Hr. destruct (Hr _ Hin).
    + destruct Hin as [->|[]]. reflexivity.
  - right. apply IH, Hin.
Qed.

Lemma respond_keep is n : (In (Event EvReset) is -> R (c_Q c)) -> same_settings f0 (n_filter n) -> R (fb_Q (n_filter n)) ->
  forall f, f = n_filter (fst (respond pq vt c n is)) \/ (exists m, In (OutFused f m) (snd (respond pq vt c n is))) ->
  same_settings f0 f /\ R (fb_Q f).
Proof.
  intros HR H1 H2 f Hf. destruct (respond_expands pq vt c is n) as (ess & He & Ee). rewrite Ee in Hf.
  destruct (run_keep (List.concat ess) (fun Q => HR (expanded_reset _ _ He Q)) n (conj H1 H2)) as (A & B).
  destruct Hf as [->|(m & Hm)]; [exact A|]. rewrite Forall_forall in B. exact (B _ Hm).
Qed.
End Keep.

Section Started.
Context {K : Scalar} {E : Type} (vt : vtbl K E).
Lemma same_settings_refl (f : fb K E) : same_settings f f.
Proof. repeat split. Qed.

Lemma taken_determined v d d' (M M' : mat K) : taken_as (Some v) d M -> taken_as (Some v) d' M' ->
  forall i j, (i < 15)%nat -> (j < 15)%nat -> M' i j = M i j.
Proof.
  intros (A1 & A2) (B1 & B2) i j Hi Hj. destruct (Nat.eq_dec (List.length v) 15) as [Hl|Hl].
  - destruct (A1 Hl) as (A3 & A4), (B1 Hl) as (B3 & B4). destruct (Nat.eq_dec i j) as [<-|Hn].
    + specialize (A3 i Hi). specialize (B3 i Hi). congruence.
    + rewrite (A4 i j Hi Hj Hn), (B4 i j Hi Hj Hn). reflexivity.
  - specialize (A2 Hl i j Hi Hj). specialize (B2 Hl i j Hi Hj). congruence.
Qed.

Lemma started_settings (pq : pqueue K) (p : params K) period now later g (e : E) ang nothing ld n is f : pq_ok pq -> keeps_settings vt ->
  start p period now later (fb_init g e) ang nothing = Ok (ld, n) ->
  f = n_filter (fst (respond pq vt (ld_config ld) n is)) \/ (exists m, In (OutFused f m) (snd (respond pq vt (ld_config ld) n is))) ->
  same_settings (n_filter n) f /\ (no_reset is \/ p_Q p <> None -> same_noise (n_filter n) f).
Proof.
  intros Hq Hk Hs Hf. destruct (start_filter _ _ _ _ _ _ _ _ _ _ Hs) as (_ & T & _ & _ & _ & Q1 & _ & _ & Q2 & _).
  destruct (start_options _ _ _ _ _ _ _ _ _ Hs) as (_ & _ & _ & _ & _ & _ & _ & T' & _).
  assert (HT : fb_sensor_timeout (n_filter n) = c_sensor_timeout (ld_config ld)) by congruence.
  split.
  - apply (respond_keep pq vt (ld_config ld) (n_filter n) (fun _ => True) Hq Hk HT is n (fun _ => I) (same_settings_refl _) I f Hf).
  - intros Hc. pose proof (respond_keep pq vt (ld_config ld) (n_filter n)
      (fun M => forall i j, (i < 15)%nat -> (j < 15)%nat -> M i j = fb_Q (n_filter n) i j) Hq Hk HT is n) as G.
    refine (proj2 (G _ (same_settings_refl _) (fun i j _ _ => eq_refl) f Hf)).
    intros Hin. destruct Hc as [Hc|Hc].
    + unfold no_reset in Hc. rewrite Forall_forall in Hc. destruct (Hc _ Hin eq_refl).
    + destruct (p_Q p) as [v|]; [|destruct (Hc eq_refl)]. intros i j Hi Hj. exact (taken_determined v _ _ _ _ Q1 Q2 i j Hi Hj).
Qed.
End Started.
