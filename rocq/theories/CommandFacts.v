(** * Which velocity command is in effect (C89) *)

From Coq Require Import ZArith List Bool String Lia.
From Verif Require Import Scalar Mat FilterBase Tf StrMap Diagnostics RosFilter Ekf Ukf EkfFacts Angles SpecNode SpecCommand
  NodeProofs NodeInv NodeFacts.
Import ListNotations.
Local Open Scope Z_scope.

Section Command.
Context {K : Scalar} {E : Type}.
Variable pq : pqueue K.
Variable vt : vtbl K E.
Variable c : config K.
Hypothesis Hk : keeps_command vt.

Lemma process_command f m : command_of (processMeasurement vt f m) = command_of f.
Proof.
  destruct Hk as [Hp Hc]. unfold processMeasurement. destruct (fb_initialized f); [|reflexivity].
  destruct (_ >? 0); destruct (_ >=? 0);
    match goal with |- command_of (set_last_time ?x _) = _ => change (command_of (set_last_time x (m_time m))) with (command_of x) | _ => idtac end;
    rewrite Hc; try reflexivity;
    match goal with |- command_of (set_predicted ?x _) = _ => change (command_of x = command_of f) end; apply Hp.
Qed.

Definition commands_are (u : vec K * Z) (os : list (output K E)) : Prop :=
  Forall (fun o => match o with OutFused f _ => command_of f = u | _ => True end) os.

Lemma loop_commands : forall fuel now r n, (c_use_control c = false \/ r = 0) ->
  let x := integrate_loop pq vt c fuel now r n in
  command_of (n_filter (fst x)) = command_of (n_filter n) /\ commands_are (command_of (n_filter n)) (snd x) /\
  n_ctl (fst x) = n_ctl n /\ n_ctl_time (fst x) = n_ctl_time n.
Proof.
  induction fuel as [|fuel IH]; intros now r n Hr x; subst x.
  - cbn. repeat split. constructor.
  - rewrite loop_step. destruct (pq_pop pq (n_queue n)) as [[m rest]|]; [|repeat split; constructor].
    destruct (now <? m_time m); [repeat split; constructor|].
    assert (Hl : loop_control c r = false) by (unfold loop_control; destruct Hr as [->| ->]; [reflexivity|apply andb_false_r]).
    assert (Hf : loop_filter c r (n_filter n) m = n_filter n) by (unfold loop_filter; rewrite Hl; reflexivity).
    assert (Hc : loop_count c r = r) by (unfold loop_count; rewrite Hl; reflexivity).
    rewrite Hc. specialize (IH now r (loop_node pq vt c r n m rest) Hr). cbv zeta in IH.
    assert (Hn : command_of (n_filter (loop_node pq vt c r n m rest)) = command_of (n_filter n)).
    { cbn [loop_node n_filter]. rewrite process_command, Hf. reflexivity. }
    destruct (integrate_loop pq vt c fuel now r (loop_node pq vt c r n m rest)) as [n3 o]. cbn [fst snd] in *.
    rewrite Hn in IH. destruct IH as (A & B & C & D). split; [exact A|]. split; [|split; [exact C|exact D]].
    constructor; [rewrite Hf; reflexivity|exact B].
Qed.
Lemma restore_command (n : node K E) s t : command_of (n_filter (restoreSnapshot pq n s t)) = command_of (n_filter n) /\
  n_ctl (restoreSnapshot pq n s t) = n_ctl n /\ n_ctl_time (restoreSnapshot pq n s t) = n_ctl_time n.
Proof. unfold restoreSnapshot. destruct (pop_back_while _ _) as [a b]. repeat split. Qed.
Lemma revert_command (n : node K E) t : command_of (n_filter (snd (revertTo pq n t))) = command_of (n_filter n) /\
  n_ctl (snd (revertTo pq n t)) = n_ctl n /\ n_ctl_time (snd (revertTo pq n t)) = n_ctl_time n.
Proof.
  unfold revertTo. destruct (pop_back_while _ _) as [a b]. destruct (last_opt a) as [s|].
  - cbn [snd]. destruct (restore_command (with_state_hist n a) s t) as (H1 & H2 & H3). rewrite H1, H2, H3. repeat split.
  - destruct (last_opt b) as [s|]; [|repeat split].
    cbn [snd]. destruct (restore_command (with_state_hist n a) s t) as (H1 & H2 & H3). rewrite H1, H2, H3. repeat split.
Qed.
Lemma lagged_command (n : node K E) : let x := revert_if_lagged pq c n in
  command_of (n_filter (snd x)) = command_of (n_filter n) /\ n_ctl (snd x) = n_ctl n /\ n_ctl_time (snd x) = n_ctl_time n /\
  (c_smooth c = false -> fst x = 0).
Proof.
  intros x. subst x. unfold revert_if_lagged. destruct (pq_pop pq (n_queue n)) as [[first rest]|]; [|repeat split].
  destruct (c_smooth c && _)%bool eqn:Hs; [|repeat split]. cbn [fst snd].
  destruct (revert_command n (m_time first - 1)) as (H1 & H2 & H3). repeat split; try assumption.
  intros H. rewrite H in Hs. discriminate.
Qed.

Hypothesis Hplain : c_smooth c = false \/ c_use_control c = false.

Lemma commands_app u a b : commands_are u a -> commands_are u b -> commands_are u (a ++ b).
Proof. intros Ha Hb. apply Forall_app. split; assumption. Qed.

Lemma integrate_commands now n : let x := integrateMeasurements pq vt c now n in
  command_of (n_filter (fst x)) = command_of (n_filter n) /\ commands_are (command_of (n_filter n)) (snd x) /\
  n_ctl (fst x) = n_ctl n /\ n_ctl_time (fst x) = n_ctl_time n.
Proof.
  assert (P : forall (n1 : node K E) (o1 : list (output K E)) predict,
    command_of (n_filter n1) = command_of (n_filter n) -> commands_are (command_of (n_filter n)) o1 ->
    n_ctl n1 = n_ctl n -> n_ctl_time n1 = n_ctl_time n ->
    let x := if (fb_initialized (n_filter n1) && predict)%bool then
        let delta := (now - fb_last_time (n_filter n1))%Z in
        let f := v_predict vt (n_filter n1) now delta in
        (with_filter n1 (setLastMeasurementTime f (fb_last_time f + delta)), o1 ++ [OutPredict now delta])
      else (n1, o1) in
    command_of (n_filter (fst x)) = command_of (n_filter n) /\ commands_are (command_of (n_filter n)) (snd x) /\
    n_ctl (fst x) = n_ctl n /\ n_ctl_time (fst x) = n_ctl_time n).
  { intros n1 o1 predict H1 H2 H3 H4. destruct (_ && _)%bool; [|repeat split; assumption]. cbv zeta. cbn [fst snd with_filter n_filter n_ctl n_ctl_time].
    split; [|split; [|split; assumption]].
    - rewrite <- H1. exact (proj1 Hk _ _ _).
    - apply commands_app; [exact H2|]. repeat constructor. }
  unfold integrateMeasurements. destruct (pq_pop pq (n_queue n)) as [y|].
  - pose proof (lagged_command n) as L. cbv zeta in L. destruct (revert_if_lagged pq c n) as [r n0]. cbn [fst snd] in L.
    destruct L as (L1 & L2 & L3 & L4).
    assert (Hr : c_use_control c = false \/ r = 0) by (destruct Hplain; auto).
    pose proof (loop_commands (List.length (n_queue n0)) now r n0 Hr) as A. cbv zeta in A.
    destruct (integrate_loop pq vt c (List.length (n_queue n0)) now r n0) as [n1 o]. cbn [fst snd] in A.
    destruct A as (A1 & A2 & A3 & A4). apply P; [congruence|rewrite <- L1; exact A2|congruence|congruence].
  - destruct (fb_initialized (n_filter n)); apply P; try reflexivity; constructor.
Qed.

Lemma visible_commands u n1 lookup : commands_are u (visible c n1 lookup).
Proof.
  unfold visible, broadcast. apply Forall_forall. intros o Ho. destruct o; try exact I. exfalso.
  revert Ho. repeat match goal with |- context [match ?x with _ => _ end] => destruct x end; cbn; intuition congruence.
Qed.

Lemma step_commands ev n : (forall frame ctl stamp, ev <> EvControl frame ctl stamp) ->
  let x := node_step pq vt c n ev in
  command_of (n_filter (fst x)) = command_of (n_filter n) /\ commands_are (command_of (n_filter n)) (snd x) /\
  n_ctl (fst x) = n_ctl n /\ (ev <> EvReset -> n_ctl_time (fst x) = n_ctl_time n).
Proof.
  intros Hev x. subst x. destruct ev as [warn topic stamp upd thresh prep|frame ctl stamp|on| | |stamp prep now| |cur later lookup]; cbn [node_step].
  - unfold sensorCallback. destruct (n_set_pose n >=? stamp).
    { cbn [fst snd]. destruct warn; repeat split; constructor. }
    cbv zeta. set (n1 := if sm_mem (n_last_msg n) topic then n else _).
    assert (Hn : n_filter n1 = n_filter n /\ n_ctl n1 = n_ctl n /\ n_ctl_time n1 = n_ctl_time n) by (unfold n1; destruct (sm_mem _ _); repeat split).
    destruct Hn as (N1 & N2 & N3). rewrite <- N1, <- N2, <- N3. clearbody n1.
    destruct (sm_find (n_last_msg n1) topic); [|repeat split; constructor].
    destruct (_ <=? stamp); [|repeat split; constructor].
    destruct (pr_ok _); cbn; repeat split; repeat constructor.
  - exfalso. eapply Hev. reflexivity.
  - unfold toggleFilterProcessingCallback. destruct (Bool.eqb _ _); cbn; repeat split; repeat constructor.
  - unfold enableFilterSrvCallback. destruct (n_enabled n); cbn; repeat split; repeat constructor.
  - cbn. repeat split; [constructor|congruence].
  - cbn. repeat split; constructor.
  - cbn. repeat split; repeat constructor.
  - destruct (n_enabled n) eqn:He.
    2:{ unfold periodicUpdate. rewrite He. cbn. repeat split; constructor. }
    rewrite (cycle_eq pq vt c cur later lookup n He). unfold working. destruct (n_toggled n).
    + pose proof (integrate_commands cur n) as I. cbv zeta in I. destruct (integrateMeasurements pq vt c cur n) as [n0 o]. cbn [fst snd] in I.
      destruct I as (I1 & I2 & I3 & I4). destruct (diff_fields cur n0) as (F1 & F2 & F3). cbn [fst snd concluded n_filter n_ctl n_ctl_time].
      split; [rewrite F1; exact I1|]. split.
      { apply commands_app; [exact I2|]. apply commands_app; [apply visible_commands|]. destruct (diag_due _ _ _); repeat constructor. }
      unfold differentiateMeasurements. destruct (fb_initialized _); cbn; split; auto.
    + destruct (fb_initialized (n_filter n)); cbn [fst snd concluded n_filter n_ctl n_ctl_time with_filter with_queue];
        (split; [reflexivity|]; split; [|split; reflexivity]);
        (apply commands_app; [constructor|]; apply commands_app; [apply visible_commands|]; destruct (diag_due _ _ _); repeat constructor).
Qed.

Lemma control_step frame ctl stamp n : let x := node_step pq vt c n (EvControl frame ctl stamp) in
  snd x = [] /\
  (in_body_frame (c_base c) frame ->
     command_of (n_filter (fst x)) = (ctl, stamp) /\ n_ctl (fst x) = ctl /\ n_ctl_time (fst x) = stamp) /\
  (~ in_body_frame (c_base c) frame -> fst x = n).
Proof.
  clear Hplain Hk. cbn [node_step]. cbv zeta. cbn [fst snd]. unfold controlStampedCallback, in_body_frame. split; [reflexivity|].
  destruct (String.eqb_spec frame (c_base c)); destruct (String.eqb_spec frame ""); cbn [orb];
    (split; [intros; repeat split; tauto|tauto]).
Qed.

Lemma run_snoc es ev n : node_run pq vt c n (es ++ [ev]) =
  let '(n1, o1) := node_run pq vt c n es in let '(n2, o2) := node_step pq vt c n1 ev in (n2, o1 ++ o2).
Proof.
  revert n. induction es as [|e es IH]; intros n; cbn [app node_run].
  - destruct (node_step pq vt c n ev) as [n2 o2]. rewrite app_nil_r. reflexivity.
  - destruct (node_step pq vt c n e) as [n1 o1]. rewrite IH. destruct (node_run pq vt c n1 es) as [n2 o2].
    destruct (node_step pq vt c n2 ev) as [n3 o3]. rewrite app_assoc. reflexivity.
Qed.

Lemma run_command es n v : last_command (c_base c) (command_of (n_filter n)) es v ->
  command_of (n_filter (fst (node_run pq vt c n es))) = v.
Proof.
  intros H. induction H as [|es v frame ctl stamp H IH Hb|es v frame ctl stamp H IH Hb|es v ev H IH Hev]; [reflexivity| | |];
    rewrite run_snoc; destruct (node_run pq vt c n es) as [n1 o1]; cbn [fst] in IH.
  - destruct (control_step frame ctl stamp n1) as (_ & A & _). cbv zeta in A. destruct (node_step _ _ _ n1 _) as [n2 o2]. apply A, Hb.
  - destruct (control_step frame ctl stamp n1) as (_ & _ & A). cbv zeta in A. destruct (node_step _ _ _ n1 _) as [n2 o2]. cbn [fst] in *.
    rewrite (A Hb). exact IH.
  - destruct (step_commands ev n1 Hev) as (A & _). destruct (node_step _ _ _ n1 _) as [n2 o2]. cbn [fst] in *. congruence.
Qed.
Lemma command_in_effect es n v ev f m : last_command (c_base c) (command_of (n_filter n)) es v ->
  In (OutFused f m) (snd (node_step pq vt c (fst (node_run pq vt c n es)) ev)) -> command_of f = v.
Proof.
  intros H Hin. rewrite <- (run_command es n v H). set (n1 := fst (node_run pq vt c n es)) in *.
  assert (D : (exists frame ctl stamp, ev = EvControl frame ctl stamp) \/ forall frame ctl stamp, ev <> EvControl frame ctl stamp).
  { destruct ev; try (right; intros; discriminate). left. eauto. }
  destruct D as [(frame & ctl & stamp & ->)|D].
  - destruct (control_step frame ctl stamp n1) as (A & _). rewrite A in Hin. contradiction.
  - destruct (step_commands ev n1 D) as (_ & A & _). unfold commands_are in A. rewrite Forall_forall in A. exact (A _ Hin).
Qed.
End Command.

(** ** The tag of a measurement, with any configuration *)
Section Tag.
Context {K : Scalar} {E : Type}.
Variable pq : pqueue K.
Variable vt : vtbl K E.
Variable c : config K.

Lemma loop_tag : forall fuel now r (n : node K E),
  n_ctl (fst (integrate_loop pq vt c fuel now r n)) = n_ctl n /\ n_ctl_time (fst (integrate_loop pq vt c fuel now r n)) = n_ctl_time n /\
  queued (snd (integrate_loop pq vt c fuel now r n)) = [].
Proof.
  induction fuel as [|fuel IH]; intros now r n; [repeat split|].
  rewrite loop_step. destruct (pq_pop pq (n_queue n)) as [[m rest]|]; [|repeat split].
  destruct (now <? m_time m); [repeat split|].
  specialize (IH now (loop_count c r) (loop_node pq vt c r n m rest)).
  destruct (integrate_loop pq vt c fuel now _ _) as [n3 o]. exact IH.
Qed.
Lemma integrate_tag now (n : node K E) :
  n_ctl (fst (integrateMeasurements pq vt c now n)) = n_ctl n /\ n_ctl_time (fst (integrateMeasurements pq vt c now n)) = n_ctl_time n /\
  queued (snd (integrateMeasurements pq vt c now n)) = [].
Proof.
  unfold integrateMeasurements. destruct (pq_pop pq (n_queue n)) as [y|].
  - destruct (lagged_command pq c n) as (_ & L2 & L3 & _). cbv zeta in *. destruct (revert_if_lagged pq c n) as [r n0]. cbn [fst snd] in *.
    destruct (loop_tag (List.length (n_queue n0)) now r n0) as (A1 & A2 & A3).
    destruct (integrate_loop pq vt c (List.length (n_queue n0)) now r n0) as [n1 o]. cbn [fst snd] in *.
    destruct (_ && _)%bool; cbn; rewrite ?queued_app, ?A3; repeat split; congruence.
  - destruct (fb_initialized (n_filter n)) eqn:Hi; rewrite Hi; cbn [andb]; [destruct (c_predict_now c || _)%bool|]; cbn; repeat split.
Qed.
Lemma step_tag ev (n : node K E) : (forall frame ctl stamp, ev <> EvControl frame ctl stamp) ->
  n_ctl (fst (node_step pq vt c n ev)) = n_ctl n /\ (ev <> EvReset -> n_ctl_time (fst (node_step pq vt c n ev)) = n_ctl_time n) /\
  Forall (fun o => match o with OutQueued m => (m_control m, m_control_time m) = (n_ctl n, n_ctl_time n) | _ => True end)
    (snd (node_step pq vt c n ev)).
Proof.
  intros Hev. destruct ev as [warn topic stamp upd thresh prep|frame ctl stamp|on| | |stamp prep now| |cur later lookup]; cbn [node_step].
  - unfold sensorCallback. destruct (n_set_pose n >=? stamp).
    { cbn [fst snd]. destruct warn; repeat split; constructor. }
    cbv zeta. set (n1 := if sm_mem (n_last_msg n) topic then n else _).
    assert (Hn : n_ctl n1 = n_ctl n /\ n_ctl_time n1 = n_ctl_time n) by (unfold n1; destruct (sm_mem _ _); repeat split).
    destruct Hn as (N2 & N3). rewrite <- N2, <- N3. clearbody n1.
    destruct (sm_find (n_last_msg n1) topic); [|repeat split; constructor].
    destruct (_ <=? stamp); [|repeat split; constructor].
    destruct (pr_ok _); cbn; repeat split; repeat constructor.
  - exfalso. eapply Hev. reflexivity.
  - unfold toggleFilterProcessingCallback. destruct (Bool.eqb _ _); cbn; repeat split; repeat constructor.
  - unfold enableFilterSrvCallback. destruct (n_enabled n); cbn; repeat split; repeat constructor.
  - cbn. repeat split; [congruence|constructor].
  - cbn. repeat split; constructor.
  - cbn. repeat split; repeat constructor.
  - destruct (n_enabled n) eqn:He.
    2:{ unfold periodicUpdate. rewrite He. cbn. repeat split; constructor. }
    assert (HQ : Forall (fun o => match o with OutQueued m => (m_control m, m_control_time m) = (n_ctl n, n_ctl_time n) | _ => True end)
       (snd (periodicUpdate pq vt c cur later lookup n))).
    { destruct (cycle_obs pq vt c cur later lookup n He) as (_ & O2 & _). cbv zeta in *.
      apply Forall_forall. intros o Ho. destruct o; try exact I. exfalso.
      match goal with m : meas K |- _ => assert (Hin : In m (queued (snd (periodicUpdate pq vt c cur later lookup n)))) end.
      { revert Ho. generalize (snd (periodicUpdate pq vt c cur later lookup n)). clear. intros l. induction l as [|o l IH]; [intros []|].
        intros [->|H]; cbn [queued]; [left; reflexivity|]. destruct o; cbn [In]; auto. }
      rewrite O2 in Hin. revert Hin. unfold working. destruct (n_toggled n); [|intros []].
      destruct (integrate_tag cur n) as (_ & _ & A3). destruct (integrateMeasurements pq vt c cur n) as [n0 o]. cbn [snd] in *.
      rewrite A3. intros []. }
    split; [|split; [|exact HQ]]; rewrite (cycle_eq pq vt c cur later lookup n He); unfold working; destruct (n_toggled n);
      try (destruct (fb_initialized (n_filter n)); reflexivity);
      destruct (integrate_tag cur n) as (A1 & A2 & _); destruct (integrateMeasurements pq vt c cur n) as [n0 o]; cbn [fst concluded n_ctl n_ctl_time] in *;
      unfold differentiateMeasurements; destruct (fb_initialized _); cbn; auto.
Qed.

Lemma run_tag es (n : node K E) v : last_command (c_base c) (n_ctl n, n_ctl_time n) es v ->
  n_ctl (fst (node_run pq vt c n es)) = fst v /\ (no_resets es -> n_ctl_time (fst (node_run pq vt c n es)) = snd v).
Proof.
  intros H. induction H as [|es v frame ctl stamp H IH Hb|es v frame ctl stamp H IH Hb|es v ev H IH Hev]; [split; reflexivity| | |];
    rewrite run_snoc; destruct (node_run pq vt c n es) as [n1 o1]; cbn [fst] in IH.
  - destruct (control_step pq vt c frame ctl stamp n1) as (_ & A & _). cbv zeta in A. destruct (node_step _ _ _ n1 _) as [n2 o2].
    destruct (A Hb) as (_ & A1 & A2). split; [exact A1|intros _; exact A2].
  - destruct (control_step pq vt c frame ctl stamp n1) as (_ & _ & A). cbv zeta in A. destruct (node_step _ _ _ n1 _) as [n2 o2]. cbn [fst] in *.
    rewrite (A Hb). destruct IH as (I1 & I2). split; [exact I1|]. intros HR. apply I2. apply Forall_app in HR. apply HR.
  - destruct (step_tag ev n1 Hev) as (A & B & _). destruct (node_step _ _ _ n1 _) as [n2 o2]. cbn [fst] in *.
    destruct IH as (I1 & I2). split; [congruence|]. intros HR. apply Forall_app in HR. destruct HR as (R1 & R2).
    rewrite B by (inversion R2; assumption). auto.
Qed.
Lemma command_tag es (n : node K E) v ev m : last_command (c_base c) (n_ctl n, n_ctl_time n) es v ->
  In (OutQueued m) (snd (node_step pq vt c (fst (node_run pq vt c n es)) ev)) ->
  m_control m = fst v /\ (no_resets es -> m_control_time m = snd v).
Proof.
  intros H Hin. destruct (run_tag es n v H) as (<- & R). set (n1 := fst (node_run pq vt c n es)) in *.
  assert (D : (exists frame ctl stamp, ev = EvControl frame ctl stamp) \/ forall frame ctl stamp, ev <> EvControl frame ctl stamp).
  { destruct ev; try (right; intros; discriminate). left. eauto. }
  destruct D as [(frame & ctl & stamp & ->)|D].
  - destruct (control_step pq vt c frame ctl stamp n1) as (A & _). rewrite A in Hin. contradiction.
  - destruct (step_tag ev n1 D) as (_ & _ & A). rewrite Forall_forall in A. specialize (A _ Hin). cbn in A.
    injection A as A1 A2. split; [exact A1|]. intros HR. rewrite A2. apply R, HR.
Qed.
End Tag.

(** ** The filters; one command is always determined *)
Lemma ekf_keeps_command {K : Scalar} eig : keeps_command (@ekf_vtbl K eig).
Proof.
  split.
  - intros s r d. destruct (predict_other s r d) as (_ & _ & _ & _ & _ & H1 & _ & _ & _ & _ & _ & _ & H2 & _).
    unfold command_of. cbn [ekf_vtbl v_predict]. congruence.
  - intros s m. destruct (correct_other eig s m) as (_ & _ & _ & _ & _ & H1 & _ & _ & _ & _ & _ & _ & H2 & _).
    unfold command_of. cbn [ekf_vtbl v_correct]. congruence.
Qed.
Lemma ukf_keeps_command {K : Scalar} eig : keeps_command (@ukf_vtbl K eig).
Proof.
  split.
  - intros s r d. destruct (ukf_predict_keeps eig s r d) as (_ & _ & _ & H1 & H2). unfold command_of. cbn [ukf_vtbl v_predict]. congruence.
  - intros s m. destruct (ukf_correct_keeps eig s m) as (_ & _ & _ & H1 & H2). unfold command_of. cbn [ukf_vtbl v_correct]. congruence.
Qed.
Lemma last_command_total {K : Scalar} {E : Type} base (u : vec K * Z) (es : list (event K E)) : exists v, last_command base u es v.
Proof.
  induction es as [|ev es IH] using rev_ind; [exists u; constructor|]. destruct IH as (v & IH).
  destruct ev as [warn topic stamp upd thresh prep|frame ctl stamp|on| | |stamp prep now| |cur later lookup];
    try (exists v; apply other; [exact IH|discriminate]).
  destruct (String.eqb_spec frame base) as [->|N1]; [exists (ctl, stamp); eapply taken; [exact IH|left; reflexivity]|].
  destruct (String.eqb_spec frame "") as [->|N2]; [exists (ctl, stamp); eapply taken; [exact IH|right; reflexivity]|].
  exists v. apply refused; [exact IH|]. intros [H|H]; contradiction.
Qed.
Lemma control_unstamped {K : Scalar} {E : Type} (c : config K) ctl now (n : node K E) :
  controlCallback c ctl now n = controlStampedCallback c (c_base c) ctl now n /\
  command_of (n_filter (controlCallback c ctl now n)) = (ctl, now).
Proof. split; [reflexivity|]. unfold controlCallback, controlStampedCallback. rewrite String.eqb_refl. reflexivity. Qed.
