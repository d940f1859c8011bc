(** * Predicates on filter, queue and history along executions *)

From Coq Require Import ZArith List Permutation Sorting.Sorted Bool Lia String Arith.
From Verif Require Import Scalar Mat FilterBase Tf StrMap Diagnostics RosFilter RosConfig RosPrepare SpecConfig SpecNode SpecPrepare SpecPublished
  NodeProofs NodeInv NodeFacts NodeTime PrepareProofs PrepareSeq.
Import ListNotations.
Local Open Scope Z_scope.

(** ** Executions with messages are executions of the node *)
Section Expand.
Context {K : Scalar} {E : Type}.
Variable pq : pqueue K.
Variable vt : vtbl K E.
Variable c : config K.

Lemma run_app es es' (n : node K E) : node_run pq vt c n (es ++ es') =
  (fst (node_run pq vt c (fst (node_run pq vt c n es)) es'),
   snd (node_run pq vt c n es) ++ snd (node_run pq vt c (fst (node_run pq vt c n es)) es')).
Proof.
  revert n. induction es as [|e es IH]; intros n.
  - cbn. destruct (node_run pq vt c n es'); reflexivity.
  - cbn [app node_run]. destruct (node_step pq vt c n e) as [n1 o1]. rewrite IH.
    destruct (node_run pq vt c n1 es) as [n2 o2]. cbn [fst snd]. rewrite app_assoc. reflexivity.
Qed.

Definition expandable (f : node K E -> node K E * list (output K E)) : Prop :=
  forall n, exists es, Forall raw es /\ f n = node_run pq vt c n es.
Lemma expandable_skip : expandable skip_callback.
Proof. intros n. exists []. split; [constructor|reflexivity]. Qed.
Lemma expandable_then a b : expandable a -> expandable b -> expandable (andthen a b).
Proof.
  intros Ha Hb n. destruct (Ha n) as (ea & Ra & Ea). unfold andthen. destruct (a n) as [n1 o1].
  destruct (Hb n1) as (eb & Rb & Eb). destruct (b n1) as [n2 o2]. exists (ea ++ eb).
  split; [apply Forall_app; split; assumption|]. rewrite run_app, <- Ea. cbn [fst snd]. rewrite <- Eb. reflexivity.
Qed.
Lemma expandable_sensor warn topic stamp upd thresh prep :
  expandable (sensorCallback pq warn topic stamp upd thresh prep).
Proof.
  intros n. exists [EvSensor warn topic stamp upd thresh prep]. split; [repeat constructor|].
  cbn. destruct (sensorCallback _ _ _ _ _ _ _ n) as [n1 o1]. rewrite app_nil_r. reflexivity.
Qed.
Lemma expandable_barrier topic stamp (n : node K E) : Z.geb (n_set_pose n) stamp = true ->
  exists es, Forall raw es /\ (add_diag n (stale_call topic barrier_text), []) = node_run pq vt c n es.
Proof.
  intros H. exists [EvSensor true topic stamp [] (s_ofZ 0) (fun _ u v c0 => mkPrep false u v c0 no_streams [])].
  split; [repeat constructor|]. cbn. unfold sensorCallback. rewrite H. reflexivity.
Qed.
Lemma receive_expands (e : penv K) s m : expandable (receive pq e c s m).
Proof.
  intros n. destruct s as [t a b|a|a|t a b d], m as [x|x|x|x]; try exact (expandable_skip n).
  - cbn [receive]. unfold odometryCallback. destruct (Z.geb _ _) eqn:G; [exact (expandable_barrier _ _ _ G)|].
    apply expandable_then; (destruct (Z.gtb _ _); [apply expandable_sensor|apply expandable_skip]).
  - apply expandable_sensor.
  - apply expandable_sensor.
  - cbn [receive]. unfold imuCallback. destruct (Z.geb _ _) eqn:G; [exact (expandable_barrier _ _ _ G)|].
    apply expandable_then; [|apply expandable_then]; (destruct (_ && _)%bool; [apply expandable_sensor|apply expandable_skip]).
Qed.
Lemma deliver_expands i (n : node K E) :
  exists es, expands i es /\ deliver pq vt c n i = node_run pq vt c n es.
Proof.
  destruct i as [e s m|ev]; cbn [deliver].
  - destruct (receive_expands e s m n) as (es & R & Eq). exists es. split; [constructor; exact R|exact Eq].
  - exists [ev]. split; [constructor|]. cbn. destruct (node_step pq vt c n ev) as [n1 o1]. rewrite app_nil_r. reflexivity.
Qed.
Lemma respond_expands is : forall n : node K E,
  exists ess, Forall2 expands is ess /\ respond pq vt c n is = node_run pq vt c n (List.concat ess).
Proof.
  induction is as [|i is IH]; intros n; [exists []; split; [constructor|reflexivity]|].
  destruct (deliver_expands i n) as (es & He & Hd).
  destruct (IH (fst (deliver pq vt c n i))) as (ess & Hes & Hr).
  exists (es :: ess). split; [constructor; assumption|].
  rewrite (proj2 (respond_cons pq vt c EmptyString is n)). cbn [List.concat]. rewrite run_app, <- Hd, <- Hr. reflexivity.
Qed.
Lemma raw_readings es : Forall raw es -> List.concat (map (@readings K E) es) = [].
Proof. induction 1 as [|e es He _ IH]; [reflexivity|]. destruct e; try contradiction. exact IH. Qed.
Lemma expands_readings i es : expands i es -> List.concat (map (@readings K E) es) = input_readings i.
Proof. intros [e s m l H|ev]; [exact (raw_readings _ H)|cbn; apply app_nil_r]. Qed.
Lemma expands_clock t is ess : Forall2 expands is ess -> steady_clock t is -> monotone_clock t (List.concat (A := event K E) ess).
Proof.
  intros H. unfold steady_clock, monotone_clock.
  enough (List.concat (map (@readings K E) (List.concat ess)) = List.concat (map input_readings is)) as -> by auto.
  induction H as [|i es is ess Hi _ IH]; [reflexivity|].
  cbn. rewrite map_app, concat_app, IH, (expands_readings i es Hi). reflexivity.
Qed.
End Expand.

(** ** A predicate on the filter, one on measurements, one on snapshots *)
Section Carry.
Context {K : Scalar} {E : Type}.
Variable pq : pqueue K.
Variable vt : vtbl K E.
Variable c : config K.
Hypothesis Hpq : pq_ok pq.
Hypothesis Hvt : time_neutral vt.
Variable Pf : fb K E -> Prop.
Variable Pm : meas K -> Prop.
Variable Ps : fstate K -> Prop.
Hypothesis H_process : forall f m, Pf f -> Pm m -> Pf (processMeasurement vt f m).
Hypothesis H_predict : forall f r d, 0 <= d -> fb_initialized f = true -> Pf f -> Pf (v_predict vt f r d).
Hypothesis H_ctl : forall f u t, Pf f -> Pf (setControl f u t).
Hypothesis H_time : forall f t, Pf f -> Pf (set_last_time f t).
Hypothesis H_save : forall f, fb_initialized f = true -> Pf f -> Ps (snapshot f).
Hypothesis H_restore : forall f s, fb_initialized f = true -> Pf f -> Ps s -> Pf (load f s).
Hypothesis H_reset : forall f, Pf f ->
  Pf (setEstimateErrorCovariance (setProcessNoiseCovariance (setSensorTimeout (fb_reset f) (c_sensor_timeout c)) (c_Q c)) (c_P c)).

Record carried (n : node K E) : Prop := mkCarried {
  ca_filter : Pf (n_filter n);
  ca_queue : Forall Pm (n_queue n);
  ca_meas : Forall Pm (n_meas_hist n);
  ca_state : Forall Ps (n_state_hist n)
}.

Lemma loop_filter_Pf restored f m : Pf f -> Pf (loop_filter c restored f m).
Proof. unfold loop_filter. destruct (loop_control c restored); auto. Qed.

Lemma loop_carried fuel : forall now restored n n' o, carried n ->
  integrate_loop pq vt c fuel now restored n = (n', o) ->
  carried n' /\ Forall (fun x => match x with OutFused f m => Pf f /\ Pm m | _ => True end) o.
Proof.
  induction fuel as [|fuel IH]; intros now restored n n' o H Hrun.
  - cbn in Hrun. injection Hrun as <- <-. split; [exact H|constructor].
  - rewrite loop_step in Hrun. destruct (pq_pop pq (n_queue n)) as [[m rest]|] eqn:Hpop.
    2:{ injection Hrun as <- <-. split; [exact H|constructor]. }
    destruct (now <? m_time m). { injection Hrun as <- <-. split; [exact H|constructor]. }
    destruct (integrate_loop pq vt c fuel now (loop_count c restored) (loop_node pq vt c restored n m rest))
      as [n3 o3] eqn:Hrec. injection Hrun as <- <-.
    pose proof (pop_perm pq Hpq _ _ _ Hpop) as Hperm.
    destruct H as [Hf Hq Hm Hs].
    pose proof (Permutation_Forall Hperm Hq) as Hq'. inversion Hq' as [|x l Hx Hl]; subst.
    pose proof (loop_filter_Pf restored _ m Hf) as Hf1.
    assert (H2 : carried (loop_node pq vt c restored n m rest)).
    { constructor; cbn [loop_node n_filter n_queue n_meas_hist n_state_hist].
      - apply H_process; assumption.
      - exact Hl.
      - destruct (c_smooth c); [|exact Hm]. apply Forall_app. split; [exact Hm|]. repeat constructor. exact Hx.
      - destruct (c_smooth c && _)%bool; [|exact Hs]. apply Forall_app. split; [exact Hs|]. constructor; [|constructor].
        apply H_save; [|apply H_process; assumption]. apply process_time. exact Hvt. }
    destruct (IH _ _ _ _ _ H2 Hrec) as [I1 I2]. split; [exact I1|]. constructor; [split; assumption|exact I2].
Qed.

Lemma revert_carried N (n : node K E) : node_inv c N n -> carried n -> carried (snd (revert_if_lagged pq c n)).
Proof.
  intros Hi H. unfold revert_if_lagged. destruct (pq_pop pq (n_queue n)) as [[first r]|]; [|exact H].
  destruct (c_smooth c && _)%bool; [|exact H].
  pose proof (revert_cases pq Hpq n (m_time first - 1)) as Hr.
  destruct (revertTo pq n (m_time first - 1)) as [ok n0]. cbn [snd].
  assert (Hgo : forall s kept, In s (n_state_hist n) -> incl kept (n_state_hist n) ->
    revert_to_snapshot n n0 (m_time first - 1) s kept -> carried n0).
  { intros s kept Hin Hk (F1 & F2 & (d & D1 & _ & _ & D4) & _).
    assert (Hini : fb_initialized (n_filter n) = true).
    { apply (ni_init _ _ _ Hi). intros Hz. rewrite Hz in Hin. destruct Hin. }
    destruct H as [Hf Hq Hm Hs]. rewrite D1 in Hm. apply Forall_app in Hm. destruct Hm as [Hm1 Hm2].
    constructor.
    - rewrite F1. apply H_restore; [exact Hini|exact Hf|]. rewrite Forall_forall in Hs. apply Hs; exact Hin.
    - eapply Permutation_Forall; [apply Permutation_sym, D4|]. apply Forall_app. split; [exact Hq|].
      apply Forall_forall. intros x Hx. apply filter_In in Hx. rewrite Forall_forall in Hm2. apply Hm2, Hx.
    - exact Hm1.
    - rewrite F2. apply Forall_forall. intros x Hx. rewrite Forall_forall in Hs. apply Hs, Hk, Hx. }
  destruct Hr as [(_ & _ & ->)|[(pre & s & post & E1 & _ & _ & _ & Hrs)|(s & post & E1 & _ & _ & Hrs)]].
  - exact H.
  - apply (Hgo s (pre ++ [s])); [rewrite E1; apply in_or_app; right; left; reflexivity| |exact Hrs].
    intros x Hx. rewrite E1. apply in_app_or in Hx. apply in_or_app. destruct Hx as [Hx|[->|[]]]; [left; exact Hx|right; left; reflexivity].
  - apply (Hgo s []); [rewrite E1; left; reflexivity| |exact Hrs]. intros x [].
Qed.

Lemma catch_up_carried N now n : node_inv c N n -> carried n -> carried (fst (catch_up pq vt c now n)).
Proof.
  intros Hi H. unfold catch_up. destruct (n_queue n); [exact H|].
  pose proof (revert_carried N n Hi H) as Hr. destruct (revert_if_lagged pq c n) as [restored n0]. cbn in Hr.
  destruct (integrate_loop pq vt c (List.length (n_queue n0)) now restored n0) as [n1 o1] eqn:Hl.
  exact (proj1 (loop_carried _ _ _ _ _ _ Hr Hl)).
Qed.

Lemma integrate_carried N now n : node_inv c N n -> N <= now -> carried n ->
  carried (fst (integrateMeasurements pq vt c now n)).
Proof.
  intros Hi HN H. rewrite (integrate_eq pq vt c Hpq).
  pose proof (catch_up_carried N now n Hi H) as H1.
  pose proof (catch_up_inv pq vt c Hpq Hvt N now n Hi HN) as Hc.
  destruct (catch_up pq vt c now n) as [n1 o1]. cbn in *.
  destruct (fb_initialized (n_filter n1)) eqn:Hin; [|exact H1]. cbn [andb].
  destruct (projects c now n); [|exact H1]. destruct H1 as [Hf Hq Hm Hs]. constructor; try assumption.
  cbn. apply H_time, H_predict; [|exact Hin|exact Hf]. pose proof (ni_clock _ _ _ Hc Hin). lia.
Qed.

Lemma carried_same (n n' : node K E) : n_filter n' = n_filter n -> n_queue n' = n_queue n ->
  n_meas_hist n' = n_meas_hist n -> n_state_hist n' = n_state_hist n -> carried n -> carried n'.
Proof. intros A B C D [a b d e]. constructor; rewrite ?A, ?B, ?C, ?D; assumption. Qed.

Lemma working_carried N cur later n : node_inv c N n -> N <= cur -> carried n -> carried (fst (working pq vt c cur later n)).
Proof.
  intros Hi HN H. unfold working. destruct (n_toggled n).
  - pose proof (integrate_carried N cur n Hi HN H) as H1.
    destruct (integrateMeasurements pq vt c cur n) as [n0 o]. cbn in *.
    destruct (diff_fields cur n0) as (A1 & A2 & A3 & A4 & _). eapply carried_same; [..|exact H1]; assumption.
  - cbn. destruct H as [Hf Hq Hm Hs]. destruct (fb_initialized (n_filter n)); constructor; cbn; auto.
Qed.

Lemma concluded_carried cur n : carried n -> carried (concluded c cur n).
Proof.
  intros [Hf Hq Hm Hs]. constructor; cbn; auto; (destruct (c_smooth c); [|assumption]);
    apply Forall_forall; intros x Hx; apply pop_front_while_incl in Hx; eapply Forall_forall; eassumption.
Qed.

(** What a cycle shows comes from a filter that satisfies the predicate. *)
Definition shown (P : node K E -> Prop) (o : output K E) : Prop :=
  match o with
  | OutOdom m => exists n, P n /\ getFilteredOdometryMessage c n = Some m
  | OutAccel m => exists n, P n /\ getFilteredAccelMessage c n = Some m
  | _ => True
  end.
Lemma broadcast_shown P o lookup : Forall (shown P) (broadcast c o lookup).
Proof.
  unfold broadcast. destruct (_ =? _)%string; [repeat constructor|].
  destruct (_ =? _)%string; [destruct lookup|]; repeat constructor.
Qed.
Lemma visible_shown (P : node K E -> Prop) n1 lookup : P n1 -> Forall (shown P) (visible c n1 lookup).
Proof.
  intros H. unfold visible. apply Forall_app. split.
  - destruct (getFilteredOdometryMessage c n1) as [o|] eqn:Eo; [|constructor].
    apply Forall_app. split; [destruct (validateFilterOutput o); repeat constructor|].
    apply Forall_app. split; [destruct (_ && _)%bool; [apply broadcast_shown|constructor]|].
    destruct (corrected c n1); constructor; [|constructor]. exists n1. split; assumption.
  - destruct (_ && _)%bool; [|constructor].
    destruct (getFilteredAccelMessage c n1) as [a|] eqn:Ea; [|constructor]. constructor; [|constructor].
    exists n1. split; assumption.
Qed.
Lemma working_quiet P cur later n : Forall (shown P) (snd (working pq vt c cur later n)).
Proof.
  unfold working. destruct (n_toggled n); [|constructor].
  rewrite (integrate_eq pq vt c Hpq).
  destruct (catch_up_post pq vt c Hpq cur n) as [_ Hfo].
  destruct (catch_up pq vt c cur n) as [n1 o1]. cbn [fst snd] in *.
  assert (H1 : Forall (shown P) o1).
  { apply Forall_forall. intros a Ha. destruct Hfo as [l ->]. apply in_map_iff in Ha.
    destruct Ha as (x & <- & _). exact I. }
  destruct (_ && _)%bool; cbn; [|exact H1]. apply Forall_app. split; [exact H1|repeat constructor].
Qed.

Lemma step_carried N n e : node_inv c N n -> clock_ok N e -> carried n ->
  Forall Pm (queued (snd (node_step pq vt c n e))) ->
  (match e with EvSetPose _ _ _ => Pf (n_filter (fst (node_step pq vt c n e))) | _ => True end) ->
  carried (fst (node_step pq vt c n e)) /\ Forall (shown carried) (snd (node_step pq vt c n e)).
Proof.
  intros Hi Hc H HQ HP. destruct e as [warn topic stamp upd thresh prep|frame ctl stamp|on| | |stamp prep now| |cur later lookup];
    cbn [node_step] in *.
  - destruct (sensor_fields pq warn topic stamp upd thresh prep n) as (A & B & C & _).
    destruct (sensor_queue pq Hpq warn topic stamp upd thresh prep n) as (Q1 & _). cbv zeta in *.
    destruct H as [Hf Hq Hm Hs]. split.
    + constructor; rewrite ?A, ?B, ?C; try assumption.
      eapply Permutation_Forall; [apply Permutation_sym, Q1|]. apply Forall_app. split; assumption.
    + unfold sensorCallback. destruct (Z.geb _ _); [constructor|]. cbv zeta.
      destruct (sm_find _ topic); [|constructor]. destruct (Z.leb _ _); [|constructor].
      destruct (pr_ok _); repeat constructor.
  - cbn. split; [|constructor]. unfold controlStampedCallback. destruct (_ || _)%bool; [|exact H].
    destruct H as [Hf Hq Hm Hs]. constructor; cbn; auto.
  - unfold toggleFilterProcessingCallback. destruct (Bool.eqb on (n_toggled n)); cbn;
      (split; [|repeat constructor]); eapply carried_same; try exact H; reflexivity.
  - unfold enableFilterSrvCallback. destruct (n_enabled n); cbn;
      (split; [|repeat constructor]); eapply carried_same; try exact H; reflexivity.
  - split; [|constructor]. constructor; cbn [fst reset n_filter n_queue n_meas_hist n_state_hist with_filter]; try constructor.
    apply H_reset, H.
  - split; [|constructor]. constructor; [exact HP|constructor|constructor|constructor].
  - destruct (aggregateDiagnostics (n_diag n)) as [r d]. cbn. split; [|repeat constructor].
    eapply carried_same; try exact H; reflexivity.
  - destruct (n_enabled n) eqn:He.
    2:{ rewrite (cycle_disabled pq vt c _ _ _ _ He). split; [exact H|constructor]. }
    rewrite (cycle_eq pq vt c cur later lookup n He).
    assert (HN : N <= cur).
    { unfold clock_ok in Hc. cbn in Hc. inversion Hc as [|x l Hs Hf]; subst. inversion Hf; subst. assumption. }
    pose proof (working_carried N cur later n Hi HN H) as Hw.
    pose proof (working_quiet carried cur later n) as Hq.
    destruct (working pq vt c cur later n) as [n1 o1]. cbn [fst snd] in *.
    split; [apply concluded_carried, Hw|]. apply Forall_app. split; [exact Hq|]. apply Forall_app.
    split; [apply visible_shown, Hw|]. destruct (diag_due c cur n1); repeat constructor.
Qed.

Lemma raw_carried es : Forall raw es -> forall N n, node_inv c N n -> carried n ->
  Forall Pm (queued (snd (node_run pq vt c n es))) ->
  node_inv c N (fst (node_run pq vt c n es)) /\ carried (fst (node_run pq vt c n es)) /\
  Forall (shown carried) (snd (node_run pq vt c n es)).
Proof.
  induction 1 as [|e es He _ IH]; intros N n Hi H HQ; [split; [exact Hi|split; [exact H|constructor]]|].
  cbn [node_run] in *.
  assert (Hc : clock_ok N e) by (destruct e; try contradiction; repeat constructor).
  assert (Hca : clock_after N e = N) by (destruct e; try contradiction; reflexivity).
  pose proof (step_inv pq vt c Hpq Hvt N n e Hi Hc) as Hs. rewrite Hca in Hs.
  pose proof (step_carried N n e Hi Hc H) as Hst.
  destruct (node_step pq vt c n e) as [n1 o1]. cbn [fst snd] in *.
  destruct (node_run pq vt c n1 es) as [n2 o2] eqn:Er. cbn [fst snd] in *.
  rewrite queued_app in HQ. apply Forall_app in HQ. destruct HQ as [Q1 Q2].
  destruct Hst as [S1 S2]; [exact Q1|destruct e; try contradiction; exact I|].
  specialize (IH N n1 Hs S1). rewrite Er in IH. cbn [fst snd] in IH. destruct (IH Q2) as (I1 & I2 & I3).
  split; [exact I1|]. split; [exact I2|]. apply Forall_app. split; assumption.
Qed.

(** The set_pose requests of an execution may depend on the node. *)
Variable Cond : node K E -> input (K:=K) (E:=E) -> Prop.
Hypothesis H_pose : forall n stamp prep now, carried n -> Cond n (Event (EvSetPose stamp prep now)) ->
  Pf (n_filter (fst (node_step pq vt c n (EvSetPose stamp prep now)))).

Lemma steady_cons t i is : steady_clock (K:=K) (E:=E) t (i :: is) ->
  StronglySorted Z.le (t :: input_readings i) /\ steady_clock (last (input_readings i) t) is.
Proof.
  unfold steady_clock. cbn [map List.concat].
  generalize (List.concat (map input_readings is)). generalize (input_readings i). intros l1 l2 H.
  change (t :: l1 ++ l2) with ((t :: l1) ++ l2) in H.
  apply (SS_app (fun z => z)) in H. destruct H as (H1 & H2 & H3). split; [exact H1|].
  constructor; [exact H2|]. apply Forall_forall. intros x Hx. apply H3; [|exact Hx].
  clear. destruct l1 as [|a l1]; [left; reflexivity|right].
  revert a; induction l1 as [|b l1 IH]; intros a; [left; reflexivity|right; apply IH].
Qed.

Lemma respond_carried is : forall N n, node_inv c N n -> steady_clock N is -> carried n ->
  along Cond pq vt c n is -> Forall Pm (queued (snd (respond pq vt c n is))) ->
  carried (fst (respond pq vt c n is)) /\ Forall (shown carried) (snd (respond pq vt c n is)).
Proof.
  induction is as [|i is IH]; intros N n Hi Hm H HA HQ; [split; [exact H|constructor]|].
  apply steady_cons in Hm. destruct Hm as [Hc Hm]. destruct HA as [HA1 HA2].
  rewrite (proj2 (respond_cons pq vt c EmptyString is n)) in *. cbn [fst snd] in *.
  rewrite queued_app in HQ. apply Forall_app in HQ. destruct HQ as [Q1 Q2].
  assert (D : node_inv c (last (input_readings i) N) (fst (deliver pq vt c n i)) /\
              carried (fst (deliver pq vt c n i)) /\ Forall (shown carried) (snd (deliver pq vt c n i))).
  { destruct i as [e s m|ev].
    - cbn [deliver input_readings last] in *. destruct (receive_expands pq vt c e s m n) as (es & R & Eq).
      rewrite Eq in *. apply raw_carried; assumption.
    - cbn [deliver input_readings] in *.
      split; [exact (step_inv pq vt c Hpq Hvt N n ev Hi Hc)|].
      apply (step_carried N); try assumption. destruct ev; try exact I. apply H_pose; assumption. }
  destruct D as (D1 & D2 & D3). destruct (IH _ _ D1 Hm D2 HA2 Q2) as [I1 I2].
  split; [exact I1|]. apply Forall_app. split; assumption.
Qed.
End Carry.
