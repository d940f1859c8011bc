(** * Node properties for nodes reached from start-up *)

From Coq Require Import ZArith List Permutation Sorting.Sorted Bool Lia String Arith.
From Verif Require Import Scalar Mat FilterBase Ekf Ukf Tf StrMap Diagnostics RosFilter SpecNode EkfFacts Motion
  NodeProofs NodeInv NodeFacts NodeTime NodeSmooth NodeMore NodeScenario.
Import ListNotations.
Local Open Scope Z_scope.

Section Reach.
Context {K : Scalar} {E : Type}.
Variable pq : pqueue K.
Variable vt : vtbl K E.
Variable c : config K.
Hypothesis Hpq : pq_ok pq.
Hypothesis Hvt : time_neutral vt.

Lemma mono_app es es' : forall t, monotone_clock (E:=E) (K:=K) t (es ++ es') ->
  monotone_clock t es /\ monotone_clock (clock_end t es) es'.
Proof.
  induction es as [|e es IH]; intros t H.
  - split; [repeat constructor|exact H].
  - cbn [app] in H. pose proof H as H0. apply monotone_cons in H. destruct H as [Hc Hm].
    destruct (IH _ Hm) as [H1 H2]. split; [|exact H2].
    unfold monotone_clock in H0 |- *. cbn [app map List.concat] in H0 |- *. rewrite map_app, concat_app, app_assoc, app_comm_cons in H0.
    change Z.le with (by_key (fun z : Z => z)) in H0 |- *. apply (SS_app (fun z : Z => z)) in H0. apply H0.
Qed.

Lemma reached f ang ctl dis now t0 es : fb_initialized f = false -> monotone_clock t0 es ->
  node_inv c (clock_end t0 es) (fst (node_run pq vt c (node_init f ang ctl dis now) es)).
Proof. intros Hf Hm. apply (run_inv pq vt c Hpq Hvt); [apply init_inv; exact Hf|exact Hm]. Qed.

Lemma reached_cycle f ang ctl dis now t0 es cur later lookup :
  fb_initialized f = false -> monotone_clock t0 (es ++ [EvCycle cur later lookup]) ->
  let n := fst (node_run pq vt c (node_init f ang ctl dis now) es) in
  node_inv c (clock_end t0 es) n /\ clock_end t0 es <= cur /\ cur <= later.
Proof.
  intros Hf Hm. apply mono_app in Hm. destruct Hm as [H1 H2]. cbv zeta.
  split; [apply (reached _ _ _ _ _ t0); assumption|].
  apply monotone_cons in H2. destruct H2 as [Hc _]. unfold clock_ok in Hc. cbn in Hc.
  inversion Hc as [|x l Hs Hh]; subst. inversion Hs as [|y l' Hs' Hh']; subst.
  inversion Hh; subst. inversion Hh'; subst. split; assumption.
Qed.

(** ** C31 *)
Lemma history_ordered f ang ctl dis now t0 es : fb_initialized f = false -> monotone_clock t0 es ->
  let n := fst (node_run pq vt c (node_init f ang ctl dis now) es) in
  StronglySorted (fun a b => m_time a <= m_time b) (n_meas_hist n) /\
  StronglySorted (fun a b => fs_time a <= fs_time b) (n_state_hist n) /\
  (c_smooth c = false -> n_meas_hist n = [] /\ n_state_hist n = []).
Proof.
  intros Hf Hm. cbv zeta. destruct (reached f ang ctl dis now t0 es Hf Hm) as [A _ _ B C _ _ _].
  split; [exact B|]. split; [exact C|exact A].
Qed.

Lemma history_window f ang ctl dis now t0 es cur later lookup :
  fb_initialized f = false -> monotone_clock t0 (es ++ [EvCycle cur later lookup]) -> c_smooth c = true ->
  let n := fst (node_run pq vt c (node_init f ang ctl dis now) es) in
  n_enabled n = true ->
  let n' := fst (periodicUpdate pq vt c cur later lookup n) in
  let cutoff := fb_last_time (n_filter n') - c_history c in
  Forall (fun m => cutoff <= m_time m) (n_meas_hist n') /\
  Forall (fun s => cutoff <= fs_time s) (n_state_hist n') /\
  forall h, c_history c <= h ->
    let n'' := fst (periodicUpdate pq vt (with_history c h) cur later lookup n) in
    n_meas_hist n' = filter (fun m => cutoff <=? m_time m) (n_meas_hist n'') /\
    n_state_hist n' = filter (fun s => cutoff <=? fs_time s) (n_state_hist n'').
Proof.
  intros Hf Hm Hs. cbv zeta. intros Hen. destruct (reached_cycle f ang ctl dis now t0 es cur later lookup Hf Hm) as (I & L1 & L2).
  cbv zeta in I. set (n := fst (node_run pq vt c (node_init f ang ctl dis now) es)) in *.
  destruct (periodicUpdate pq vt c cur later lookup n) as [n' o] eqn:Hrun. cbn [fst].
  exact (cycle_window pq vt c Hpq Hvt _ cur later lookup n n' o I L1 L2 Hen Hs Hrun).
Qed.

(** ** C30 *)
Lemma history_refused f ang ctl dis now t0 es cur later lookup first s post m :
  fb_initialized f = false -> monotone_clock t0 (es ++ [EvCycle cur later lookup]) -> c_smooth c = true ->
  let n := fst (node_run pq vt c (node_init f ang ctl dis now) es) in
  n_enabled n = true -> n_toggled n = true ->
  In first (n_queue n) -> m_time first < fb_last_time (n_filter n) ->
  n_state_hist n = s :: post -> m_time first <= fs_time s ->
  In m (n_meas_hist n) -> fs_time s <= m_time m -> m_time m <= cur ->
  In m (fused (snd (periodicUpdate pq vt c cur later lookup n))).
Proof.
  intros Hf Hm Hs. cbv zeta. intros Hen Ht Hin Hlt Hh Hfs Him Hsm Hmc.
  destruct (reached_cycle f ang ctl dis now t0 es cur later lookup Hf Hm) as (I & L1 & L2). cbv zeta in I.
  set (n := fst (node_run pq vt c (node_init f ang ctl dis now) es)) in *.
  destruct (pq_pop pq (n_queue n)) as [[x r]|] eqn:Hp.
  2:{ apply (pop_none pq Hpq) in Hp. rewrite Hp in Hin. destruct Hin. }
  pose proof (pop_min pq Hpq _ _ _ Hp first Hin) as Hmin.
  destruct (periodicUpdate pq vt c cur later lookup n) as [n' o] eqn:Hrun. cbn [snd].
  refine (refused pq vt c Hpq _ cur later lookup n x r n' o s post m I Hs Hen Ht Hp _ Hh _ Hrun Him Hsm Hmc); [lia|].
  pose proof (ni_ssort _ _ _ I) as Hss. rewrite Hh in Hss. inversion Hss as [|a b Hb Hfb]; subst.
  constructor; [lia|]. eapply Forall_impl; [|exact Hfb]. intros y Hy. unfold by_key in Hy. cbn in Hy. lia.
Qed.

(** ** C36 *)
Lemma start_stamps f ang ctl dis now t0 es : c_smooth c = false -> c_permit c = false ->
  fb_initialized f = false -> monotone_clock t0 es -> Forall no_hard_reset es ->
  StronglySorted Z.lt (map o_stamp (odoms (snd (node_run pq vt c (node_init f ang ctl dis now) es)))).
Proof.
  intros Hs Hp Hf Hm Hr.
  refine (proj1 (run_stamps pq vt c Hpq Hvt Hs Hp es t0 _ (init_inv c f ang ctl dis now t0 Hf) Hm Hr _)).
  intros H. cbn in H. congruence.
Qed.

(** ** C35 *)
Lemma publication cur later lookup n :
  let r := periodicUpdate pq vt c cur later lookup n in
  let f := n_filter (fst r) in
  (if (n_enabled n && fb_initialized f && (c_permit c || (n_last_pub n <? fb_last_time f)))%bool
   then exists m, odoms (snd r) = [m] /\ carries f m
   else odoms (snd r) = []) /\
  (n_enabled n = true -> fb_initialized f = true -> n_last_pub (fst r) = fb_last_time f).
Proof.
  cbv zeta. destruct (periodicUpdate pq vt c cur later lookup n) as [n' o] eqn:Hrun. cbn [fst snd].
  destruct (cycle_publishes pq vt c Hpq cur later lookup n n' o Hrun) as (P & Q & _).
  split; [|exact Q]. rewrite P.
  destruct (n_enabled n && fb_initialized (n_filter n') && _)%bool eqn:Hb; [|reflexivity].
  apply andb_true_iff in Hb. destruct Hb as [Hb _]. apply andb_true_iff in Hb. destruct Hb as [_ Hi].
  unfold getFilteredOdometryMessage. rewrite Hi. eexists. split; [reflexivity|]. repeat split.
Qed.

Lemma pub_memory n e :
  match e with EvCycle _ _ _ => n_enabled n = false \/ fb_initialized (n_filter (fst (node_step pq vt c n e))) = false
             | EvReset => False | _ => True end ->
  n_last_pub (fst (node_step pq vt c n e)) = n_last_pub n.
Proof.
  destruct e as [warn topic stamp upd thresh prep|frame ctl stamp|on| | |stamp prep now| |cur later lookup]; cbn [node_step];
    intros H; try reflexivity; try (destruct H; fail).
  - unfold sensorCallback. destruct (_ >=? _); [destruct warn; reflexivity|]. cbv zeta.
    destruct (sm_mem _ _); (destruct (sm_find _ _); [|reflexivity]); destruct (_ <=? _); try reflexivity; cbv zeta; destruct (pr_ok _); reflexivity.
  - unfold controlStampedCallback. destruct (_ || _)%bool; reflexivity.
  - unfold toggleFilterProcessingCallback. destruct (Bool.eqb _ _); reflexivity.
  - unfold enableFilterSrvCallback. cbn. destruct (n_enabled n); reflexivity.
  - destruct H as [H|H]; [rewrite (cycle_disabled pq vt c _ _ _ _ H); reflexivity|].
    destruct (n_enabled n) eqn:He; [|rewrite (cycle_disabled pq vt c _ _ _ _ He); reflexivity].
    destruct (periodicUpdate pq vt c cur later lookup n) as [n' o] eqn:Hrun.
    destruct (cycle_publishes pq vt c Hpq cur later lookup n n' o Hrun) as (_ & _ & R). apply R; assumption.
Qed.

(** ** C34 *)
Lemma barrier stamp prep now es n : Forall no_reset es ->
  let n1 := setPoseCallback stamp prep now n in
  let r := node_run pq vt c n1 es in
  Forall (fun m => stamp < m_time m) (fused (snd r)) /\ Forall (fun m => stamp < m_time m) (n_queue (fst r)).
Proof.
  intros Hr. cbv zeta. destruct (run_above pq vt c Hpq es stamp _ (set_pose_above stamp prep now n) Hr) as [Ha Hf].
  split; [exact Hf|]. apply Ha.
Qed.

(** ** C32: a clock that goes backwards *)
Definition back_in_time (upd : list bool) (v : vec K) (cov : mat K) (th : K) (lk : option (trans K)) : list (event K E) :=
  [message "odom" 10 upd v cov th; EvCycle 10 10 lk; EvCycle 5 5 lk].

Lemma back_run f ang ctl upd v cov th lk : c_smooth c = false -> c_predict_now c = true -> fb_initialized f = false ->
  intervals (snd (node_run pq vt c (node_init f ang ctl false 0) (back_in_time upd v cov th lk))) = [0; -5].
Proof.
  intros Hsm Hpn Hf. unfold back_in_time.
  destruct (view_message pq vt c _ _ _ _ _ _ _ _ _ "odom" 10 upd v cov th (view_init f ang ctl)) as (n1 & S1 & W1); [lia|left; lia|].
  rewrite (push_nil pq Hpq) in W1. set (m := mkMeas "odom" 10 v cov upd th ctl 0) in *.
  set (n1' := loop_node pq vt c 0 n1 m []).
  assert (F : n_filter n1' = processMeasurement vt f m) by (unfold n1'; rewrite one_filter, (w_filter _ _ _ _ _ _ _ _ _ W1); reflexivity).
  destruct (process_time vt Hvt f m) as [P P']. rewrite Hf in P. cbn [m_time m] in P.
  assert (I : integrateMeasurements pq vt c 10 n1 = (project vt 10 n1', [OutFused (n_filter n1) m; OutPredict 10 0])).
  { rewrite (integrate_eq pq vt c Hpq). unfold catch_up, projects. rewrite (w_queue _ _ _ _ _ _ _ _ _ W1). unfold revert_if_lagged.
    rewrite (w_queue _ _ _ _ _ _ _ _ _ W1), (pop_single pq Hpq), Hsm. cbn [andb].
    rewrite (w_queue _ _ _ _ _ _ _ _ _ W1). cbn [List.length]. rewrite loop_step, (w_queue _ _ _ _ _ _ _ _ _ W1), (pop_single pq Hpq).
    cbn [m_time m Z.ltb Z.compare Pos.compare Pos.compare_cont integrate_loop]. rewrite Hpn. cbn [orb andb].
    fold m. fold n1'. rewrite F, P', P. cbn [andb app]. unfold loop_filter, loop_control. cbn [Z.gtb Z.compare]. rewrite andb_false_r. reflexivity. }
  destruct (project_time vt Hvt 10 n1') as [T1 T2]. rewrite F, P' in T2.
  destruct (view_cycle pq vt c Hpq _ _ _ _ _ _ _ _ _ 10 10 lk _ _ _ [] _ _ W1 I eq_refl eq_refl eq_refl eq_refl T2) as (n2 & o2 & S2 & W2 & _ & _ & _).
  assert (O2 : intervals o2 = [0]).
  { destruct (cycle_obs pq vt c 10 10 lk n1 (w_en _ _ _ _ _ _ _ _ _ W1)) as (_ & _ & O3 & _). cbv zeta in O3.
    cbn [node_step] in S2. rewrite S2 in O3. cbn [snd] in O3. rewrite O3. unfold working. rewrite (w_on _ _ _ _ _ _ _ _ _ W1), I. reflexivity. }
  destruct (periodicUpdate pq vt c 5 5 lk n2) as [n3 o3] eqn:H3.
  assert (S3 : node_step pq vt c n2 (EvCycle 5 5 lk) = (n3, o3)) by exact H3.
  destruct (idle_cycle pq vt c Hpq 5 5 lk n2 n3 o3 (w_en _ _ _ _ _ _ _ _ _ W2) (w_on _ _ _ _ _ _ _ _ _ W2) (w_queue _ _ _ _ _ _ _ _ _ W2) H3) as [_ H].
  rewrite (w_filter _ _ _ _ _ _ _ _ _ W2), T2, Hpn, T1 in H. cbn [andb orb] in H. destruct H as [O3 _].
  assert (R3 : node_run pq vt c n3 [] = (n3, [])) by reflexivity.
  pose proof (run_cons pq vt c _ _ _ _ _ _ _ S3 R3) as R2. pose proof (run_cons pq vt c _ _ _ _ _ _ _ S2 R2) as R1.
  pose proof (run_cons pq vt c _ _ _ _ _ _ _ S1 R1) as R0. rewrite R0. cbn [snd].
  rewrite !intervals_app, O2, O3. reflexivity.
Qed.

(** ** C28: an out-of-order execution *)
Lemma busy_cycle cur later lookup n : n_queue n <> [] -> c_predict_now c = false ->
  intervals (snd (periodicUpdate pq vt c cur later lookup n)) = [].
Proof.
  intros Hq Hp. destruct (n_enabled n) eqn:He; [|rewrite (cycle_disabled pq vt c _ _ _ _ He); reflexivity].
  destruct (cycle_obs pq vt c cur later lookup n He) as (_ & _ & O3 & _). cbv zeta in O3. rewrite O3. unfold working.
  destruct (n_toggled n); [|reflexivity]. rewrite (integrate_eq pq vt c Hpq).
  assert (Hpr : projects c cur n = false) by (unfold projects; rewrite Hp; destruct (n_queue n); [congruence|reflexivity]).
  rewrite Hpr. destruct (catch_up_post pq vt c Hpq cur n) as [_ Hf].
  destruct (catch_up pq vt c cur n) as [n1 o1]. rewrite andb_false_r. cbn [snd] in *. apply (fuse_only_obs _ Hf).
Qed.

Lemma cycle_heard n cur later lookup n' o : n_enabled n = true ->
  node_step pq vt c n (EvCycle cur later lookup) = (n', o) -> n_last_msg n' = n_last_msg n.
Proof.
  intros He S. cbn [node_step] in S. pose proof (f_equal fst S) as Hn. cbn [fst] in Hn. rewrite <- Hn.
  rewrite (cycle_eq pq vt c cur later lookup n He).
  destruct (working_post pq vt c Hpq cur later n) as [_ (_ & _ & _ & _ & Hl & _)].
  destruct (working pq vt c cur later n) as [nw ow]. cbn [fst concluded n_last_msg] in *. exact Hl.
Qed.

Lemma message_heard n topic k t upd v cov th n' o : String.eqb topic k = false ->
  node_step pq vt c n (message topic t upd v cov th) = (n', o) ->
  sm_find (n_last_msg n) k = None -> sm_find (n_last_msg n') k = None.
Proof.
  intros Hk S Hnone. pose proof (f_equal fst S) as Hn. cbn [fst] in Hn. rewrite <- Hn. cbn [node_step message]. unfold sensorCallback.
  destruct (n_set_pose n >=? t); [exact Hnone|].
  assert (H1 : sm_find (n_last_msg (if sm_mem (n_last_msg n) topic then n else with_last_msg n (sm_set (n_last_msg n) topic t))) k = None).
  { destruct (sm_mem (n_last_msg n) topic); [exact Hnone|]. cbn [n_last_msg with_last_msg]. rewrite sm_set_find, Hk. exact Hnone. }
  set (n0 := if sm_mem (n_last_msg n) topic then n else _) in *. clearbody n0.
  destruct (sm_find (n_last_msg n0) topic) as [l|]; [|exact H1].
  destruct (l <=? t); [|exact H1]. cbv zeta. cbn -[sm_set]. rewrite sm_set_find, Hk. exact H1.
Qed.

Definition shuffled (upd : list bool) (v v' : vec K) (cov : mat K) (th : K) (lk : option (trans K)) : list (event K E) :=
  [message "odom" 1 upd v cov th; EvCycle 1 1 lk;
   message "odom" 5 upd v cov th; EvCycle 5 5 lk;
   message "gps" 3 upd v' cov th; EvCycle 6 6 lk].

Lemma shuffled_ok f ang ctl upd v v' cov th lk :
  c_smooth c = true -> c_predict_now c = false -> fb_initialized f = false -> 10 <= c_history c ->
  let es := shuffled upd v v' cov th lk in
  let n := node_init f ang ctl false 0 in
  monotone_clock 0 es /\ Forall plain es /\ deep_enough pq vt c n es /\
  intervals (snd (node_run pq vt c n es)) = [] /\
  map m_time (queued (snd (node_run pq vt c n es))) = [1; 5; 3] /\
  n_queue (fst (node_run pq vt c n es)) = [].
Proof.
  intros Hsm Hpn Hin Hh. cbv zeta. unfold shuffled.
  destruct (view_message pq vt c _ _ _ _ _ _ _ _ _ "odom" 1 upd v cov th (view_init f ang ctl)) as (n1 & S1 & W1); [lia|left; lia|].
  rewrite (push_nil pq Hpq) in W1. set (m0 := mkMeas "odom" 1 v cov upd th ctl 0) in *.
  destruct (first_view pq vt c Hpq Hvt _ _ _ _ _ _ _ 1 lk W1 Hin Hsm Hpn ltac:(lia) ltac:(cbn; lia)) as (P1 & P1' & _ & n2 & o2 & S2 & W2 & O2 & Q2).
  set (f1 := processMeasurement vt f m0) in *. cbn [m_time m0] in P1.
  destruct (view_message pq vt c _ _ _ _ _ _ _ _ _ "odom" 5 upd v cov th W2) as (n3 & S3 & W3); [lia|left; lia|].
  rewrite (push_nil pq Hpq) in W3. set (m1 := mkMeas "odom" 5 v cov upd th ctl 0) in *.
  destruct (next_view pq vt c Hpq Hvt _ _ _ _ _ _ _ _ _ 5 lk W3) as (P4 & P4' & n4 & o4 & S4 & W4 & O4 & Q4);
    [exact P1'|unfold m1; cbn [m_time]; lia|exact Hsm|exact Hpn|cbn; lia| | |lia|].
  { constructor; [|constructor]. unfold m0, m1. cbn [m_time]. lia. }
  { constructor; [|constructor]. unfold snapshot, m1. cbn [m_time fs_time]. rewrite P1. lia. }
  set (f4 := processMeasurement vt f1 m1) in *. cbn [m_time m1] in P4.
  assert (Hg : sm_find (n_last_msg n4) "gps" = None).
  { rewrite (cycle_heard _ _ _ _ _ _ (w_en _ _ _ _ _ _ _ _ _ W3) S4). apply (message_heard _ "odom" "gps" _ _ _ _ _ _ _ eq_refl S3).
    rewrite (cycle_heard _ _ _ _ _ _ (w_en _ _ _ _ _ _ _ _ _ W1) S2). apply (message_heard _ "odom" "gps" _ _ _ _ _ _ _ eq_refl S1). reflexivity. }
  destruct (view_message pq vt c _ _ _ _ _ _ _ _ _ "gps" 3 upd v' cov th W4) as (n5 & S5 & W5); [lia|right; exact Hg|].
  rewrite (push_nil pq Hpq) in W5. set (m2 := mkMeas "gps" 3 v' cov upd th ctl 0) in *.
  destruct (node_step pq vt c n5 (EvCycle 6 6 lk)) as [n6 o6] eqn:S6.
  assert (Hq1 := w_queue _ _ _ _ _ _ _ _ _ W1). assert (Hq3 := w_queue _ _ _ _ _ _ _ _ _ W3). assert (Hq5 := w_queue _ _ _ _ _ _ _ _ _ W5).
  assert (J2 : intervals o2 = []).
  { cbn [node_step] in S2. pose proof (busy_cycle 1 1 lk n1 ltac:(rewrite Hq1; discriminate) Hpn) as H. rewrite S2 in H. exact H. }
  assert (J4 : intervals o4 = []).
  { cbn [node_step] in S4. pose proof (busy_cycle 5 5 lk n3 ltac:(rewrite Hq3; discriminate) Hpn) as H. rewrite S4 in H. exact H. }
  assert (J6 : intervals o6 = []).
  { cbn [node_step] in S6. pose proof (busy_cycle 6 6 lk n5 ltac:(rewrite Hq5; discriminate) Hpn) as H. rewrite S6 in H. exact H. }
  assert (Q6 : queued o6 = [] /\ n_queue n6 = []).
  { cbn [node_step] in S6. destruct (cycle_order pq vt c Hpq 6 6 lk n5 n6 o6 S6) as (_ & _ & H & _ & _ & Hqu). split; [exact Hqu|].
    destruct (H (w_en _ _ _ _ _ _ _ _ _ W5) (w_on _ _ _ _ _ _ _ _ _ W5)) as (Hgt & back & Hp & Hb & _).
    destruct (n_queue n6) as [|x q]; [reflexivity|exfalso]. inversion Hgt as [|? ? Hx _]; subst.
    assert (Hix : In x (n_queue n5 ++ back)) by (eapply Permutation_in; [exact Hp|]; apply in_or_app; right; left; reflexivity).
    apply in_app_or in Hix. destruct Hix as [Hix|Hix].
    - rewrite Hq5 in Hix. destruct Hix as [<-|[]]. unfold m2 in Hx. cbn [m_time] in Hx. lia.
    - apply Hb in Hix. rewrite (w_mh _ _ _ _ _ _ _ _ _ W5) in Hix. destruct Hix as [<-|[<-|[]]]; unfold m0, m1 in Hx; cbn [m_time] in Hx; lia. }
  split; [|split; [|split]].
  - unfold monotone_clock. cbn. repeat constructor; cbn; lia.
  - repeat constructor.
  - cbn [deep_enough message]. fold (message (E:=E) "odom" 1 upd v cov th) (message (E:=E) "odom" 5 upd v cov th) (message (E:=E) "gps" 3 upd v' cov th).
    rewrite S1. cbn [fst]. split; [exact I|]. rewrite S2. cbn [fst]. split.
    { intros _ Hi. rewrite (w_filter _ _ _ _ _ _ _ _ _ W1) in Hi. congruence. }
    rewrite S3. cbn [fst]. split; [exact I|]. rewrite S4. cbn [fst]. split.
    { intros _ _ m Hm Hlt. rewrite Hq3 in Hm. destruct Hm as [<-|[]]. rewrite (w_filter _ _ _ _ _ _ _ _ _ W3), P1 in Hlt.
      unfold m1 in Hlt. cbn [m_time] in Hlt. lia. }
    rewrite S5. cbn [fst]. split; [exact I|]. split; [|exact I].
    intros _ _ m Hm Hlt. rewrite Hq5 in Hm. destruct Hm as [<-|[]]. exists (snapshot f1).
    split; [rewrite (w_sh _ _ _ _ _ _ _ _ _ W5); left; reflexivity|]. unfold snapshot, m2. cbn [fs_time m_time]. rewrite P1. lia.
  - assert (R6 : node_run pq vt c n6 [] = (n6, [])) by reflexivity.
    pose proof (run_cons pq vt c _ _ _ _ _ _ _ S6 R6) as R5. pose proof (run_cons pq vt c _ _ _ _ _ _ _ S5 R5) as R4.
    pose proof (run_cons pq vt c _ _ _ _ _ _ _ S4 R4) as R3. pose proof (run_cons pq vt c _ _ _ _ _ _ _ S3 R3) as R2.
    pose proof (run_cons pq vt c _ _ _ _ _ _ _ S2 R2) as R1. pose proof (run_cons pq vt c _ _ _ _ _ _ _ S1 R1) as R0.
    rewrite R0. cbn [fst snd]. rewrite !intervals_app, !queued_app, J2, J4, J6, Q2, Q4, (proj1 Q6).
    split; [reflexivity|]. split; [reflexivity|apply Q6].
Qed.

(** ** C40 *)
Lemma reset_facts (n : node K E) :
  let n' := reset c n in
  n_queue n' = [] /\ n_meas_hist n' = [] /\ n_state_hist n' = [] /\ n_streams n' = no_streams /\ n_last_msg n' = [] /\
  n_set_pose n' = 0 /\ n_last_pub n' = 0 /\
  fb_initialized (n_filter n') = false /\ (forall i, fb_state (n_filter n') i = s_ofZ 0) /\
  fb_last_time (n_filter n') = 0 /\
  fb_P (n_filter n') = c_P c /\ fb_Q (n_filter n') = c_Q c /\ fb_sensor_timeout (n_filter n') = c_sensor_timeout c /\
  n_enabled n' = n_enabled n /\ n_toggled n' = n_toggled n.
Proof. cbv zeta. repeat (split; [reflexivity|]). reflexivity. Qed.

(** ** C39 *)
Lemma enable_service (n : node K E) :
  let r := enableFilterSrvCallback n in
  n_enabled (fst r) = true /\ snd r = [OutStatus true] /\ (n_enabled n = true -> fst r = n) /\
  enableFilterSrvCallback (fst r) = r /\ n_queue (fst r) = n_queue n /\ n_filter (fst r) = n_filter n.
Proof.
  cbv zeta. unfold enableFilterSrvCallback. cbn [fst snd]. destruct (n_enabled n) eqn:He.
  - rewrite He. repeat split.
  - cbn. repeat split. discriminate.
Qed.

(** ** C58 *)
Lemma replay_reached f ang ctl dis now t0 es cur later lookup first m0 :
  control_neutral vt ->
  fb_initialized f = false -> monotone_clock t0 (es ++ [EvCycle cur later lookup]) ->
  c_smooth c = true -> c_use_control c = true -> c_predict_now c = false ->
  let n := fst (node_run pq vt c (node_init f ang ctl dis now) es) in
  n_enabled n = true -> n_toggled n = true -> n_state_hist n <> [] ->
  In first (n_queue n) -> (forall m, In m (n_queue n) -> m_time first <= m_time m) -> m_time first < fb_last_time (n_filter n) ->
  let n' := fst (periodicUpdate pq vt c cur later lookup n) in
  let o := snd (periodicUpdate pq vt c cur later lookup n) in
  exists back, incl back (n_meas_hist n) /\
    Permutation (fused o ++ n_queue n') (n_queue n ++ back) /\ in_order (fused o) /\
    let r := List.length back in
    List.length (controls o) = List.length (fused o) /\
    (forall i d, (i < List.length (fused o))%nat ->
       nth i (controls o) d = if Nat.ltb i r then m_control (nth i (fused o) m0)
                              else match r with O => fb_control (n_filter n) | S r' => m_control (nth r' (fused o) m0) end) /\
    ((0 < r)%nat -> (r <= List.length (fused o))%nat -> fb_control (n_filter n') = m_control (nth (r - 1) (fused o) m0)).
Proof.
  intros Hct Hf Hm Hs Huc Hpn. cbv zeta. intros Hen Ht Hne Hin Hmin Hlt.
  destruct (reached_cycle f ang ctl dis now t0 es cur later lookup Hf Hm) as (I & L1 & L2). cbv zeta in I.
  set (n := fst (node_run pq vt c (node_init f ang ctl dis now) es)) in *.
  destruct (pq_pop pq (n_queue n)) as [[x r]|] eqn:Hp.
  2:{ apply (pop_none pq Hpq) in Hp. rewrite Hp in Hin. destruct Hin. }
  pose proof (pop_min pq Hpq _ _ _ Hp first Hin) as Hx.
  destruct (periodicUpdate pq vt c cur later lookup n) as [n' o] eqn:Hrun. cbn [fst snd].
  destruct (cycle_replay pq vt c Hpq Hct _ cur later lookup n x r n' o m0 I Hs Huc Hen Ht Hne Hp ltac:(lia) Hpn Hrun)
    as (s & _ & _ & H1 & H2 & _ & H3).
  eexists. split; [|split; [exact H1|split; [exact H2|exact H3]]].
  intros y Hy. apply filter_In in Hy. apply Hy.
Qed.
End Reach.

(** ** C28 from start-up *)
Lemma ekf_in_order {K : Scalar} eig pq (c : config K) f ang ctl dis now t0 es :
  pq_ok pq -> c_smooth c = true -> c_use_control c = false ->
  fb_F f = meye -> fb_use_control f = false -> fb_initialized f = false ->
  monotone_clock t0 es -> Forall plain es ->
  let n := node_init f ang ctl dis now in
  let r := node_run pq (ekf_vtbl eig) c n es in
  deep_enough pq (ekf_vtbl eig) c n es -> intervals (snd r) = [] ->
  exists l, in_order l /\ Permutation (l ++ n_queue (fst r)) (queued (snd r)) /\
    same_estimate (n_filter (fst r)) (fold_left (processMeasurement (ekf_vtbl eig)) l f).
Proof.
  intros Hpq Hs Hu HF Huc Hi Hm Hp. cbv zeta. intros Hd Hin.
  apply (ekf_smoothing eig pq c es t0 (node_init f ang ctl dis now)); try assumption; try reflexivity.
  - cbn. rewrite HF. apply meye_F_ok.
  - apply init_inv. exact Hi.
Qed.

Lemma ukf_in_order {K : Scalar} eig pq (c : config K) f ang ctl dis now t0 es :
  pq_ok pq -> c_smooth c = true -> c_use_control c = false ->
  fb_F f = meye -> fb_use_control f = false -> fb_initialized f = false ->
  monotone_clock t0 es -> Forall plain es ->
  let n := node_init f ang ctl dis now in
  let r := node_run pq (ukf_vtbl eig) c n es in
  deep_enough pq (ukf_vtbl eig) c n es -> intervals (snd r) = [] ->
  exists l, in_order l /\ Permutation (l ++ n_queue (fst r)) (queued (snd r)) /\
    same_estimate (n_filter (fst r)) (fold_left (processMeasurement (ukf_vtbl eig)) l f).
Proof.
  intros Hpq Hs Hu HF Huc Hi Hm Hp. cbv zeta. intros Hd Hin.
  apply (ukf_smoothing eig pq c es t0 (node_init f ang ctl dis now)); try assumption; try reflexivity.
  - cbn. rewrite HF. apply meye_F_ok.
  - apply init_inv. exact Hi.
Qed.

Lemma ekf_control_neutral {K : Scalar} eig : control_neutral (@ekf_vtbl K eig).
Proof.
  split.
  - intros s r d. destruct (predict_other s r d) as (_ & _ & _ & _ & _ & _ & _ & _ & _ & _ & _ & _ & H & _). exact H.
  - intros s m. destruct (correct_other eig s m) as (_ & _ & _ & _ & _ & _ & _ & _ & _ & _ & _ & _ & H & _). exact H.
Qed.

Lemma ukf_control_neutral {K : Scalar} eig : control_neutral (@ukf_vtbl K eig).
Proof.
  split.
  - intros s r d. cbn [ukf_vtbl v_predict]. unfold ukf_predict. destruct (project_all _ _ _ _) as [F sg].
    destruct s as [i u dy a b c e f g h k l m n o p q r' s t v w]. destruct dy; reflexivity.
  - intros s m. cbn [ukf_vtbl v_correct]. unfold ukf_correct.
    destruct (u_uncorrected (fb_ext s)); destruct (checkMahalanobisThreshold _ _ _ _); reflexivity.
Qed.

(** With distinct stamps there is only one list in stamp order. *)
Lemma order_unique {K : Scalar} (l l' : list (meas K)) :
  in_order l -> in_order l' -> Permutation l l' -> NoDup (map m_time l) -> l = l'.
Proof.
  revert l'. induction l as [|a l IH]; intros l' Hl Hl' Hp Hn.
  - apply Permutation_nil in Hp. congruence.
  - destruct l' as [|b l']; [apply Permutation_sym, Permutation_nil in Hp; discriminate|].
    cbn in Hn. apply NoDup_cons_iff in Hn. destruct Hn as (Hni & Hn).
    apply StronglySorted_inv in Hl. destruct Hl as (Hl & Ha).
    apply StronglySorted_inv in Hl'. destruct Hl' as (Hl' & Hb).
    assert (b = a) as ->.
    { assert (Hin : In b (a :: l)) by (apply (Permutation_in b (Permutation_sym Hp)); left; reflexivity).
      destruct Hin as [->|Hin]; [reflexivity|]. exfalso.
      assert (Hin' : In a (b :: l')) by (apply (Permutation_in a Hp); left; reflexivity).
      rewrite Forall_forall in Ha, Hb. pose proof (Ha b Hin) as H1. unfold no_later in H1.
      destruct Hin' as [->|Hin']; [apply Hni, (in_map m_time), Hin|].
      pose proof (Hb a Hin') as H2. unfold no_later in H2. apply Hni.
      replace (m_time a) with (m_time b) by lia. apply in_map, Hin. }
    f_equal. apply IH; try assumption. apply (Permutation_cons_inv Hp).
Qed.

(** ** The warning for a stale message *)
Lemma stale_warned {K : Scalar} {E} (pq : pqueue K) warn topic stamp upd thresh prep (n : node K E) :
  let r := fst (sensorCallback pq warn topic stamp upd thresh prep n) in
  let warned text := addDiagnostic (n_diag n) (mkCall 1 (topic ++ "_timestamp") text false) in
  ((stamp <= n_set_pose n)%Z ->
     n_diag r = if warn then warned "message has a timestamp equal to or before the last filter reset"%string else n_diag n) /\
  (forall last, (n_set_pose n < stamp)%Z -> sm_find (n_last_msg n) topic = Some last -> (stamp < last)%Z ->
     n_diag r = warned "message has a timestamp before that of the previous message received"%string).
Proof.
  cbv zeta. unfold sensorCallback. rewrite Z.geb_leb. split.
  - intros H. apply Z.leb_le in H. rewrite H. destruct warn; reflexivity.
  - intros last H Hf Hl. apply Z.leb_gt in H. rewrite H.
    assert (Hm : sm_mem (n_last_msg n) topic = true) by (unfold sm_mem; rewrite Hf; reflexivity).
    rewrite Hm, Hf. apply Z.leb_gt in Hl. rewrite Hl. reflexivity.
Qed.
