(** * Executions used by the refutations C30, C36 and C58

    The executions are symbolic: they work for every filter that keeps time
    and control, and for every priority queue. *)

From Coq Require Import ZArith List Permutation Sorting.Sorted Bool Lia String Arith.
From Verif Require Import Scalar Mat FilterBase Tf StrMap Diagnostics RosFilter SpecNode NodeProofs NodeInv NodeFacts NodeTime NodeMore.
Import ListNotations.
Local Open Scope Z_scope.

Section Scenario.
Context {K : Scalar} {E : Type}.
Variable pq : pqueue K.
Variable vt : vtbl K E.
Variable c : config K.
Hypothesis Hpq : pq_ok pq.
Hypothesis Hvt : time_neutral vt.

(** What of a node matters to the executions below. *)
Record view (n : node K E) (f : fb K E) (q mh : list (meas K)) (sh : list (fstate K)) (lp : Z) (ctl : vec K)
    (ct heard : Z) : Prop := mkView {
  w_filter : n_filter n = f;
  w_queue : n_queue n = q;
  w_mh : n_meas_hist n = mh;
  w_sh : n_state_hist n = sh;
  w_lp : n_last_pub n = lp;
  w_ctl : n_ctl n = ctl;
  w_ctlt : n_ctl_time n = ct;
  w_sp : n_set_pose n = 0;
  w_on : n_toggled n = true;
  w_en : n_enabled n = true;
  w_heard : forall topic t, sm_find (n_last_msg n) topic = Some t -> t <= heard
}.

(** A message that needs no conversion. *)
Definition verbatim (v : vec K) (cov : mat K) : prepfun K E :=
  fun n upd _ _ => mkPrep true upd v cov (n_streams n) [].
Definition message (topic : string) (stamp : Z) (upd : list bool) (v : vec K) (cov : mat K) (th : K) : event K E :=
  EvSensor true topic stamp upd th (verbatim v cov).

Lemma sm_set_find {A : Type} (m : smap A) k v k' : sm_find (sm_set m k v) k' = if String.eqb k k' then Some v else sm_find m k'.
Proof.
  induction m as [|[a x] m IH]; cbn.
  - rewrite (String.eqb_sym k' k). destruct (String.eqb k k'); reflexivity.
  - destruct (String.eqb_spec k a) as [->|Hka].
    + cbn. rewrite (String.eqb_sym k' a). destruct (String.eqb a k'); reflexivity.
    + destruct (String.ltb k a); cbn.
      * rewrite (String.eqb_sym k' k). destruct (String.eqb k k'); reflexivity.
      * destruct (String.eqb_spec k' a) as [->|Hk'a]; [|exact IH].
        destruct (String.eqb_spec k a); [congruence|reflexivity].
Qed.

Lemma view_message n f q mh sh lp ctl ct heard topic stamp upd v cov th :
  view n f q mh sh lp ctl ct heard -> 0 < stamp -> (heard <= stamp \/ sm_find (n_last_msg n) topic = None) ->
  let m := mkMeas topic stamp v cov upd th ctl ct in
  exists n', node_step pq vt c n (message topic stamp upd v cov th) = (n', [OutQueued m]) /\
    view n' f (pq_push pq m q) mh sh lp ctl ct (Z.max heard stamp).
Proof.
  intros [W1 W2 W3 W4 W5 W6 W7 W8 W9 W10 W11] Hst Hh. cbv zeta. cbn [node_step message].
  unfold sensorCallback. rewrite W8. rewrite Z.geb_leb. destruct (Z.leb_spec stamp 0); [lia|].
  set (n1 := if sm_mem (n_last_msg n) topic then n else with_last_msg n (sm_set (n_last_msg n) topic stamp)).
  assert (H1 : n_filter n1 = f /\ n_queue n1 = q /\ n_meas_hist n1 = mh /\ n_state_hist n1 = sh /\ n_last_pub n1 = lp /\
               n_ctl n1 = ctl /\ n_ctl_time n1 = ct /\ n_set_pose n1 = 0 /\ n_toggled n1 = true /\ n_enabled n1 = true).
  { unfold n1. destruct (sm_mem (n_last_msg n) topic); repeat split; assumption. }
  destruct H1 as (A1 & A2 & A3 & A4 & A5 & A6 & A7 & A8 & A9 & A10).
  assert (Hf : exists last, sm_find (n_last_msg n1) topic = Some last /\ last <= stamp).
  { unfold n1, sm_mem. destruct (sm_find (n_last_msg n) topic) as [l|] eqn:Hl.
    - exists l. split; [exact Hl|]. destruct Hh as [Hh|Hh]; [|discriminate]. specialize (W11 _ _ Hl). lia.
    - exists stamp. split; [|lia]. cbn. rewrite sm_set_find, String.eqb_refl. reflexivity. }
  assert (Hx : forall k t, sm_find (n_last_msg n1) k = Some t -> t <= Z.max heard stamp).
  { intros k t. unfold n1. destruct (sm_mem (n_last_msg n) topic); cbn.
    - intros Hk. specialize (W11 _ _ Hk). lia.
    - rewrite sm_set_find. destruct (String.eqb topic k); [intros [= <-]; lia|]. intros Hk. specialize (W11 _ _ Hk). lia. }
  destruct Hf as (last & Hf & Hle). rewrite Hf. apply Z.leb_le in Hle. rewrite Hle. cbv zeta. cbn.
  rewrite A6, A7. eexists. split; [reflexivity|].
  constructor; cbn; try assumption; [rewrite A2; reflexivity|].
  intros k t. rewrite sm_set_find. destruct (String.eqb topic k); [intros [= <-]; lia|]. apply Hx.
Qed.

Lemma view_control n f q mh sh lp ctl ct heard u t :
  view n f q mh sh lp ctl ct heard ->
  exists n', node_step pq vt c n (EvControl (c_base c) u t) = (n', []) /\
    view n' (setControl f u t) q mh sh lp u t heard.
Proof.
  intros [W1 W2 W3 W4 W5 W6 W7 W8 W9 W10 W11]. cbn [node_step]. unfold controlStampedCallback.
  rewrite String.eqb_refl. cbn [orb]. eexists. split; [reflexivity|].
  constructor; cbn; try assumption; try reflexivity. rewrite W1. reflexivity.
Qed.

Definition trim {A : Type} (key : A -> Z) (t : Z) (l : list A) : list A :=
  if c_smooth c then pop_front_while (fun x => key x <? t) l else l.

(** A cycle, given its measurement part. *)
Lemma view_cycle n f q mh sh lp ctl ct heard cur later lookup n1 o1 f1 q1 mh1 sh1 :
  view n f q mh sh lp ctl ct heard ->
  integrateMeasurements pq vt c cur n = (n1, o1) ->
  n_filter n1 = f1 -> n_queue n1 = q1 -> n_meas_hist n1 = mh1 -> n_state_hist n1 = sh1 ->
  fb_initialized f1 = true ->
  exists n' o, node_step pq vt c n (EvCycle cur later lookup) = (n', o) /\
    view n' f1 q1 (trim m_time (fb_last_time f1 - c_history c) mh1)
      (trim fs_time (fb_last_time f1 - c_history c) sh1) (fb_last_time f1) ctl ct heard /\
    fused o = fused o1 /\ queued o = queued o1 /\
    (queued o1 = [] -> odoms o1 = [] -> map o_stamp (odoms o) = if (c_permit c || (lp <? fb_last_time f1))%bool then [fb_last_time f1] else []).
Proof.
  intros [W1 W2 W3 W4 W5 W6 W7 W8 W9 W10 W11] Hi Hf Hq Hm Hs Hin. cbn [node_step].
  rewrite (cycle_eq pq vt c cur later lookup n W10).
  pose proof (integrate_untouched pq vt c Hpq cur n) as Hu. rewrite Hi in Hu. cbn [fst] in Hu.
  unfold untouched in Hu. injection Hu as U1 U2 U3 U4 U5 U6 U7 U8 U9 U10 U11.
  unfold working. rewrite W9, Hi.
  destruct (diff_fields cur n1) as (A1 & A2 & A3 & A4 & A5 & A6 & A7 & A8 & A9 & A10 & A11 & A12 & A13 & A14).
  set (n2 := differentiateMeasurements cur n1) in *.
  eexists. eexists. split; [reflexivity|].
  destruct (visible_obs c n2 lookup) as (V1 & V2 & V3 & V4).
  destruct (report_obs (K:=K) (E:=E) (diag_due c cur n2) (fst (aggregateDiagnostics (n_diag n2)))) as (R1 & R2 & R3 & R4).
  split; [|split; [|split]].
  - unfold trim. constructor; cbn; rewrite ?A1, ?A2, ?A3, ?A4, ?A5, ?A6, ?A7, ?A8, ?A9, ?A12, ?A13, ?Hf, ?Hm, ?Hs, ?Hin; try congruence.
    intros k t Hk. apply (W11 k t). congruence.
  - rewrite !fused_app, V1, R1, !app_nil_r. reflexivity.
  - rewrite !queued_app, V2, R2, !app_nil_r. reflexivity.
  - intros _ Ho. rewrite !odoms_app, V4, R4, Ho, app_nil_r. cbn [app].
    unfold getFilteredOdometryMessage, corrected. rewrite A1, Hf, Hin, A7. cbn [andb].
    assert (Hlp : n_last_pub n1 = lp) by congruence. rewrite Hlp.
    destruct (c_permit c); cbn; [reflexivity|].
    destruct (Z.leb_spec (fb_last_time f1) lp); destruct (Z.ltb_spec lp (fb_last_time f1)); try lia; reflexivity.
Qed.

(** ** Measurement part of a cycle in four situations *)
Lemma int_one n m cur : n_queue n = [m] ->
  (c_smooth c && (m_time m <? fb_last_time (n_filter n)) = false)%bool ->
  m_time m <= cur -> c_predict_now c = false ->
  integrateMeasurements pq vt c cur n = (loop_node pq vt c 0 n m [], [OutFused (n_filter n) m]).
Proof.
  intros Hq Hl Hle Hp. rewrite (integrate_eq pq vt c Hpq). unfold catch_up, projects. rewrite Hq, Hp. cbn [orb].
  unfold revert_if_lagged. rewrite Hq, (pop_single pq Hpq), Hl. rewrite Hq. cbn [List.length].
  rewrite loop_step, Hq, (pop_single pq Hpq). destruct (Z.ltb_spec cur (m_time m)); [lia|].
  cbn [integrate_loop]. rewrite andb_false_r. f_equal. f_equal. unfold loop_filter, loop_control. cbn. rewrite andb_false_r. reflexivity.
Qed.

Lemma one_filter n m rest : n_filter (loop_node pq vt c 0 n m rest) = processMeasurement vt (n_filter n) m.
Proof. cbn. unfold loop_filter, loop_control. cbn. rewrite andb_false_r. reflexivity. Qed.

Lemma int_idle n cur : n_queue n = [] -> fb_initialized (n_filter n) = true ->
  fb_sensor_timeout (n_filter n) <= cur - fb_last_time (n_filter n) ->
  integrateMeasurements pq vt c cur n = (project vt cur n, [OutPredict cur (cur - fb_last_time (n_filter n))]).
Proof.
  intros Hq Hi Ht. rewrite (integrate_eq pq vt c Hpq). unfold catch_up, projects. rewrite Hq, Hi. cbn [andb].
  apply Z.leb_le in Ht. rewrite Ht, orb_true_r. reflexivity.
Qed.

Lemma int_lagged n m s m1 cur : n_queue n = [m] -> n_state_hist n = [s] -> n_meas_hist n = [m1] ->
  c_smooth c = true -> m_time m < fb_last_time (n_filter n) -> fs_time s < m_time m -> m_time m1 < m_time m ->
  m_time m <= cur -> c_predict_now c = false ->
  integrateMeasurements pq vt c cur n =
    (let n0 := with_filter n (load (n_filter n) s) in loop_node pq vt c 0 n0 m [], [OutFused (load (n_filter n) s) m]).
Proof.
  intros Hq Hsh Hmh Hsm Hlt Hs Hm1 Hle Hp. rewrite (integrate_eq pq vt c Hpq). unfold catch_up, projects. rewrite Hq, Hp. cbn [orb].
  unfold revert_if_lagged. rewrite Hq, (pop_single pq Hpq), Hsm. apply Z.ltb_lt in Hlt. rewrite Hlt. cbn [andb].
  assert (Hr : snd (revertTo pq n (m_time m - 1)) = with_filter n (load (n_filter n) s)).
  { unfold revertTo. rewrite Hsh. unfold pop_back_while at 1. cbn [rev app pop_while]. rewrite Z.gtb_ltb.
    destruct (Z.ltb_spec (m_time m - 1) (fs_time s)); [lia|]. cbn [rev app last_opt snd].
    unfold restoreSnapshot. cbn [n_meas_hist n_queue n_filter with_state_hist]. rewrite Hmh. unfold pop_back_while. cbn [rev app pop_while].
    rewrite Z.gtb_ltb. destruct (Z.ltb_spec (m_time m - 1) (m_time m1)); [lia|].
    destruct n as [nf nq nmh nsh nst nlm nsp nld nct ncti nlp ntg nen nan ndg]; cbn in *. subst. reflexivity. }
  rewrite Hr. cbn [n_queue with_filter]. rewrite Hq. cbn [List.length]. rewrite loop_step. cbn [n_queue with_filter]. rewrite Hq, (pop_single pq Hpq).
  destruct (Z.ltb_spec cur (m_time m)); [lia|]. cbn [integrate_loop]. rewrite andb_false_r. change (1 - 1) with 0. f_equal. f_equal.
  unfold loop_filter, loop_control. cbn. rewrite andb_false_r. reflexivity.
Qed.

Lemma trim_keep A (key : A -> Z) t l : Forall (fun x => t <= key x) l -> trim key t l = l.
Proof.
  intros H. unfold trim. destruct (c_smooth c); [|reflexivity]. destruct l as [|x l]; [reflexivity|].
  unfold pop_front_while. cbn. inversion H; subst. destruct (Z.ltb_spec (key x) t); [lia|reflexivity].
Qed.

Lemma trim_keep1 A (key : A -> Z) t x : t <= key x -> trim key t [x] = [x].
Proof. intros H. apply trim_keep. constructor; [exact H|constructor]. Qed.

Lemma view_init f ang ctl : view (node_init f ang ctl false 0) f [] [] [] 0 ctl 0 0.
Proof. constructor; cbn; try reflexivity. discriminate. Qed.

Lemma run_cons n e n1 o1 es n2 o2 : node_step pq vt c n e = (n1, o1) -> node_run pq vt c n1 es = (n2, o2) ->
  node_run pq vt c n (e :: es) = (n2, o1 ++ o2).
Proof. intros H1 H2. cbn [node_run]. rewrite H1, H2. reflexivity. Qed.

(** ** C36: stamps can fall with smoothing *)
Definition falling (T : Z) (upd : list bool) (v : vec K) (cov : mat K) (th : K) (lk : option (trans K)) : list (event K E) :=
  [message "odom" 10 upd v cov th; EvCycle 10 10 lk;
   EvCycle (10 + T) (10 + T) lk;
   message "odom" 11 upd v cov th; EvCycle (11 + T) (11 + T) lk;
   message "odom" 12 upd v cov th; EvCycle (12 + T) (12 + T) lk].

Lemma falling_stamps f ang ctl upd v cov th lk :
  let T := fb_sensor_timeout f in
  c_smooth c = true -> c_permit c = false -> c_predict_now c = false -> fb_initialized f = false ->
  2 < T -> T <= c_history c ->
  map o_stamp (odoms (snd (node_run pq vt c (node_init f ang ctl false 0) (falling T upd v cov th lk)))) = [10; 10 + T; 12].
Proof.
  cbv zeta. set (T := fb_sensor_timeout f). intros Hsm Hpe Hpn Hin HT Hh. unfold falling.
  pose proof (view_init f ang ctl) as W0.
  destruct (view_message _ _ _ _ _ _ _ _ _ "odom" 10 upd v cov th W0) as (n1 & S1 & W1); [lia|left; lia|].
  rewrite (push_nil pq Hpq) in W1. set (m1 := mkMeas "odom" 10 v cov upd th ctl 0) in *.
  assert (I1 : integrateMeasurements pq vt c 10 n1 = (loop_node pq vt c 0 n1 m1 [], [OutFused (n_filter n1) m1])).
  { rewrite (integrate_eq pq vt c Hpq). unfold catch_up, projects. rewrite (w_queue _ _ _ _ _ _ _ _ _ W1), Hpn. cbn [orb].
    assert (Hr : revert_if_lagged pq c n1 = (0, n1)).
    { unfold revert_if_lagged. rewrite (w_queue _ _ _ _ _ _ _ _ _ W1), (pop_single pq Hpq).
      destruct (c_smooth c && _)%bool; [|reflexivity].
      rewrite (revert_empty pq Hpq n1 _ (w_sh _ _ _ _ _ _ _ _ _ W1)). cbn. rewrite (w_queue _ _ _ _ _ _ _ _ _ W1). reflexivity. }
    rewrite Hr, (w_queue _ _ _ _ _ _ _ _ _ W1). cbn [List.length]. rewrite loop_step, (w_queue _ _ _ _ _ _ _ _ _ W1), (pop_single pq Hpq).
    cbn [m_time m1 Z.ltb Z.compare Pos.compare Pos.compare_cont integrate_loop]. rewrite andb_false_r. f_equal. f_equal.
    unfold loop_filter, loop_control. cbn. rewrite andb_false_r. reflexivity. }
  set (f1 := processMeasurement vt f m1).
  destruct (process_time vt Hvt f m1) as [P1 P1']. fold f1 in P1, P1'. rewrite Hin in P1. cbn [m_time m1] in P1.
  assert (F1 : n_filter (loop_node pq vt c 0 n1 m1 []) = f1).
  { rewrite one_filter, (w_filter _ _ _ _ _ _ _ _ _ W1). reflexivity. }
  destruct (view_cycle _ _ _ _ _ _ _ _ _ 10 10 lk _ _ f1 [] [m1] [snapshot f1] W1 I1 F1) as (n2 & o2 & S2 & W2 & _ & _ & O2).
  { reflexivity. }
  { cbn. rewrite Hsm, (w_mh _ _ _ _ _ _ _ _ _ W1). reflexivity. }
  { cbn. unfold loop_saves. rewrite (pop_nil pq Hpq), Hsm, (w_sh _ _ _ _ _ _ _ _ _ W1). cbn.
    unfold loop_filter, loop_control. cbn. rewrite andb_false_r, (w_filter _ _ _ _ _ _ _ _ _ W1). reflexivity. }
  { exact P1'. }
  specialize (O2 eq_refl eq_refl). rewrite Hpe, P1 in O2. cbn [orb Z.ltb Z.compare] in O2.
  rewrite P1 in W2. rewrite !trim_keep1 in W2 by (unfold m1, snapshot; cbn [m_time fs_time]; rewrite ?P1; lia).
  (* projection *)
  assert (HTf : fb_sensor_timeout f1 = T).
  { unfold f1, processMeasurement. rewrite Hin. reflexivity. }
  assert (I2 : integrateMeasurements pq vt c (10 + T) n2 = (project vt (10 + T) n2, [OutPredict (10 + T) (10 + T - fb_last_time (n_filter n2))])).
  { apply int_idle; rewrite ?(w_filter _ _ _ _ _ _ _ _ _ W2), ?(w_queue _ _ _ _ _ _ _ _ _ W2); [reflexivity|exact P1'|lia]. }
  set (f2 := n_filter (project vt (10 + T) n2)).
  assert (P2 : fb_last_time f2 = 10 + T /\ fb_initialized f2 = true).
  { unfold f2. destruct (project_time vt Hvt (10 + T) n2) as [A B]. rewrite A, B, (w_filter _ _ _ _ _ _ _ _ _ W2). split; [reflexivity|exact P1']. }
  destruct P2 as [P2 P2'].
  destruct (view_cycle _ _ _ _ _ _ _ _ _ (10 + T) (10 + T) lk _ _ f2 [] [m1] [snapshot f1] W2 I2) as (n3 & o3 & S3 & W3 & _ & _ & O3).
  { reflexivity. }
  { cbn. apply (w_queue _ _ _ _ _ _ _ _ _ W2). }
  { cbn. apply (w_mh _ _ _ _ _ _ _ _ _ W2). }
  { cbn. apply (w_sh _ _ _ _ _ _ _ _ _ W2). }
  { exact P2'. }
  specialize (O3 eq_refl eq_refl). rewrite Hpe, P2 in O3. cbn [orb] in O3.
  assert (Hc : (10 <? 10 + T) = true) by (apply Z.ltb_lt; lia). rewrite Hc in O3.
  rewrite P2 in W3. rewrite !trim_keep1 in W3 by (unfold m1, snapshot; cbn [m_time fs_time]; rewrite ?P1; lia).
  (* lagged *)
  destruct (view_message _ _ _ _ _ _ _ _ _ "odom" 11 upd v cov th W3) as (n4 & S4 & W4); [lia|left; lia|].
  rewrite (push_nil pq Hpq) in W4. set (m2 := mkMeas "odom" 11 v cov upd th ctl 0) in *.
  assert (I4 := int_lagged n4 m2 (snapshot f1) m1 (11 + T) (w_queue _ _ _ _ _ _ _ _ _ W4) (w_sh _ _ _ _ _ _ _ _ _ W4) (w_mh _ _ _ _ _ _ _ _ _ W4) Hsm).
  rewrite (w_filter _ _ _ _ _ _ _ _ _ W4) in I4. cbv zeta in I4.
  specialize (I4 ltac:(rewrite P2; unfold m2; cbn [m_time]; lia) ltac:(unfold m2, snapshot; cbn [m_time fs_time]; rewrite P1; lia)
    ltac:(unfold m1, m2; cbn [m_time]; lia) ltac:(unfold m2; cbn [m_time]; lia) Hpn).
  set (f4 := processMeasurement vt (load f2 (snapshot f1)) m2).
  destruct (process_time vt Hvt (load f2 (snapshot f1)) m2) as [P4 P4']. fold f4 in P4, P4'.
  cbn [load setState setEstimateErrorCovariance setLastMeasurementTime set_state set_P set_last_time fb_initialized fb_last_time snapshot fs_time] in P4.
  rewrite P2', P1 in P4. cbn [m_time m2] in P4. change (Z.max 10 11) with 11 in P4.
  assert (F4 : n_filter (loop_node pq vt c 0 (with_filter n4 (load f2 (snapshot f1))) m2 []) = f4) by (rewrite one_filter; reflexivity).
  destruct (view_cycle _ _ _ _ _ _ _ _ _ (11 + T) (11 + T) lk _ _ f4 _ _ _ W4 I4 F4 eq_refl eq_refl eq_refl P4') as (n5 & o5 & S5 & W5 & _ & _ & O5).
  specialize (O5 eq_refl eq_refl). rewrite Hpe, P4 in O5. cbn [orb] in O5.
  assert (Hc' : (10 + T <? 11) = false) by (apply Z.ltb_ge; lia). rewrite Hc' in O5.
  rewrite P4 in W5.
  (* next *)
  destruct (view_message _ _ _ _ _ _ _ _ _ "odom" 12 upd v cov th W5) as (n6 & S6 & W6); [lia|left; lia|].
  cbn [n_queue loop_node] in W6. rewrite (push_nil pq Hpq) in W6. set (m3 := mkMeas "odom" 12 v cov upd th ctl 0) in *.
  assert (I6 : integrateMeasurements pq vt c (12 + T) n6 = (loop_node pq vt c 0 n6 m3 [], [OutFused (n_filter n6) m3])).
  { apply int_one; [apply (w_queue _ _ _ _ _ _ _ _ _ W6)| |unfold m3; cbn [m_time]; lia|exact Hpn].
    rewrite (w_filter _ _ _ _ _ _ _ _ _ W6), P4. cbn. apply andb_false_r. }
  destruct (process_time vt Hvt f4 m3) as [P6 P6']. rewrite P4', P4 in P6. cbn [m_time m3] in P6. change (Z.max 11 12) with 12 in P6.
  assert (F6 : n_filter (loop_node pq vt c 0 n6 m3 []) = processMeasurement vt f4 m3).
  { rewrite one_filter, (w_filter _ _ _ _ _ _ _ _ _ W6). reflexivity. }
  destruct (view_cycle _ _ _ _ _ _ _ _ _ (12 + T) (12 + T) lk _ _ (processMeasurement vt f4 m3) _ _ _ W6 I6 F6 eq_refl eq_refl eq_refl P6')
    as (n7 & o7 & S7 & W7 & _ & _ & O7).
  specialize (O7 eq_refl eq_refl). rewrite Hpe, P6 in O7. cbn [orb Z.ltb Z.compare Pos.compare Pos.compare_cont] in O7.
  assert (R7 : node_run pq vt c n7 [] = (n7, [])) by reflexivity.
  pose proof (run_cons _ _ _ _ _ _ _ S7 R7) as R6. pose proof (run_cons _ _ _ _ _ _ _ S6 R6) as R5.
  pose proof (run_cons _ _ _ _ _ _ _ S5 R5) as R4. pose proof (run_cons _ _ _ _ _ _ _ S4 R4) as R3.
  pose proof (run_cons _ _ _ _ _ _ _ S3 R3) as R2. pose proof (run_cons _ _ _ _ _ _ _ S2 R2) as R1.
  pose proof (run_cons _ _ _ _ _ _ _ S1 R1) as R0. rewrite R0. cbn [snd].
  rewrite !odoms_app, !map_app, O2, O3, O5, O7. reflexivity.
Qed.

(** ** C30: the same measurement counted twice *)
Lemma pop_head q a l : Permutation q (a :: l) -> Forall (fun x => m_time a < m_time x) l ->
  exists r, pq_pop pq q = Some (a, r) /\ Permutation r l.
Proof.
  intros Hq Hl. destruct (pq_pop pq q) as [[x r]|] eqn:Hp.
  2:{ apply (pop_none pq Hpq) in Hp. subst q. apply Permutation_nil in Hq. discriminate. }
  pose proof (pop_perm pq Hpq _ _ _ Hp) as H. pose proof (pop_min pq Hpq _ _ _ Hp) as Hm.
  assert (Hx : x = a).
  { assert (In a q) by (eapply Permutation_in; [apply Permutation_sym, Hq|left; reflexivity]).
    specialize (Hm a H0).
    assert (Hin : In x (a :: l)) by (eapply Permutation_in; [exact Hq|]; eapply Permutation_in; [apply Permutation_sym, H|left; reflexivity]).
    destruct Hin as [->|Hin]; [reflexivity|]. rewrite Forall_forall in Hl. specialize (Hl x Hin). lia. }
  subst x. exists r. split; [reflexivity|]. apply (Permutation_cons_inv (a:=a)).
  eapply Permutation_trans; [apply Permutation_sym, H|exact Hq].
Qed.

Lemma int_first n m cur : n_queue n = [m] -> n_state_hist n = [] -> m_time m <= cur -> c_predict_now c = false ->
  integrateMeasurements pq vt c cur n = (loop_node pq vt c 0 n m [], [OutFused (n_filter n) m]).
Proof.
  intros Hq Hs Hle Hp. rewrite (integrate_eq pq vt c Hpq). unfold catch_up, projects. rewrite Hq, Hp. cbn [orb].
  assert (Hr : revert_if_lagged pq c n = (0, n)).
  { unfold revert_if_lagged. rewrite Hq, (pop_single pq Hpq). destruct (c_smooth c && _)%bool; [|reflexivity].
    rewrite (revert_empty pq Hpq n _ Hs). cbn. rewrite Hq. reflexivity. }
  rewrite Hr, Hq. cbn [List.length]. rewrite loop_step, Hq, (pop_single pq Hpq).
  destruct (Z.ltb_spec cur (m_time m)); [lia|]. cbn [integrate_loop]. rewrite andb_false_r. f_equal. f_equal.
  unfold loop_filter, loop_control. cbn. rewrite andb_false_r. reflexivity.
Qed.

(** First message of a fresh node, then a cycle. *)
Lemma first_view n f lp ctl ct heard m cur lk :
  view n f [m] [] [] lp ctl ct heard -> fb_initialized f = false -> c_smooth c = true -> c_predict_now c = false ->
  0 <= c_history c -> m_time m <= cur ->
  let f1 := processMeasurement vt f m in
  fb_last_time f1 = m_time m /\ fb_initialized f1 = true /\ fb_control f1 = fb_control f /\
  exists n' o, node_step pq vt c n (EvCycle cur cur lk) = (n', o) /\
    view n' f1 [] [m] [snapshot f1] (m_time m) ctl ct heard /\ fused o = [m] /\ queued o = [].
Proof.
  intros W Hin Hsm Hpn Hh Hle. cbv zeta. set (f1 := processMeasurement vt f m).
  destruct (process_time vt Hvt f m) as [P P']. fold f1 in P, P'. rewrite Hin in P.
  split; [exact P|]. split; [exact P'|]. split; [unfold f1, processMeasurement; rewrite Hin; reflexivity|].
  pose proof (int_first n m cur (w_queue _ _ _ _ _ _ _ _ _ W) (w_sh _ _ _ _ _ _ _ _ _ W) Hle Hpn) as I.
  assert (F : n_filter (loop_node pq vt c 0 n m []) = f1) by (rewrite one_filter, (w_filter _ _ _ _ _ _ _ _ _ W); reflexivity).
  destruct (view_cycle _ _ _ _ _ _ _ _ _ cur cur lk _ _ f1 [] [m] [snapshot f1] W I F) as (n' & o & S & W' & O1 & O2 & _).
  { reflexivity. }
  { cbn. rewrite Hsm, (w_mh _ _ _ _ _ _ _ _ _ W). reflexivity. }
  { cbn. unfold loop_saves. rewrite (pop_nil pq Hpq), Hsm, (w_sh _ _ _ _ _ _ _ _ _ W). cbn.
    unfold loop_filter, loop_control. cbn. rewrite andb_false_r, (w_filter _ _ _ _ _ _ _ _ _ W). reflexivity. }
  { exact P'. }
  exists n', o. split; [exact S|]. rewrite P in W'.
  rewrite !trim_keep1 in W' by (unfold snapshot; cbn [fs_time]; rewrite ?P; lia). split; [exact W'|]. split; [exact O1|exact O2].
Qed.

(** An in-order message, then a cycle; all of the history is kept. *)
Lemma next_view n f mh sh lp ctl ct heard m cur lk :
  view n f [m] mh sh lp ctl ct heard -> fb_initialized f = true -> fb_last_time f < m_time m -> c_smooth c = true -> c_predict_now c = false ->
  m_time m <= cur -> Forall (fun x => m_time m - c_history c <= m_time x) mh ->
  Forall (fun x => m_time m - c_history c <= fs_time x) sh -> 0 <= c_history c ->
  let f1 := processMeasurement vt f m in
  fb_last_time f1 = m_time m /\ fb_initialized f1 = true /\
  exists n' o, node_step pq vt c n (EvCycle cur cur lk) = (n', o) /\
    view n' f1 [] (mh ++ [m]) (sh ++ [snapshot f1]) (m_time m) ctl ct heard /\ fused o = [m] /\ queued o = [].
Proof.
  intros W Hin Hlt Hsm Hpn Hle Hmh Hsh Hh. cbv zeta. set (f1 := processMeasurement vt f m).
  destruct (process_time vt Hvt f m) as [P P']. fold f1 in P, P'. rewrite Hin, Z.max_r in P by lia.
  split; [exact P|]. split; [exact P'|].
  assert (Hnl : (c_smooth c && (m_time m <? fb_last_time (n_filter n)))%bool = false).
  { rewrite (w_filter _ _ _ _ _ _ _ _ _ W). destruct (Z.ltb_spec (m_time m) (fb_last_time f)); [lia|apply andb_false_r]. }
  pose proof (int_one n m cur (w_queue _ _ _ _ _ _ _ _ _ W) Hnl Hle Hpn) as I.
  assert (F : n_filter (loop_node pq vt c 0 n m []) = f1) by (rewrite one_filter, (w_filter _ _ _ _ _ _ _ _ _ W); reflexivity).
  destruct (view_cycle _ _ _ _ _ _ _ _ _ cur cur lk _ _ f1 [] (mh ++ [m]) (sh ++ [snapshot f1]) W I F) as (n' & o & S & W' & O1 & O2 & _).
  { reflexivity. }
  { cbn. rewrite Hsm, (w_mh _ _ _ _ _ _ _ _ _ W). reflexivity. }
  { cbn. unfold loop_saves. rewrite (pop_nil pq Hpq), Hsm, (w_sh _ _ _ _ _ _ _ _ _ W). cbn.
    unfold loop_filter, loop_control. cbn. rewrite andb_false_r, (w_filter _ _ _ _ _ _ _ _ _ W). reflexivity. }
  { exact P'. }
  exists n', o. split; [exact S|]. rewrite P in W'. rewrite !trim_keep in W'.
  - split; [exact W'|]. split; [exact O1|exact O2].
  - apply Forall_app. split; [exact Hsh|]. constructor; [|constructor]. unfold snapshot. cbn [fs_time]. rewrite P. lia.
  - apply Forall_app. split; [exact Hmh|]. constructor; [|constructor]. lia.
Qed.

Definition twice (upd : list bool) (v v' : vec K) (cov : mat K) (th : K) (lk : option (trans K)) : list (event K E) :=
  [message "odom" 5 upd v cov th; EvCycle 5 5 lk;
   message "gps" 3 upd v' cov th; EvCycle 6 6 lk].

Lemma fused_twice f ang ctl upd v v' cov th lk :
  c_smooth c = true -> c_predict_now c = false -> fb_initialized f = false -> 0 <= c_history c ->
  let m1 := mkMeas "odom" 5 v cov upd th ctl 0 in
  let m2 := mkMeas "gps" 3 v' cov upd th ctl 0 in
  let r := node_run pq vt c (node_init f ang ctl false 0) (twice upd v v' cov th lk) in
  queued (snd r) = [m1; m2] /\ fused (snd r) = [m1; m2; m1].
Proof.
  intros Hsm Hpn Hin Hh. cbv zeta. unfold twice.
  pose proof (view_init f ang ctl) as W0.
  destruct (view_message _ _ _ _ _ _ _ _ _ "odom" 5 upd v cov th W0) as (n1 & S1 & W1); [lia|left; lia|].
  rewrite (push_nil pq Hpq) in W1. set (m1 := mkMeas "odom" 5 v cov upd th ctl 0) in *.
  destruct (first_view _ _ _ _ _ _ _ 5 lk W1 Hin Hsm Hpn Hh ltac:(cbn; lia)) as (P1 & P1' & _ & n2 & o2 & S2 & W2 & O2 & Q2).
  set (f1 := processMeasurement vt f m1) in *. cbn [m_time m1] in P1.
  (* "gps" has not been heard of *)
  assert (Hlm : sm_find (n_last_msg n2) "gps" = None).
  { cbn [node_step] in S2. pose proof (f_equal fst S2) as Hn. cbn [fst] in Hn. rewrite <- Hn.
    rewrite (cycle_eq pq vt c 5 5 lk n1 (w_en _ _ _ _ _ _ _ _ _ W1)).
    destruct (working_post pq vt c Hpq 5 5 n1) as [_ (_ & _ & _ & _ & Hl & _)].
    destruct (working pq vt c 5 5 n1) as [nw ow]. cbn [fst concluded n_last_msg] in *. rewrite Hl.
    pose proof (f_equal fst S1) as Hn1. cbn [fst] in Hn1. rewrite <- Hn1. reflexivity. }
  destruct (view_message _ _ _ _ _ _ _ _ _ "gps" 3 upd v' cov th W2) as (n3 & S3 & W3); [lia|right; exact Hlm|].
  rewrite (push_nil pq Hpq) in W3. set (m2 := mkMeas "gps" 3 v' cov upd th ctl 0) in *.
  pose proof (w_queue _ _ _ _ _ _ _ _ _ W3) as Hq3. pose proof (w_mh _ _ _ _ _ _ _ _ _ W3) as Hm3.
  pose proof (w_sh _ _ _ _ _ _ _ _ _ W3) as Hs3. pose proof (w_filter _ _ _ _ _ _ _ _ _ W3) as Hf3.
  assert (I : exists nl f', integrateMeasurements pq vt c 6 n3 = (nl, [OutFused (loop_filter c 1 (load f1 (snapshot f1)) m2) m2; OutFused f' m1]) /\
              fb_initialized (n_filter nl) = true).
  { rewrite (integrate_eq pq vt c Hpq). unfold catch_up, projects. rewrite Hq3, Hpn. cbn [orb].
    unfold revert_if_lagged. rewrite Hq3, (pop_single pq Hpq), Hsm, Hf3, P1. cbn [m_time m2 Z.ltb Z.compare Pos.compare Pos.compare_cont andb].
    change (3 - 1) with 2.
    set (nr := snd (revertTo pq n3 2)).
    assert (Hr : n_filter nr = load f1 (snapshot f1) /\ n_queue nr = pq_push pq m1 [m2]).
    { unfold nr. assert (Hst : fs_time (snapshot f1) = 5) by exact P1. clearbody f1.
      set (s := snapshot f1) in *. clearbody s.
      unfold revertTo. rewrite Hs3. unfold pop_back_while at 1. cbn [rev app pop_while].
      rewrite Hst. cbn [Z.gtb Z.compare Pos.compare Pos.compare_cont rev app last_opt snd].
      unfold restoreSnapshot. cbn [n_meas_hist n_queue n_filter with_state_hist]. rewrite Hm3. unfold pop_back_while.
      cbn -[load pq_push]. rewrite Hf3, Hq3. split; [reflexivity|]. rewrite Hst. cbn. rewrite Hst. reflexivity. }
    destruct Hr as [Hrf Hrq].
    assert (Hperm : Permutation (n_queue nr) [m2; m1]).
    { rewrite Hrq. eapply Permutation_trans; [apply (push_perm pq Hpq)|]. apply perm_swap. }
    assert (Hlen : List.length (n_queue nr) = 2%nat) by (rewrite (Permutation_length Hperm); reflexivity).
    rewrite Hlen. cbn [List.length].
    destruct (pop_head (n_queue nr) m2 [m1] Hperm) as (r & Hp1 & Hpr); [repeat constructor; cbn; lia|].
    apply Permutation_sym, Permutation_length_1_inv in Hpr. subst r.
    rewrite loop_step, Hp1. cbn [m_time m2 Z.ltb Z.compare Pos.compare Pos.compare_cont].
    rewrite loop_step. cbn [n_queue loop_node]. rewrite (pop_single pq Hpq). cbn [m_time m1 Z.ltb Z.compare Pos.compare Pos.compare_cont integrate_loop].
    rewrite andb_false_r, Hrf. eexists. eexists. split; [reflexivity|].
    cbn [loop_node n_filter]. apply (process_time vt Hvt). }
  destruct I as (nl & f' & I & Hil).
  destruct (view_cycle _ _ _ _ _ _ _ _ _ 6 6 lk _ _ _ _ _ _ W3 I eq_refl eq_refl eq_refl eq_refl Hil) as (n4 & o4 & S4 & W4 & O4 & Q4 & _).
  assert (R4 : node_run pq vt c n4 [] = (n4, [])) by reflexivity.
  pose proof (run_cons _ _ _ _ _ _ _ S4 R4) as R3. pose proof (run_cons _ _ _ _ _ _ _ S3 R3) as R2.
  pose proof (run_cons _ _ _ _ _ _ _ S2 R2) as R1. pose proof (run_cons _ _ _ _ _ _ _ S1 R1) as R0.
  rewrite R0. cbn [snd]. rewrite !queued_app, !fused_app, O2, Q2, O4, Q4. split; reflexivity.
Qed.

(** ** C58: which control is used in a replay *)
Hypothesis Hct : control_neutral vt.

Lemma process_control f m : fb_control (processMeasurement vt f m) = fb_control f.
Proof.
  destruct Hct as [Hp Hc]. unfold processMeasurement. destruct (fb_initialized f); [|reflexivity].
  destruct (m_time m - fb_last_time f >? 0); destruct (m_time m - fb_last_time f >=? 0); cbn; rewrite Hc; cbn; rewrite ?Hp; reflexivity.
Qed.

Fixpoint replayed (r : nat) (u : vec K) (l : list (meas K)) : list (vec K) :=
  match l with
  | [] => []
  | m :: l' => match r with
               | S r' => m_control m :: replayed r' (m_control m) l'
               | O => u :: replayed O u l'
               end
  end.

Lemma controls_app (a b : list (output K E)) : controls (a ++ b) = controls a ++ controls b.
Proof. induction a as [|x a IH]; [reflexivity|]. destruct x; cbn; rewrite ?IH; reflexivity. Qed.

Lemma loop_controls : c_use_control c = true -> forall fuel now r n n' o,
  integrate_loop pq vt c fuel now (Z.of_nat r) n = (n', o) ->
  controls o = replayed r (fb_control (n_filter n)) (fused o) /\
  fb_control (n_filter n') = last (replayed r (fb_control (n_filter n)) (fused o)) (fb_control (n_filter n)).
Proof.
  intros Huc fuel. induction fuel as [|fuel IH]; intros now r n n' o H.
  - cbn in H. injection H as <- <-. split; reflexivity.
  - rewrite loop_step in H. destruct (pq_pop pq (n_queue n)) as [[m rest]|]; [|injection H as <- <-; split; reflexivity].
    destruct (now <? m_time m); [injection H as <- <-; split; reflexivity|].
    destruct (integrate_loop pq vt c fuel now (loop_count c (Z.of_nat r)) (loop_node pq vt c (Z.of_nat r) n m rest)) as [n3 o3] eqn:Hl.
    injection H as <- <-. cbn [controls fused].
    assert (Hr : loop_count c (Z.of_nat r) = Z.of_nat (Nat.pred r)).
    { unfold loop_count, loop_control. rewrite Huc, Z.gtb_ltb. cbn [andb]. destruct (Z.ltb_spec 0 (Z.of_nat r)); lia. }
    rewrite Hr in Hl. specialize (IH _ _ _ _ _ Hl). 
    assert (Hc1 : fb_control (n_filter (loop_node pq vt c (Z.of_nat r) n m rest)) = match r with O => fb_control (n_filter n) | S _ => m_control m end).
    { cbn [loop_node n_filter]. rewrite process_control. unfold loop_filter, loop_control. rewrite Huc, Z.gtb_ltb. cbn [andb].
      destruct r as [|r]; [reflexivity|]. destruct (Z.ltb_spec 0 (Z.of_nat (S r))); [reflexivity|lia]. }
    rewrite Hc1 in IH. destruct IH as [I1 I2].
    assert (Hc2 : fb_control (loop_filter c (Z.of_nat r) (n_filter n) m) = match r with O => fb_control (n_filter n) | S _ => m_control m end).
    { unfold loop_filter, loop_control. rewrite Huc, Z.gtb_ltb. cbn [andb].
      destruct r as [|r]; [reflexivity|]. destruct (Z.ltb_spec 0 (Z.of_nat (S r))); [reflexivity|lia]. }
    rewrite Hc2, I1, I2. destruct r as [|r]; cbn [replayed Nat.pred]; (split; [reflexivity|]).
    + set (l := replayed 0 (fb_control (n_filter n)) (fused o3)). destruct l; reflexivity.
    + set (l := replayed r (m_control m) (fused o3)). destruct l as [|x l]; [reflexivity|].
      clear. cbn. revert x. induction l as [|y l IHl]; intros x; [reflexivity|]. cbn in *. exact (IHl y).
Qed.

Lemma replayed_const u l i d : (i < List.length l)%nat -> nth i (replayed 0 u l) d = u.
Proof. revert i. induction l as [|m l IH]; intros i H; cbn in H; [lia|]. destruct i; cbn; [reflexivity|]. apply IH. lia. Qed.

Lemma replayed_nth l : forall r u i d m0, (i < List.length l)%nat ->
  nth i (replayed r u l) d =
    (if Nat.ltb i r then m_control (nth i l m0)
     else match r with O => u | S r' => m_control (nth r' l m0) end).
Proof.
  induction l as [|m l IH]; intros r u i d m0 H; cbn in H; [lia|].
  destruct r as [|r].
  - rewrite (replayed_const u (m :: l) i d) by (cbn; lia). reflexivity.
  - cbn [replayed]. destruct i as [|i]; [reflexivity|]. cbn [nth]. rewrite (IH r (m_control m) i d m0) by lia.
    change (Nat.ltb (S i) (S r)) with (Nat.ltb i r). destruct (Nat.ltb_spec i r); [reflexivity|].
    destruct r; reflexivity.
Qed.

Lemma cycle_replay N cur later lookup n first q0 n' o m0 :
  node_inv c N n -> c_smooth c = true -> c_use_control c = true -> n_enabled n = true -> n_toggled n = true ->
  n_state_hist n <> [] ->
  pq_pop pq (n_queue n) = Some (first, q0) -> m_time first < fb_last_time (n_filter n) ->
  c_predict_now c = false ->
  periodicUpdate pq vt c cur later lookup n = (n', o) ->
  exists s, In s (n_state_hist n) /\
  let back := filter (fun m => (m_time first <=? m_time m) && (fs_time s <=? m_time m))%bool (n_meas_hist n) in
  (forall x, In x (n_state_hist n) -> fs_time x < m_time first -> fs_time x <= fs_time s /\ fs_time s < m_time first) /\
  Permutation (fused o ++ n_queue n') (n_queue n ++ back) /\ in_order (fused o) /\
  Forall (fun m => cur < m_time m) (n_queue n') /\
  let r := List.length back in
  List.length (controls o) = List.length (fused o) /\
  (forall i d, (i < List.length (fused o))%nat ->
     nth i (controls o) d = if Nat.ltb i r then m_control (nth i (fused o) m0)
                            else match r with O => fb_control (n_filter n) | S r' => m_control (nth r' (fused o) m0) end) /\
  ((0 < r)%nat -> (r <= List.length (fused o))%nat -> fb_control (n_filter n') = m_control (nth (r - 1) (fused o) m0)).
Proof.
  intros Hn Hsm Huc He Ht Hne Hpop Hlt Hpn Hrun.
  pose proof (cycle_eq pq vt c cur later lookup n He) as Hc. rewrite Hrun in Hc.
  unfold working in Hc. rewrite Ht, (integrate_eq pq vt c Hpq) in Hc. unfold catch_up, projects in Hc.
  destruct (n_queue n) as [|qa qs] eqn:Hq.
  { rewrite (pop_nil pq Hpq) in Hpop. discriminate. }
  rewrite Hpn in Hc. cbn [orb] in Hc.
  unfold revert_if_lagged in Hc. rewrite Hq, Hpop, Hsm in Hc. apply Z.ltb_lt in Hlt. rewrite Hlt in Hc. cbn [andb] in Hc.
  destruct (revert_exact pq Hpq n (m_time first - 1) (ni_msort _ _ _ Hn) (ni_ssort _ _ _ Hn) Hne)
    as (pre & s & post & Hl & Hpo & Hor & Hok & Hr). cbv zeta in Hr. destruct Hr as (_ & _ & _ & _ & Hfc & _ & _ & Hperm).
  exists s. split; [rewrite Hl; apply in_or_app; right; left; reflexivity|]. cbv zeta.
  rewrite (filter_ext (fun m => (m_time first <=? m_time m) && (fs_time s <=? m_time m))%bool
             (fun m => (m_time first - 1 <? m_time m) && (fs_time s <=? m_time m))%bool).
  2:{ intros a. f_equal. destruct (Z.leb_spec (m_time first) (m_time a)), (Z.ltb_spec (m_time first - 1) (m_time a)); lia || reflexivity. }
  set (back := filter (fun m => (m_time first - 1 <? m_time m) && (fs_time s <=? m_time m))%bool (n_meas_hist n)) in *.
  split.
  { intros x Hx Hxt. rewrite Hl in Hx. apply in_app_or in Hx.
    pose proof (ni_ssort _ _ _ Hn) as Hss. rewrite Hl in Hss. apply (SS_app fs_time) in Hss. destruct Hss as (_ & _ & Hss).
    destruct Hx as [Hx|[<-|Hx]]; [|lia|].
    - split; [apply (Hss x s Hx); left; reflexivity|]. destruct Hor as [Hor|[-> _]]; [lia|destruct Hx].
    - rewrite Forall_forall in Hpo. specialize (Hpo x Hx). cbn in Hpo. lia. }
  set (nr := snd (revertTo pq n (m_time first - 1))) in *.
  assert (Hcnt : Z.of_nat (List.length (n_queue nr)) - Z.of_nat (List.length (qa :: qs)) = Z.of_nat (List.length back)).
  { rewrite (Permutation_length Hperm), Hq, app_length. lia. }
  rewrite Hcnt in Hc.
  destruct (integrate_loop pq vt c (List.length (n_queue nr)) cur (Z.of_nat (List.length back)) nr) as [nl ol] eqn:Hlp.
  destruct (loop_spec pq vt c Hpq _ _ _ _ _ _ (le_n _) Hlp) as (L1 & _ & L3 & L4 & _).
  destruct (loop_controls Huc _ _ _ _ _ _ Hlp) as [C1 C2]. rewrite Hfc in C1, C2.
  rewrite andb_false_r in Hc. pose proof (f_equal fst Hc) as Hn'. pose proof (f_equal snd Hc) as Ho.
  cbn [fst snd] in Hn'. unfold snd at 1 2 in Ho.
  destruct (diff_fields cur nl) as (A1 & A2 & _).
  set (n2 := differentiateMeasurements cur nl) in *.
  destruct (visible_obs c n2 lookup) as (V1 & _).
  destruct (report_obs (K:=K) (E:=E) (diag_due c cur n2) (fst (aggregateDiagnostics (n_diag n2)))) as (R1 & _).
  assert (Hfo : fused o = fused ol).
  { rewrite Ho, !fused_app, V1, R1, !app_nil_r. reflexivity. }
  assert (Hvis : forall l : list (output K E), fused l = [] -> controls l = []).
  { induction l as [|x l IHl]; [reflexivity|]. destruct x; cbn; auto; discriminate. }
  assert (Hco : controls o = controls ol).
  { rewrite Ho, !controls_app, (Hvis _ V1), (Hvis _ R1), !app_nil_r. reflexivity. }
  assert (Hlen : forall r u l, List.length (replayed r u l) = List.length l).
  { clear. intros r u l. revert r u. induction l as [|m l IH]; intros r u; [reflexivity|]. destruct r; cbn; rewrite IH; reflexivity. }
  assert (Hqo : n_queue n' = n_queue nl) by (rewrite Hn'; cbn [concluded n_queue]; exact A2).
  rewrite Hco, Hfo, Hqo, C1. split; [eapply Permutation_trans; [exact L1|rewrite <- Hq; exact Hperm]|].
  split; [exact L4|]. split; [exact L3|]. split; [apply Hlen|]. split.
  - intros i d Hi. apply replayed_nth. exact Hi.
  - intros Hr0 Hr1. rewrite Hn'. cbn [concluded n_filter]. rewrite A1, C2.
    set (L := replayed (List.length back) (fb_control (n_filter n)) (fused ol)).
    assert (HL : List.length L = List.length (fused ol)) by apply Hlen.
    assert (Hlast : forall (l : list (vec K)) d, (0 < List.length l)%nat -> last l d = nth (List.length l - 1) l d).
    { clear. intros l d. induction l as [|x l IH]; intros H; [cbn in H; lia|]. destruct l as [|y l]; [reflexivity|].
      change (last (x :: y :: l) d) with (last (y :: l) d). rewrite IH by (cbn; lia). cbn [List.length].
      replace (S (S (List.length l)) - 1)%nat with (S (S (List.length l) - 1)) by lia. reflexivity. }
    rewrite Hlast by lia. unfold L at 2. rewrite HL, (replayed_nth _ _ _ _ _ m0) by lia.
    destruct (Nat.ltb_spec (List.length (fused ol) - 1) (List.length back)).
    + replace (List.length (fused ol) - 1)%nat with (List.length back - 1)%nat by lia. reflexivity.
    + destruct (List.length back) as [|r']; [lia|]. replace (S r' - 1)%nat with r' by lia. reflexivity.
Qed.

(** The execution of C58. *)
Definition lagged_control (u1 u2 : vec K) (upd : list bool) (v : vec K) (cov : mat K) (th : K) (lk : option (trans K)) : list (event K E) :=
  [message "odom" 1 upd v cov th; EvCycle 1 1 lk;
   EvControl (c_base c) u1 4; message "odom" 5 upd v cov th; EvCycle 5 5 lk;
   EvControl (c_base c) u2 6; message "odom" 6 upd v cov th; EvCycle 6 6 lk;
   message "gps" 4 upd v cov th].

Lemma sorted_perm_3 (l : list (meas K)) a b d : in_order l -> Permutation l [a; b; d] ->
  m_time a < m_time b -> m_time b < m_time d -> l = [a; b; d].
Proof.
  intros Hs Hp Hab Hbd. 
  assert (Hl := Permutation_length Hp). destruct l as [|x [|y [|z [|w l]]]]; try discriminate.
  inversion Hs as [|? ? Hs1 Hx]; subst. inversion Hs1 as [|? ? Hs2 Hy]; subst.
  inversion Hx as [|? ? Hxy Hx']; subst. inversion Hx' as [|? ? Hxz _]; subst. inversion Hy as [|? ? Hyz _]; subst.
  unfold no_later in *.
  assert (Ha : In a [x; y; z]) by (eapply Permutation_in; [apply Permutation_sym, Hp|]; left; reflexivity).
  assert (Hb : In b [x; y; z]) by (eapply Permutation_in; [apply Permutation_sym, Hp|]; right; left; reflexivity).
  assert (Hd : In d [x; y; z]) by (eapply Permutation_in; [apply Permutation_sym, Hp|]; right; right; left; reflexivity).
  cbn in Ha, Hb, Hd.
  destruct Ha as [<-|[<-|[<-|[]]]], Hb as [<-|[<-|[<-|[]]]], Hd as [<-|[<-|[<-|[]]]]; try lia; reflexivity.
Qed.

Lemma control_lost f ang ctl u1 u2 upd v cov th lk :
  c_smooth c = true -> c_predict_now c = false -> c_use_control c = true -> fb_initialized f = false -> 10 <= c_history c ->
  let m0 := mkMeas "odom" 1 v cov upd th ctl 0 in
  let m1 := mkMeas "odom" 5 v cov upd th u1 4 in
  let m2 := mkMeas "odom" 6 v cov upd th u2 6 in
  let m3 := mkMeas "gps" 4 v cov upd th u2 6 in
  let r1 := node_run pq vt c (node_init f ang ctl false 0) (lagged_control u1 u2 upd v cov th lk) in
  let r2 := node_step pq vt c (fst r1) (EvCycle 7 7 lk) in
  fused (snd r1) = [m0; m1; m2] /\ fused (snd r2) = [m3; m1; m2] /\ controls (snd r2) = [u2; u1; u1] /\
  n_ctl (fst r2) = u2 /\ fb_control (n_filter (fst r2)) = u1.
Proof.
  intros Hsm Hpn Huc Hin Hh. cbv zeta. unfold lagged_control.
  pose proof (view_init f ang ctl) as W0.
  destruct (view_message _ _ _ _ _ _ _ _ _ "odom" 1 upd v cov th W0) as (n1 & S1 & W1); [lia|left; lia|].
  rewrite (push_nil pq Hpq) in W1. set (m0 := mkMeas "odom" 1 v cov upd th ctl 0) in *.
  destruct (first_view _ _ _ _ _ _ _ 1 lk W1 Hin Hsm Hpn ltac:(lia) ltac:(cbn; lia)) as (P1 & P1' & _ & n2 & o2 & S2 & W2 & O2 & Q2).
  set (f1 := processMeasurement vt f m0) in *. cbn [m_time m0] in P1.
  destruct (view_control _ _ _ _ _ _ _ _ _ u1 4 W2) as (n3 & S3 & W3).
  destruct (view_message _ _ _ _ _ _ _ _ _ "odom" 5 upd v cov th W3) as (n4 & S4 & W4); [lia|left; lia|].
  rewrite (push_nil pq Hpq) in W4. set (m1 := mkMeas "odom" 5 v cov upd th u1 4) in *.
  destruct (next_view _ _ _ _ _ _ _ _ _ 5 lk W4) as (P5 & P5' & n5 & o5 & S5 & W5 & O5 & Q5);
    [exact P1'|cbn [setControl set_control set_control_time fb_last_time]; change (fb_last_time f1 < 5); lia|exact Hsm|exact Hpn|cbn; lia| | |lia|].
  { constructor; [|constructor]. unfold m0, m1. cbn [m_time]. lia. }
  { constructor; [|constructor]. unfold snapshot, m1. cbn [m_time fs_time]. rewrite P1. lia. }
  set (f5 := processMeasurement vt (setControl f1 u1 4) m1) in *. cbn [m_time m1] in P5.
  destruct (view_control _ _ _ _ _ _ _ _ _ u2 6 W5) as (n6 & S6 & W6).
  destruct (view_message _ _ _ _ _ _ _ _ _ "odom" 6 upd v cov th W6) as (n7 & S7 & W7); [lia|left; lia|].
  rewrite (push_nil pq Hpq) in W7. set (m2 := mkMeas "odom" 6 v cov upd th u2 6) in *.
  destruct (next_view _ _ _ _ _ _ _ _ _ 6 lk W7) as (P8 & P8' & n8 & o8 & S8 & W8 & O8 & Q8);
    [exact P5'|change (fb_last_time f5 < 6); lia|exact Hsm|exact Hpn|cbn; lia| | |lia|].
  { repeat (constructor; [unfold m0, m1, m2; cbn [m_time]; lia|]). constructor. }
  { constructor; [unfold snapshot, m2; cbn [m_time fs_time]; rewrite P1; lia|].
    constructor; [unfold snapshot, m2; cbn [m_time fs_time]; rewrite P5; lia|]. constructor. }
  set (f8 := processMeasurement vt (setControl f5 u2 6) m2) in *. cbn [m_time m2] in P8.
  assert (Hkeep : forall n cur n' o, n_enabled n = true -> node_step pq vt c n (EvCycle cur cur lk) = (n', o) -> n_last_msg n' = n_last_msg n).
  { intros n cur n' o He S. cbn [node_step] in S. pose proof (f_equal fst S) as Hn. cbn [fst] in Hn. rewrite <- Hn.
    rewrite (cycle_eq pq vt c cur cur lk n He).
    destruct (working_post pq vt c Hpq cur cur n) as [_ (_ & _ & _ & _ & Hl & _)].
    destruct (working pq vt c cur cur n) as [nw ow]. cbn [fst concluded n_last_msg] in *. exact Hl. }
  assert (Hmsg : forall n t n' o, node_step pq vt c n (message "odom" t upd v cov th) = (n', o) ->
            sm_find (n_last_msg n) "gps" = None -> sm_find (n_last_msg n') "gps" = None).
  { intros n t n' o S Hnone. pose proof (f_equal fst S) as Hn. cbn [fst] in Hn. rewrite <- Hn. cbn [node_step message]. unfold sensorCallback.
    destruct (n_set_pose n >=? t); [exact Hnone|].
    assert (H1 : sm_find (n_last_msg (if sm_mem (n_last_msg n) "odom" then n else with_last_msg n (sm_set (n_last_msg n) "odom" t))) "gps" = None).
    { destruct (sm_mem (n_last_msg n) "odom"); [exact Hnone|]. cbn [n_last_msg with_last_msg]. rewrite sm_set_find. exact Hnone. }
    set (n0 := if sm_mem (n_last_msg n) "odom" then n else _) in *. clearbody n0.
    destruct (sm_find (n_last_msg n0) "odom") as [l|]; [|exact H1].
    destruct (l <=? t); [|exact H1]. cbv zeta. cbn -[sm_set]. rewrite sm_set_find. exact H1. }
  assert (Hctl : forall n u t n' o, node_step pq vt c n (EvControl (c_base c) u t) = (n', o) -> n_last_msg n' = n_last_msg n).
  { intros n u t n' o S. pose proof (f_equal fst S) as Hn. cbn [fst] in Hn. rewrite <- Hn. cbn [node_step]. unfold controlStampedCallback.
    rewrite String.eqb_refl. reflexivity. }
  assert (Hlm : sm_find (n_last_msg n8) "gps" = None).
  { rewrite (Hkeep _ _ _ _ (w_en _ _ _ _ _ _ _ _ _ W7) S8). apply (Hmsg _ _ _ _ S7). rewrite (Hctl _ _ _ _ _ S6).
    rewrite (Hkeep _ _ _ _ (w_en _ _ _ _ _ _ _ _ _ W4) S5). apply (Hmsg _ _ _ _ S4). rewrite (Hctl _ _ _ _ _ S3).
    rewrite (Hkeep _ _ _ _ (w_en _ _ _ _ _ _ _ _ _ W1) S2). apply (Hmsg _ _ _ _ S1). reflexivity. }
  destruct (view_message _ _ _ _ _ _ _ _ _ "gps" 4 upd v cov th W8) as (n9 & S9 & W9); [lia|right; exact Hlm|].
  rewrite (push_nil pq Hpq) in W9. set (m3 := mkMeas "gps" 4 v cov upd th u2 6) in *.
  assert (R9 : node_run pq vt c n9 [] = (n9, [])) by reflexivity.
  pose proof (run_cons _ _ _ _ _ _ _ S9 R9) as R8. pose proof (run_cons _ _ _ _ _ _ _ S8 R8) as R7.
  pose proof (run_cons _ _ _ _ _ _ _ S7 R7) as R6. pose proof (run_cons _ _ _ _ _ _ _ S6 R6) as R5.
  pose proof (run_cons _ _ _ _ _ _ _ S5 R5) as R4. pose proof (run_cons _ _ _ _ _ _ _ S4 R4) as R3.
  pose proof (run_cons _ _ _ _ _ _ _ S3 R3) as R2. pose proof (run_cons _ _ _ _ _ _ _ S2 R2) as R1.
  pose proof (run_cons _ _ _ _ _ _ _ S1 R1) as R0.
  assert (Inv : node_inv c 6 n9).
  { pose proof (run_inv pq vt c Hpq Hvt (lagged_control u1 u2 upd v cov th lk) 0 (node_init f ang ctl false 0) (init_inv c f ang ctl false 0 0 Hin)) as Hi.
    unfold lagged_control in Hi.
    rewrite R0 in Hi. cbn [fst] in Hi. apply Hi.
    unfold monotone_clock. cbn. repeat constructor; lia. }
  rewrite R0. cbn [fst snd].
  rewrite !fused_app, O2, O5, O8. split; [reflexivity|].
  destruct (node_step pq vt c n9 (EvCycle 7 7 lk)) as [n' o] eqn:Srun. cbn [fst snd]. cbn [node_step] in Srun.
  pose proof (w_sh _ _ _ _ _ _ _ _ _ W9) as Hsh. pose proof (w_mh _ _ _ _ _ _ _ _ _ W9) as Hmh.
  pose proof (w_queue _ _ _ _ _ _ _ _ _ W9) as Hq. pose proof (w_filter _ _ _ _ _ _ _ _ _ W9) as Hf.
  cbn [app] in Hsh, Hmh.
  destruct (cycle_replay 6 7 7 lk n9 m3 [] n' o m0 Inv Hsm Huc (w_en _ _ _ _ _ _ _ _ _ W9) (w_on _ _ _ _ _ _ _ _ _ W9)) as (s & Hs & Hrep).
  { rewrite Hsh. discriminate. }
  { rewrite Hq. apply (pop_single pq Hpq). }
  { rewrite Hf, P8. cbn. lia. }
  { exact Hpn. }
  { exact Srun. }
  cbv zeta in Hrep. destruct Hrep as (Hnew & Hperm & Hord & Hgt & Hlen & Hnth & Hfin).
  assert (Hs1 : fs_time s = 1).
  { destruct (Hnew (snapshot f1)) as [A B].
    - rewrite Hsh. left; reflexivity.
    - unfold snapshot. cbn [fs_time]. rewrite P1. cbn. lia.
    - unfold snapshot in A. cbn [fs_time] in A. rewrite P1 in A. cbn [m_time m3] in B. rewrite Hsh in Hs.
      destruct Hs as [<-|[<-|[<-|[]]]]; unfold snapshot in B |- *; cbn [fs_time] in B |- *; lia. }
  rewrite Hs1 in *. rewrite Hmh in *. cbn [filter m_time m0 m1 m2 m3 Z.leb Z.compare Pos.compare Pos.compare_cont andb List.length] in Hperm, Hnth, Hfin.
  rewrite Hq in Hperm. cbn [app] in Hperm.
  assert (Hqn : n_queue n' = []).
  { destruct (n_queue n') as [|x l] eqn:Hx; [reflexivity|]. exfalso. pose proof (Forall_inv Hgt) as Hlt. cbn in Hlt.
    assert (Hinx : In x [m3; m1; m2]) by (eapply Permutation_in; [exact Hperm|]; apply in_or_app; right; left; reflexivity).
    destruct Hinx as [<-|[<-|[<-|[]]]]; cbn in Hlt; lia. }
  rewrite Hqn, app_nil_r in Hperm.
  assert (Hfu : fused o = [m3; m1; m2]) by (apply sorted_perm_3; [exact Hord|exact Hperm|cbn; lia|cbn; lia]).
  rewrite Hfu in *. cbn [List.length] in *.
  split; [reflexivity|]. split; [|split].
  - destruct (controls o) as [|a [|b [|d [|e l]]]]; try discriminate.
    pose proof (Hnth 0%nat vzero ltac:(lia)) as N0. pose proof (Hnth 1%nat vzero ltac:(lia)) as N1. pose proof (Hnth 2%nat vzero ltac:(lia)) as N2.
    cbn in N0, N1, N2. subst. reflexivity.
  - pose proof (f_equal fst Srun) as Hn. cbn [fst] in Hn. rewrite <- Hn. rewrite (cycle_eq pq vt c 7 7 lk n9 (w_en _ _ _ _ _ _ _ _ _ W9)).
    destruct (working_post pq vt c Hpq 7 7 n9) as [_ (_ & _ & _ & _ & _ & _ & Hl & _)].
    destruct (working pq vt c 7 7 n9) as [nw ow]. cbn [fst concluded n_ctl] in *. rewrite Hl. apply (w_ctl _ _ _ _ _ _ _ _ _ W9).
  - rewrite Hfin by lia. reflexivity.
Qed.
End Scenario.
