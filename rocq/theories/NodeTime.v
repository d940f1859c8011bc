(** * Prediction intervals, published stamps, history window *)

From Coq Require Import ZArith List Permutation Sorting.Sorted Bool Lia String Arith.
From Verif Require Import Scalar Mat FilterBase Tf StrMap Diagnostics RosFilter SpecNode NodeProofs NodeInv NodeFacts.
Import ListNotations.
Local Open Scope Z_scope.

Section Time.
Context {K : Scalar} {E : Type}.
Variable pq : pqueue K.
Variable vt : vtbl K E.
Variable c : config K.
Hypothesis Hpq : pq_ok pq.
Hypothesis Hvt : time_neutral vt.

(** ** C32: intervals requested by the node *)
Lemma integrate_intervals N now n : node_inv c N n -> N <= now ->
  Forall (fun d => 0 <= d) (intervals (snd (integrateMeasurements pq vt c now n))).
Proof.
  intros H HN. rewrite (integrate_eq pq vt c Hpq).
  pose proof (catch_up_inv pq vt c Hpq Hvt N now n H HN) as Hc.
  destruct (catch_up_post pq vt c Hpq now n) as [_ Hfo]. apply fuse_only_obs in Hfo.
  destruct Hfo as (_ & _ & _ & _ & Hi).
  destruct (catch_up pq vt c now n) as [n1 o1]. cbn in *.
  destruct (fb_initialized (n_filter n1)) eqn:Hin; cbn [andb].
  2:{ cbn. rewrite Hi. constructor. }
  destruct (projects c now n); cbn; [|rewrite Hi; constructor].
  rewrite intervals_app, Hi. cbn. constructor; [|constructor].
  pose proof (ni_clock _ _ _ Hc Hin). lia.
Qed.

Lemma step_intervals N n e : node_inv c N n -> clock_ok N e ->
  Forall (fun d => 0 <= d) (intervals (snd (node_step pq vt c n e))).
Proof.
  intros H Hc. destruct e as [warn topic stamp upd thresh prep|frame ctl stamp|on| | |stamp prep now| |cur later lookup].
  8:{ cbn [node_step]. destruct (n_enabled n) eqn:He.
      2:{ rewrite (cycle_disabled pq vt c _ _ _ _ He). constructor. }
      destruct (cycle_obs pq vt c cur later lookup n He) as (_ & _ & O3 & _). cbv zeta in O3. rewrite O3.
      unfold working. destruct (n_toggled n); [|constructor].
      assert (HN : N <= cur).
      { unfold clock_ok in Hc. cbn in Hc. inversion Hc as [|x l Hs Hf]; subst. inversion Hf; subst. assumption. }
      pose proof (integrate_intervals N cur n H HN) as Hi.
      destruct (integrateMeasurements pq vt c cur n) as [n0 o]. exact Hi. }
  all: match goal with |- context [node_step _ _ _ _ ?e] =>
         destruct (other_quiet pq vt c Hpq n e I) as (_ & _ & Hq); cbv zeta in Hq; rewrite Hq; constructor end.
Qed.

Lemma run_intervals es : forall N n, node_inv c N n -> monotone_clock N es ->
  Forall (fun d => 0 <= d) (intervals (snd (node_run pq vt c n es))).
Proof.
  induction es as [|e es IH]; intros N n H Hm; [constructor|].
  apply monotone_cons in Hm. destruct Hm as [Hc Hm].
  pose proof (step_inv pq vt c Hpq Hvt N n e H Hc) as Hs.
  pose proof (step_intervals N n e H Hc) as Hi. cbn [node_run].
  destruct (node_step pq vt c n e) as [n1 o1]. cbn [fst snd] in *.
  specialize (IH _ n1 Hs Hm). destruct (node_run pq vt c n1 es) as [n2 o2]. cbn [fst snd] in *.
  rewrite intervals_app. apply Forall_app; split; assumption.
Qed.

(** subclass data under non-negative predictions *)
Variable Pext : E -> Prop.
Hypothesis Pext_predict : forall s r d, 0 <= d -> Pext (fb_ext s) -> Pext (fb_ext (v_predict vt s r d)).
Hypothesis Pext_correct : forall s m, Pext (fb_ext s) -> Pext (fb_ext (v_correct vt s m)).

Lemma process_ext s m : Pext (fb_ext s) -> Pext (fb_ext (processMeasurement vt s m)).
Proof.
  intros H. unfold processMeasurement. destruct (fb_initialized s); [|exact H].
  rewrite Z.gtb_ltb. destruct (Z.ltb_spec 0 (m_time m - fb_last_time s)).
  - assert (H1 : Pext (fb_ext (v_predict vt s (m_time m) (m_time m - fb_last_time s)))) by (apply Pext_predict; [lia|exact H]).
    destruct (m_time m - fb_last_time s >=? 0); cbn; apply Pext_correct; exact H1.
  - destruct (m_time m - fb_last_time s >=? 0); cbn; apply Pext_correct; exact H.
Qed.

Lemma loop_ext fuel : forall now restored n n' o,
  Pext (fb_ext (n_filter n)) -> integrate_loop pq vt c fuel now restored n = (n', o) ->
  Pext (fb_ext (n_filter n')).
Proof.
  induction fuel as [|fuel IH]; intros now restored n n' o H Hrun.
  - cbn in Hrun. injection Hrun as <- _. exact H.
  - rewrite loop_step in Hrun. destruct (pq_pop pq (n_queue n)) as [[m rest]|].
    2:{ injection Hrun as <- _. exact H. }
    destruct (now <? m_time m). { injection Hrun as <- _. exact H. }
    destruct (integrate_loop pq vt c fuel now (loop_count c restored) (loop_node pq vt c restored n m rest))
      as [n3 o3] eqn:Hrec. injection Hrun as <- _.
    eapply IH; [|exact Hrec]. cbn. apply process_ext. unfold loop_filter.
    destruct (loop_control c restored); exact H.
Qed.

Lemma revert_ext (n : node K E) : fb_ext (n_filter (snd (revert_if_lagged pq c n))) = fb_ext (n_filter n).
Proof.
  unfold revert_if_lagged. destruct (pq_pop pq (n_queue n)) as [[first r]|]; [|reflexivity].
  destruct (c_smooth c && _)%bool; [|reflexivity].
  pose proof (revert_cases pq Hpq n (m_time first - 1)) as Hr.
  destruct (revertTo pq n (m_time first - 1)) as [ok n0]. cbn [snd].
  destruct Hr as [(_ & _ & ->)|[(pre & s & post & _ & _ & _ & _ & Hrs)|(s & post & _ & _ & _ & Hrs)]].
  - reflexivity.
  - destruct Hrs as (-> & _). reflexivity.
  - destruct Hrs as (-> & _). reflexivity.
Qed.

Lemma integrate_ext N now n : node_inv c N n -> N <= now -> Pext (fb_ext (n_filter n)) ->
  Pext (fb_ext (n_filter (fst (integrateMeasurements pq vt c now n)))).
Proof.
  intros H HN HP. rewrite (integrate_eq pq vt c Hpq).
  pose proof (catch_up_inv pq vt c Hpq Hvt N now n H HN) as Hc.
  assert (H1 : Pext (fb_ext (n_filter (fst (catch_up pq vt c now n))))).
  { unfold catch_up. destruct (n_queue n); [exact HP|].
    pose proof (revert_ext n) as Hr. destruct (revert_if_lagged pq c n) as [restored n0]. cbn in Hr.
    destruct (integrate_loop pq vt c (List.length (n_queue n0)) now restored n0) as [n1 o1] eqn:Hl.
    cbn. eapply loop_ext; [|exact Hl]. rewrite Hr. exact HP. }
  destruct (catch_up pq vt c now n) as [n1 o1]. cbn in *.
  destruct (fb_initialized (n_filter n1)) eqn:Hin; [|exact H1].
  destruct (projects c now n); [|exact H1]. cbn. apply Pext_predict; [|exact H1].
  pose proof (ni_clock _ _ _ Hc Hin). lia.
Qed.

Lemma step_ext N n e : node_inv c N n -> clock_ok N e -> Pext (fb_ext (n_filter n)) ->
  Pext (fb_ext (n_filter (fst (node_step pq vt c n e)))).
Proof.
  intros H Hc HP. destruct e as [warn topic stamp upd thresh prep|frame ctl stamp|on| | |stamp prep now| |cur later lookup];
    cbn [node_step].
  - destruct (sensor_fields pq warn topic stamp upd thresh prep n) as (A & _). cbv zeta in A. rewrite A. exact HP.
  - cbn. unfold controlStampedCallback. destruct (_ || _)%bool; exact HP.
  - unfold toggleFilterProcessingCallback. destruct (Bool.eqb on (n_toggled n)); exact HP.
  - unfold enableFilterSrvCallback. cbn. destruct (n_enabled n); exact HP.
  - exact HP.
  - exact HP.
  - exact HP.
  - destruct (n_enabled n) eqn:He.
    2:{ rewrite (cycle_disabled pq vt c _ _ _ _ He). exact HP. }
    destruct (cycle_obs pq vt c cur later lookup n He) as (_ & _ & _ & _ & _ & O6). cbv zeta in O6. rewrite O6.
    unfold working. destruct (n_toggled n).
    + assert (HN : N <= cur).
      { unfold clock_ok in Hc. cbn in Hc. inversion Hc as [|x l Hs Hf]; subst. inversion Hf; subst. assumption. }
      pose proof (integrate_ext N cur n H HN HP) as Hi.
      destruct (integrateMeasurements pq vt c cur n) as [n0 o]. cbn in *.
      destruct (diff_fields cur n0) as (-> & _). exact Hi.
    + cbn. destruct (fb_initialized (n_filter n)); exact HP.
Qed.

Lemma run_ext es : forall N n, node_inv c N n -> monotone_clock N es -> Pext (fb_ext (n_filter n)) ->
  Pext (fb_ext (n_filter (fst (node_run pq vt c n es)))).
Proof.
  induction es as [|e es IH]; intros N n H Hm HP; [exact HP|].
  apply monotone_cons in Hm. destruct Hm as [Hc Hm].
  pose proof (step_inv pq vt c Hpq Hvt N n e H Hc) as Hs.
  pose proof (step_ext N n e H Hc HP) as Hi. cbn [node_run].
  destruct (node_step pq vt c n e) as [n1 o1]. cbn [fst snd] in *.
  specialize (IH _ n1 Hs Hm Hi). destruct (node_run pq vt c n1 es) as [n2 o2]. exact IH.
Qed.
End Time.

Section Recorder.
Context {K : Scalar} {E : Type}.
Variable pq : pqueue K.
Variable vt : vtbl K E.
Variable c : config K.
Hypothesis Hpq : pq_ok pq.
Hypothesis Hvt : time_neutral vt.

Lemma recording_neutral : time_neutral (recording vt).
Proof.
  destruct Hvt as [Hp Hc]. split.
  - intros s r d. cbn. destruct (Hp (without_log s) r d) as [A B]. rewrite A, B. split; reflexivity.
  - intros s m. cbn. destruct (Hc (without_log s) m) as [A B]. rewrite A, B. split; reflexivity.
Qed.

Lemma never_backwards es n N :
  node_inv c N n -> Forall (fun d => 0 <= d) (logged n) -> monotone_clock N es ->
  Forall (fun d => 0 <= d) (logged (fst (node_run pq (recording vt) c n es))).
Proof.
  intros Hi Hl Hm.
  apply (run_ext pq (recording vt) c Hpq recording_neutral (fun x => Forall (fun d => 0 <= d) (fst x))) with (N := N); try assumption.
  - intros s r d Hd Hs. cbn. apply Forall_app. split; [exact Hs|]. repeat constructor. exact Hd.
  - intros s m Hs. exact Hs.
Qed.
End Recorder.

Section Published.
Context {K : Scalar} {E : Type}.
Variable pq : pqueue K.
Variable vt : vtbl K E.
Variable c : config K.
Hypothesis Hpq : pq_ok pq.
Hypothesis Hvt : time_neutral vt.
Hypothesis Hsm : c_smooth c = false.

(** ** C36: the last measurement time never decreases without smoothing *)
Definition later_filter (f f' : fb K E) : Prop :=
  fb_initialized f = true -> fb_initialized f' = true /\ fb_last_time f <= fb_last_time f'.

Lemma loop_later fuel : forall now restored n n' o,
  integrate_loop pq vt c fuel now restored n = (n', o) -> later_filter (n_filter n) (n_filter n').
Proof.
  induction fuel as [|fuel IH]; intros now restored n n' o Hrun Hi.
  - cbn in Hrun. injection Hrun as <- _. split; [exact Hi|lia].
  - rewrite loop_step in Hrun. destruct (pq_pop pq (n_queue n)) as [[m rest]|].
    2:{ injection Hrun as <- _. split; [exact Hi|lia]. }
    destruct (now <? m_time m). { injection Hrun as <- _. split; [exact Hi|lia]. }
    destruct (integrate_loop pq vt c fuel now (loop_count c restored) (loop_node pq vt c restored n m rest))
      as [n3 o3] eqn:Hrec. injection Hrun as <- _.
    destruct (process_time vt Hvt (loop_filter c restored (n_filter n) m) m) as [T1 T2].
    destruct (loop_filter_time (E:=E) c restored (n_filter n) m) as [F1 F2]. rewrite F1, F2, Hi in T1.
    destruct (IH _ _ _ _ _ Hrec) as [I1 I2]; [exact T2|]. split; [exact I1|].
    cbn in I2. lia.
Qed.

Lemma catch_up_later now n : later_filter (n_filter n) (n_filter (fst (catch_up pq vt c now n))).
Proof.
  intros Hi. unfold catch_up. destruct (n_queue n) as [|m0 q0]; [split; [exact Hi|cbn; lia]|].
  unfold revert_if_lagged. rewrite Hsm. cbn [andb].
  assert (Hx : (match pq_pop pq (n_queue n) with Some (first, _) => (0, n) | None => (0, n) end) = (0, n))
    by (destruct (pq_pop pq (n_queue n)) as [[? ?]|]; reflexivity).
  rewrite Hx. clear Hx. destruct (integrate_loop pq vt c (List.length (n_queue n)) now 0 n) as [n1 o1] eqn:Hl.
  cbn. exact (loop_later _ _ _ _ _ _ Hl Hi).
Qed.

Lemma working_later N cur later n : node_inv c N n -> N <= cur -> cur <= later ->
  later_filter (n_filter n) (n_filter (fst (working pq vt c cur later n))).
Proof.
  intros H H1 H2 Hi. unfold working. destruct (n_toggled n).
  - rewrite (integrate_eq pq vt c Hpq). pose proof (catch_up_later cur n Hi) as [C1 C2].
    pose proof (catch_up_inv pq vt c Hpq Hvt N cur n H H1) as Hc.
    destruct (catch_up pq vt c cur n) as [n1 o1]. cbn in C1, C2, Hc. rewrite C1. cbn [andb].
    destruct (projects c cur n); cbn; destruct (diff_fields cur n1) as (D1 & _).
    + destruct (diff_fields cur (project vt cur n1)) as (D2 & _). rewrite D2.
      destruct (project_time vt Hvt cur n1) as [T1 T2]. rewrite T1, T2. split; [exact C1|].
      pose proof (ni_clock _ _ _ Hc C1). lia.
    + rewrite D1. split; assumption.
  - cbn. rewrite Hi. cbn. split; [exact Hi|]. pose proof (ni_clock _ _ _ H Hi). lia.
Qed.

Lemma step_later N n e : node_inv c N n -> clock_ok N e -> no_hard_reset e ->
  later_filter (n_filter n) (n_filter (fst (node_step pq vt c n e))).
Proof.
  intros H Hc Hr Hi. destruct e as [warn topic stamp upd thresh prep|frame ctl stamp|on| | |stamp prep now| |cur later lookup];
    cbn [node_step].
  - destruct (sensor_fields pq warn topic stamp upd thresh prep n) as (A & _). cbv zeta in A. rewrite A. split; [exact Hi|lia].
  - cbn. unfold controlStampedCallback. destruct (_ || _)%bool; (split; [exact Hi|cbn; lia]).
  - unfold toggleFilterProcessingCallback. destruct (Bool.eqb on (n_toggled n)); (split; [exact Hi|cbn; lia]).
  - unfold enableFilterSrvCallback. cbn. destruct (n_enabled n); (split; [exact Hi|cbn; lia]).
  - destruct Hr.
  - cbn. split; [exact Hi|]. pose proof (ni_clock _ _ _ H Hi).
    unfold clock_ok in Hc. cbn in Hc. inversion Hc as [|x l Hs Hf]; subst. inversion Hf; subst. lia.
  - cbn. split; [exact Hi|lia].
  - destruct (n_enabled n) eqn:He.
    2:{ rewrite (cycle_disabled pq vt c _ _ _ _ He). split; [exact Hi|cbn; lia]. }
    destruct (cycle_obs pq vt c cur later lookup n He) as (_ & _ & _ & _ & _ & O6). cbv zeta in O6. rewrite O6.
    unfold clock_ok in Hc. cbn in Hc.
    inversion Hc as [|x l Hs Hf]; subst. inversion Hs as [|x' l' Hs' Hf']; subst.
    inversion Hf; subst. inversion Hf'; subst. exact (working_later N cur later n H ltac:(assumption) ltac:(assumption) Hi).
Qed.

Definition pub_ok (n : node K E) : Prop :=
  fb_initialized (n_filter n) = true -> n_last_pub n <= fb_last_time (n_filter n).

Hypothesis Hpermit : c_permit c = false.

Lemma step_pub N n e : node_inv c N n -> clock_ok N e -> no_hard_reset e -> pub_ok n ->
  let r := node_step pq vt c n e in
  pub_ok (fst r) /\
  (fb_initialized (n_filter n) = true -> n_last_pub n <= n_last_pub (fst r)) /\
  (odoms (snd r) = [] \/
   exists m, odoms (snd r) = [m] /\ n_last_pub n < o_stamp m /\ o_stamp m <= n_last_pub (fst r) /\
             fb_initialized (n_filter (fst r)) = true).
Proof.
  intros H Hc Hr Hp. cbv zeta.
  destruct e as [warn topic stamp upd thresh prep|frame ctl stamp|on| | |stamp prep now| |cur later lookup];
    cbn [node_step]; try (destruct Hr; fail).
  - destruct (sensor_fields pq warn topic stamp upd thresh prep n) as (A & _ & _ & _ & _ & _ & B).
    destruct (sensor_queue pq Hpq warn topic stamp upd thresh prep n) as (_ & _ & Q3 & _).
    cbv zeta in *. unfold pub_ok. rewrite A, B, Q3. split; [exact Hp|]. split; [lia|left; reflexivity].
  - cbn. unfold controlStampedCallback, pub_ok. destruct (_ || _)%bool; cbn; (split; [exact Hp|split; [lia|left; reflexivity]]).
  - unfold toggleFilterProcessingCallback, pub_ok. destruct (Bool.eqb on (n_toggled n)); cbn; (split; [exact Hp|split; [lia|left; reflexivity]]).
  - unfold enableFilterSrvCallback, pub_ok. destruct (n_enabled n); cbn; (split; [exact Hp|split; [lia|left; reflexivity]]).
  - unfold pub_ok. cbn. split; [|split; [lia|left; reflexivity]]. intros Hi. specialize (Hp Hi).
    pose proof (ni_clock _ _ _ H Hi).
    unfold clock_ok in Hc. cbn in Hc. inversion Hc as [|x l Hs Hf]; subst. inversion Hf; subst. lia.
  - unfold pub_ok. cbn. split; [exact Hp|split; [lia|left; reflexivity]].
  - pose proof (step_later N n (EvCycle cur later lookup) H Hc I) as Hl. cbn [node_step] in Hl.
    destruct (periodicUpdate pq vt c cur later lookup n) as [n' o] eqn:Hrun. cbn [fst snd] in *.
    destruct (cycle_publishes pq vt c Hpq cur later lookup n n' o Hrun) as (P1 & P2 & P3).
    destruct (n_enabled n) eqn:He.
    2:{ rewrite (cycle_disabled pq vt c _ _ _ _ He) in Hrun. injection Hrun as <- <-.
        split; [exact Hp|]. split; [lia|left; reflexivity]. }
    destruct (fb_initialized (n_filter n')) eqn:Hi'.
    + specialize (P2 eq_refl eq_refl). unfold pub_ok. rewrite P2.
      split; [intros _; lia|]. split.
      { intros Hi. specialize (Hp Hi). destruct (Hl Hi) as [_ Hl']. lia. }
      rewrite P1, Hpermit. cbn [andb orb]. destruct (Z.ltb_spec (n_last_pub n) (fb_last_time (n_filter n'))) as [Hlt|Hge].
      * right. unfold getFilteredOdometryMessage. rewrite Hi'. eexists. split; [reflexivity|]. cbn. repeat split; lia.
      * left; reflexivity.
    + specialize (P3 eq_refl eq_refl). unfold pub_ok. rewrite Hi', P1. cbn. split; [discriminate|].
      split; [rewrite P3; lia|left; reflexivity].
Qed.

(** Stamps strictly increase, and exceed what was published before. *)
Lemma run_stamps es : forall N n, node_inv c N n -> monotone_clock N es -> Forall no_hard_reset es -> pub_ok n ->
  StronglySorted Z.lt (map o_stamp (odoms (snd (node_run pq vt c n es)))) /\
  (fb_initialized (n_filter n) = true ->
   Forall (fun t => n_last_pub n < t) (map o_stamp (odoms (snd (node_run pq vt c n es))))).
Proof.
  induction es as [|e es IH]; intros N n H Hm Hr Hp; [split; [constructor|intros _; constructor]|].
  apply monotone_cons in Hm. destruct Hm as [Hc Hm]. inversion Hr as [|x l Hx Hl]; subst.
  pose proof (step_inv pq vt c Hpq Hvt N n e H Hc) as Hs.
  pose proof (step_later N n e H Hc Hx) as Hlat.
  destruct (step_pub N n e H Hc Hx Hp) as (S1 & S2 & S3). cbn [node_run]. cbv zeta in *.
  destruct (node_step pq vt c n e) as [n1 o1]. cbn [fst snd] in *.
  destruct (IH _ n1 Hs Hm Hl S1) as [I1 I2]. destruct (node_run pq vt c n1 es) as [n2 o2]. cbn [fst snd] in *.
  rewrite odoms_app, map_app. destruct S3 as [->|(m & -> & M1 & M2 & M3)].
  - cbn. split; [exact I1|]. intros Hi. specialize (S2 Hi). destruct (Hlat Hi) as [Hi1 _].
    eapply Forall_impl; [|exact (I2 Hi1)]. cbn. intros a Ha. lia.
  - cbn. specialize (I2 M3). split.
    + constructor; [exact I1|]. eapply Forall_impl; [|exact I2]. cbn. intros a Ha. lia.
    + intros Hi. constructor; [exact M1|]. eapply Forall_impl; [|exact I2]. cbn. intros a Ha. lia.
Qed.
End Published.

(** ** C31: history window *)
Section Window.
Context {K : Scalar} {E : Type}.
Variable pq : pqueue K.
Variable vt : vtbl K E.
Variable c : config K.
Hypothesis Hpq : pq_ok pq.
Hypothesis Hvt : time_neutral vt.

Lemma loop_history_indep h fuel : forall now restored n,
  integrate_loop pq vt (with_history c h) fuel now restored n = integrate_loop pq vt c fuel now restored n.
Proof.
  induction fuel as [|fuel IH]; intros now restored n; [reflexivity|].
  rewrite !loop_step. destruct (pq_pop pq (n_queue n)) as [[m rest]|]; [|reflexivity].
  destruct (now <? m_time m); [reflexivity|].
  rewrite IH. reflexivity.
Qed.

Lemma working_history_indep h cur later n :
  working pq vt (with_history c h) cur later n = working pq vt c cur later n.
Proof.
  unfold working. destruct (n_toggled n); [|reflexivity].
  rewrite !(integrate_eq pq vt _ Hpq). unfold catch_up.
  change (projects (with_history c h) cur n) with (projects c cur n).
  change (revert_if_lagged pq (with_history c h) n) with (revert_if_lagged pq c n).
  destruct (n_queue n); [reflexivity|]. destruct (revert_if_lagged pq c n) as [restored n0].
  rewrite loop_history_indep. reflexivity.
Qed.

Lemma cycle_window N cur later lookup n n' o : node_inv c N n -> N <= cur -> cur <= later ->
  n_enabled n = true -> c_smooth c = true ->
  periodicUpdate pq vt c cur later lookup n = (n', o) ->
  let cutoff := fb_last_time (n_filter n') - c_history c in
  Forall (fun m => cutoff <= m_time m) (n_meas_hist n') /\
  Forall (fun s => cutoff <= fs_time s) (n_state_hist n') /\
  forall h, c_history c <= h ->
    let n'' := fst (periodicUpdate pq vt (with_history c h) cur later lookup n) in
    n_meas_hist n' = filter (fun m => cutoff <=? m_time m) (n_meas_hist n'') /\
    n_state_hist n' = filter (fun s => cutoff <=? fs_time s) (n_state_hist n'').
Proof.
  intros Hinv H1 H2 He Hsm Hrun cutoff.
  pose proof (working_inv pq vt c Hpq Hvt N cur later n Hinv H1 H2) as Hw.
  rewrite (cycle_eq pq vt c cur later lookup n He) in Hrun.
  destruct (working pq vt c cur later n) as [n1 o1] eqn:Ew. cbn in Hw. injection Hrun as <- _.
  unfold cutoff. clear cutoff. cbn [concluded n_filter n_meas_hist n_state_hist]. rewrite Hsm.
  set (t := fb_last_time (n_filter n1) - c_history c).
  rewrite (pop_front_sorted m_time t _ (ni_msort _ _ _ Hw)), (pop_front_sorted fs_time t _ (ni_ssort _ _ _ Hw)).
  assert (Hfil : forall (A : Type) (key : A -> Z) u l, u <= t ->
     filter (fun x => t <=? key x) l = filter (fun x => t <=? key x) (filter (fun x => u <=? key x) l)).
  { intros A key u l Hu. induction l as [|x l IH]; [reflexivity|]. cbn.
    destruct (Z.leb_spec u (key x)); cbn; destruct (Z.leb_spec t (key x)); try lia; rewrite IH; reflexivity. }
  split; [apply Forall_forall; intros x Hx; apply filter_In in Hx; destruct Hx as [_ Hx]; apply Z.leb_le; exact Hx|].
  split; [apply Forall_forall; intros x Hx; apply filter_In in Hx; destruct Hx as [_ Hx]; apply Z.leb_le; exact Hx|].
  intros h Hh. cbv zeta.
  rewrite (cycle_eq pq vt (with_history c h) cur later lookup n He), working_history_indep, Ew.
  cbn [fst concluded n_meas_hist n_state_hist with_history c_smooth c_history]. rewrite Hsm.
  rewrite (pop_front_sorted m_time _ _ (ni_msort _ _ _ Hw)), (pop_front_sorted fs_time _ _ (ni_ssort _ _ _ Hw)).
  split; apply Hfil; unfold t; lia.
Qed.
End Window.
