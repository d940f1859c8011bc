(** * Proofs about the supervision of the update rate (C109) *)

From Coq Require Import ZArith Reals Lra Lia List Bool.
From Verif Require Import Scalar FilterBase FilterOps Diagnostics RosFilter Supervise SpecNode SpecOutput SpecSupervise
  RBridge NodeProofs NodeFacts OutputProofs ConversionsProofs.
Import ListNotations.

(** ** The monitor *)
Lemma ticks_app a b : ticks (a ++ b) = (ticks a + ticks b)%nat.
Proof. unfold ticks. rewrite filter_app, app_length. reflexivity. Qed.
Lemma checks_app a b : checks (a ++ b) = (checks a + checks b)%nat.
Proof. unfold checks. rewrite filter_app, app_length. reflexivity. Qed.

Section Monitor.
Context {K : Scalar}.
Variable f : K.

Lemma monitor_app a : forall q b,
  monitor f q (a ++ b) =
  (fst (monitor f q a) ++ fst (monitor f (snd (monitor f q a)) b), snd (monitor f (snd (monitor f q a)) b)).
Proof.
  induction a as [|[|now] a IH]; intros q b; cbn [app monitor fst snd].
  - destruct (monitor f q b); reflexivity.
  - apply IH.
  - destruct (freq_run f now q) as [v1 q1]. rewrite IH. destruct (monitor f q1 a) as [v2 q2]. cbn [fst snd].
    rewrite app_assoc. reflexivity.
Qed.

(** The queue of marks: those of the start and of the checks so far. *)
Fixpoint marks (n : Z) (l : list act) : list (Z * Z) :=
  match l with
  | [] => []
  | Tick :: r => marks (n + 1) r
  | Check now :: r => (n, now) :: marks n r
  end.
Lemma marks_app a : forall n b, marks n (a ++ b) = marks n a ++ marks (n + Z.of_nat (ticks a)) b.
Proof.
  induction a as [|[|now] a IH]; intros n b.
  - cbn. rewrite Z.add_0_r. reflexivity.
  - cbn [app marks]. rewrite IH. replace (ticks (Tick :: a)) with (S (ticks a)) by reflexivity. do 2 f_equal. lia.
  - cbn [app marks]. rewrite IH. reflexivity.
Qed.
Lemma marks_length l : forall n, length (marks n l) = checks l.
Proof. induction l as [|[|now] l IH]; intros n; cbn [marks]; [reflexivity|apply IH|]. cbn [length]. rewrite IH. reflexivity. Qed.

Lemma skipn_snoc {A} k (l : list A) x : (k <= length l)%nat -> skipn k (l ++ [x]) = skipn k l ++ [x].
Proof. intros H. rewrite skipn_app. replace (k - length l)%nat with 0%nat by lia. reflexivity. Qed.

Lemma monitor_state l : forall q, fq_marks q <> [] ->
  fq_count (snd (monitor f q l)) = (fq_count q + Z.of_nat (ticks l))%Z /\
  fq_marks (snd (monitor f q l)) = skipn (checks l) (fq_marks q ++ marks (fq_count q) l).
Proof.
  induction l as [|[|now] l IH]; intros q Hq; cbn [monitor marks].
  - cbn. rewrite Z.add_0_r, app_nil_r. split; reflexivity.
  - destruct (IH (freq_tick q) Hq) as [A B]. rewrite A, B. cbn [freq_tick fq_count fq_marks].
    replace (ticks (Tick :: l)) with (S (ticks l)) by reflexivity. split; [lia|reflexivity].
  - unfold freq_run. destruct (fq_marks q) as [|[s t] r] eqn:Em; [contradiction|].
    specialize (IH (mkFreq (fq_count q) (r ++ [(fq_count q, now)]))).
    cbn [fq_count fq_marks] in IH. destruct IH as [A B]; [destruct r; discriminate|].
    destruct (monitor f _ l) as [v q2]. cbn [snd] in *. rewrite A, B. split; [reflexivity|].
    replace (checks (Check now :: l)) with (S (checks l)) by reflexivity. cbn [app skipn]. rewrite <- app_assoc. reflexivity.
Qed.

Lemma last_verdict q l now : fq_marks q <> [] ->
  forall s t r, skipn (checks l) (fq_marks q ++ marks (fq_count q) l) = (s, t) :: r ->
  last (fst (monitor f q (l ++ [Check now]))) Met = freq_judge f (fq_count q + Z.of_nat (ticks l) - s) (now - t).
Proof.
  intros Hq s t r H. rewrite monitor_app. cbn [fst]. destruct (monitor_state l q Hq) as [A B]. rewrite H in B.
  cbn [monitor]. unfold freq_run. rewrite A, B. cbn [fst app]. apply last_last.
Qed.

Lemma window_full t0 a t b now : checks b = 9%nat ->
  last (fst (monitor f (freq_init t0) (a ++ Check t :: b ++ [Check now]))) Met = freq_judge f (Z.of_nat (ticks b)) (now - t).
Proof.
  intros Hb. change (a ++ Check t :: b ++ [Check now]) with (a ++ (Check t :: b) ++ [Check now]). rewrite app_assoc.
  set (m1 := Z.of_nat (ticks a)).
  assert (E : exists r, skipn (checks (a ++ Check t :: b)) (fq_marks (freq_init t0) ++ marks 0 (a ++ Check t :: b)) = (m1, t) :: r).
  { rewrite marks_app. cbn [marks]. rewrite Z.add_0_l. fold m1.
    exists (marks m1 b). rewrite checks_app. replace (checks (Check t :: b)) with 10%nat by (unfold checks in *; cbn; rewrite Hb; reflexivity).
    rewrite app_assoc.
    replace (checks a + 10)%nat with (length (fq_marks (freq_init t0) ++ marks 0 a) + 0)%nat
      by (rewrite app_length, marks_length; cbn; lia).
    rewrite skipn_app, skipn_all2 by lia.
    replace (_ + 0 - _)%nat with 0%nat by lia. reflexivity. }
  destruct E as [r E]. erewrite last_verdict; [|discriminate|exact E]. cbn [freq_init fq_count]. rewrite ticks_app.
  replace (ticks (Check t :: b)) with (ticks b) by reflexivity. f_equal. unfold m1. lia.
Qed.

Lemma window_short t0 a now : (checks a <= 9)%nat ->
  last (fst (monitor f (freq_init t0) (a ++ [Check now]))) Met = freq_judge f (Z.of_nat (ticks a)) (now - t0).
Proof.
  intros Ha.
  assert (E : exists r, skipn (checks a) (fq_marks (freq_init t0) ++ marks 0 a) = (0, t0)%Z :: r).
  { rewrite skipn_app. cbn [freq_init fq_marks]. exists (repeat (0%Z, t0) (9 - checks a) ++ marks 0 a).
    rewrite repeat_length. replace (checks a - 10)%nat with 0%nat by lia. cbn [skipn].
    remember (checks a) as k eqn:Ek. clear Ek. do 10 (destruct k as [|k]; [reflexivity|]). lia. }
  destruct E as [r E]. erewrite last_verdict; [|discriminate|exact E]. cbn [freq_init fq_count]. f_equal. lia.
Qed.

Lemma monitor_count l : forall q, (length (fq_marks q) <> 0)%nat -> length (fst (monitor f q l)) = checks l.
Proof.
  induction l as [|[|now] l IH]; intros q Hq; cbn [monitor]; [reflexivity|apply (IH (freq_tick q) Hq)|].
  unfold freq_run. destruct (fq_marks q) as [|[s t] r]; [contradiction|].
  specialize (IH (mkFreq (fq_count q) (r ++ [(fq_count q, now)]))).
  destruct (monitor f _ l) as [v q2]. cbn [fst] in *. cbn [app length].
  rewrite IH by (cbn [fq_marks]; rewrite app_length; cbn; lia). reflexivity.
Qed.
End Monitor.

(** ** The node *)
Section Node.
Context {K : Scalar} {E : Type}.
Variables (pq : pqueue K) (vt : vtbl K E) (c : config K) (f : K).
Hypothesis Hpq : pq_ok pq.

Lemma measured_working cur later n : measured pq vt c cur later n = fst (working pq vt c cur later n).
Proof.
  unfold measured, working, clearMeasurementQueue, setLastMeasurementTime. destruct (n_toggled n).
  - destruct (integrateMeasurements pq vt c cur n); reflexivity.
  - cbn. destruct (fb_initialized (n_filter n)); reflexivity.
Qed.

Lemma no_report (o : list (output K E)) : reports o = [] -> existsb is_report o = false.
Proof. induction o as [|[] o IH]; cbn; try exact IH; [reflexivity|discriminate]. Qed.
Lemma report_app (a b : list (output K E)) : existsb is_report (a ++ b) = (existsb is_report a || existsb is_report b)%bool.
Proof. apply existsb_app. Qed.

Lemma visible_silent n1 lookup : existsb (is_report (E := E)) (visible c n1 lookup) = false.
Proof.
  unfold visible. rewrite report_app. apply orb_false_iff. split.
  - destruct (getFilteredOdometryMessage c n1) as [o|]; [|reflexivity]. rewrite !report_app. apply orb_false_iff. split.
    + destruct (validateFilterOutput o); reflexivity.
    + apply orb_false_iff. split.
      * destruct (c_publish_tf c && negb (corrected c n1))%bool; [|reflexivity]. unfold broadcast.
        destruct (String.eqb _ _); [reflexivity|]. destruct (String.eqb _ _); [destruct lookup|]; reflexivity.
      * destruct (corrected c n1); reflexivity.
  - destruct (negb (corrected c n1) && c_publish_acc c)%bool; [|reflexivity].
    destruct (getFilteredAccelMessage c n1); reflexivity.
Qed.

Lemma cycle_seen now n q cur later lookup :
  supervise pq vt c f now n (EvCycle cur later lookup) q = monitor f q (seen_of pq vt c now n (EvCycle cur later lookup)).
Proof.
  cbn [supervise]. unfold seen_of. cbn [node_step]. unfold cycle_ticks, cycle_forces. rewrite !measured_working.
  destruct (n_enabled n) eqn:He.
  2:{ rewrite (cycle_disabled pq vt c cur later lookup n He). rewrite andb_false_r. reflexivity. }
  rewrite (cycle_eq pq vt c cur later lookup n He).
  pose proof (working_trace pq vt c Hpq cur later n) as Hw.
  destruct (working pq vt c cur later n) as [n1 o1]. cbn [fst snd] in *.
  rewrite !report_app, visible_silent, (no_report o1) by (apply reports_inner, Hw). cbn [orb].
  unfold diag_due. rewrite Z.geb_leb. cbn [concluded n_filter]. cbn [andb].
  assert (G : match getFilteredOdometryMessage c n1 with Some _ => c_print_diag c | None => false end
    = (c_print_diag c && true && fb_initialized (n_filter n1))%bool).
  { unfold getFilteredOdometryMessage. destruct (fb_initialized (n_filter n1)), (c_print_diag c); reflexivity. }
  rewrite G. clear G.
  destruct (c_print_diag c && true && fb_initialized (n_filter n1))%bool;
    destruct (c_print_diag c && ((c_diag_period c <=? cur - n_last_diag n1)%Z || (cur - n_last_diag n1 <? 0)%Z))%bool;
    cbn [existsb is_report orb app monitor]; try reflexivity;
    match goal with |- ?x = (let '(_, _) := ?x in _) => destruct x end; rewrite app_nil_r; reflexivity.
Qed.

Lemma event_seen now n q ev : supervise pq vt c f now n ev q = monitor f q (seen_of pq vt c now n ev).
Proof.
  destruct ev as [warn topic stamp upd thresh prep|frame ctl stamp|on| | |stamp prep nw| |cur later lookup];
    try apply cycle_seen; cbn [supervise]; unfold seen_of; cbn [node_step].
  - assert (H : existsb is_report (snd (sensorCallback pq warn topic stamp upd thresh prep n)) = false).
    { destruct (existsb is_report _) eqn:X; [|reflexivity]. apply existsb_exists in X. destruct X as (x & Hx & Hr).
      destruct (sensor_trace pq _ _ _ _ _ _ _ _ Hx) as [m ->]. discriminate Hr. }
    destruct (sensorCallback pq warn topic stamp upd thresh prep n) as [n' o]. cbn [snd] in H. rewrite H. reflexivity.
  - reflexivity.
  - unfold toggleFilterProcessingCallback. destruct (Bool.eqb on (n_toggled n)); reflexivity.
  - reflexivity.
  - reflexivity.
  - reflexivity.
  - destruct (aggregateDiagnostics (n_diag n)) as [r d]. cbn [existsb is_report orb app monitor].
    destruct (freq_run f now q). rewrite app_nil_r. reflexivity.
Qed.

Lemma watch_seen evs : forall n q, watch pq vt c f n q evs = monitor f q (seen pq vt c n evs).
Proof.
  induction evs as [|[now ev] evs IH]; intros n q; cbn [watch seen]; [reflexivity|].
  rewrite monitor_app, event_seen. destruct (monitor f q (seen_of pq vt c now n ev)) as [v1 q1]. cbn [fst snd].
  rewrite IH. destruct (monitor f q1 _); reflexivity.
Qed.

(** Ticks and messages. *)
Lemma event_ticks now n ev : let o := snd (node_step pq vt c n ev) in let l := seen_of pq vt c now n ev in
  (c_print_diag c = false -> ticks l = 0%nat) /\
  (c_print_diag c = true -> (length (odoms o) <= ticks l)%nat /\ (c_permit c = true -> length (odoms o) = ticks l)).
Proof.
  cbv zeta. unfold seen_of.
  assert (T : forall (x : list (output K E)) now, ticks (if existsb is_report x then [Check now] else []) = 0%nat)
    by (intros; destruct (existsb _ _); reflexivity).
  assert (G : (match ev with EvCycle _ _ _ => False | _ => True end) -> odoms (snd (node_step pq vt c n ev)) = [])
    by (intros H; apply (other_quiet pq vt c Hpq n ev H)).
  destruct ev as [warn topic stamp upd thresh prep|frame ctl stamp|on| | |stamp prep nw| |cur later lookup];
    try (rewrite (G I); clear G; destruct (node_step pq vt c n _) as [n' o]; rewrite ticks_app, T; repeat split; cbn; lia).
  clear G. cbn [node_step]. destruct (periodicUpdate pq vt c cur later lookup n) as [n' o] eqn:Hrun. cbn [snd].
  destruct (cycle_publishes pq vt c Hpq cur later lookup n n' o Hrun) as [H _]. rewrite H. rewrite ticks_app, T, Nat.add_0_r.
  unfold getFilteredOdometryMessage.
  destruct (c_print_diag c), (n_enabled n), (fb_initialized (n_filter n')), (c_permit c), (n_last_pub n <? _)%Z;
    cbn; repeat split; intros; try discriminate; lia.
Qed.

Lemma odoms_app' (a b : list (output K E)) : odoms (a ++ b) = odoms a ++ odoms b.
Proof. induction a as [|[] a IH]; cbn; rewrite ?IH; reflexivity. Qed.

Lemma run_ticks evs : forall n, let o := snd (node_run pq vt c n (map snd evs)) in let l := seen pq vt c n evs in
  (c_print_diag c = false -> ticks l = 0%nat) /\
  (c_print_diag c = true -> (length (odoms o) <= ticks l)%nat /\ (c_permit c = true -> length (odoms o) = ticks l)).
Proof.
  induction evs as [|[now ev] evs IH]; intros n; cbn [map snd node_run seen]; cbv zeta.
  - repeat split; cbn; lia.
  - specialize (IH (fst (node_step pq vt c n ev))). cbv zeta in IH. destruct (event_ticks now n ev) as [A B]. rewrite ticks_app.
    destruct (node_step pq vt c n ev) as [n1 o1]. cbn [fst snd] in *. destruct IH as [IA IB].
    destruct (node_run pq vt c n1 (map snd evs)) as [n2 o2]. cbn [snd] in *. rewrite odoms_app', app_length. split.
    + intros H. rewrite (A H), (IA H). reflexivity.
    + intros H. destruct (B H) as [B1 B2]. destruct (IB H) as [C1 C2]. split; [lia|]. intros Hp. rewrite (B2 Hp), (C2 Hp). reflexivity.
Qed.
End Node.

(** ** The judgement over the reals *)
Local Open Scope R_scope.

Lemma judge_eq (f : R) e ns : freq_judge (K := RScalar) f e ns =
  (if Z.eqb e 0 then NoEvents
   else if Rlt_dec (IZR e / (IZR ns / 1000000000)) ((f - 2) * (9 / 10)) then TooLow
   else if Rlt_dec ((f + 2) * (11 / 10)) (IZR e / (IZR ns / 1000000000)) then TooHigh else Met).
Proof.
  unfold freq_judge, min_frequency, max_frequency, dur_seconds, lit. cbn -[IZR]. change (Z.pow_pos 10 1) with 10%Z.
  replace ((f - 2) * (1 - 1 / 10)) with ((f - 2) * (9 / 10)) by field.
  replace ((f + 2) * (1 + 1 / 10)) with ((f + 2) * (11 / 10)) by field.
  unfold Rltb. destruct (Z.eqb e 0); [reflexivity|]. destruct (Rlt_dec _ _); [reflexivity|]. destruct (Rlt_dec _ _); reflexivity.
Qed.

Lemma seconds_pos ns : (0 < ns)%Z -> 0 < IZR ns / 1000000000.
Proof. intros H. apply IZR_lt in H. lra. Qed.
Lemma rate_times (e w : R) : 0 < w -> e = e / w * w.
Proof. intros H. field. lra. Qed.

Lemma judged_met (f : R) e ns : 0 <= f -> (0 < e)%Z -> (600000000 <= ns)%Z ->
  Rabs (IZR e - f * (IZR ns / 1000000000)) <= 1 -> freq_judge (K := RScalar) f e ns = Met.
Proof.
  intros Hf He Hn H. rewrite judge_eq. assert (Hw : 3 / 5 <= IZR ns / 1000000000) by (apply IZR_le in Hn; lra).
  set (w := IZR ns / 1000000000) in *. clearbody w. apply Z.lt_neq, Z.neq_sym, Z.eqb_neq in He. rewrite He. clear He.
  pose proof (rate_times (IZR e) w ltac:(lra)) as Hr. set (r := IZR e / w) in *. rewrite Hr in H. clearbody r. clear Hr.
  assert (A : (r - f) * w <= 1) by (replace (r * w - f * w) with ((r - f) * w) in H by ring; unfold Rabs in H; destruct (Rcase_abs ((r - f) * w)); lra).
  assert (B : - 1 <= (r - f) * w) by (replace (r * w - f * w) with ((r - f) * w) in H by ring; unfold Rabs in H; destruct (Rcase_abs ((r - f) * w)); lra).
  destruct (Rlt_dec r ((f - 2) * (9 / 10))) as [L|L]; [exfalso|].
  { assert (r - f < - (9 / 5)) by lra. assert ((r - f) * w <= - (9 / 5) * (3 / 5)) by nra. lra. }
  destruct (Rlt_dec ((f + 2) * (11 / 10)) r) as [M|M]; [exfalso|reflexivity].
  assert (11 / 5 < r - f) by lra. assert (11 / 5 * (3 / 5) <= (r - f) * w) by nra. lra.
Qed.

Lemma judged_half (f : R) e ns : 9 / 2 < f -> (0 < e)%Z -> (0 < ns)%Z ->
  2 * IZR e <= f * (IZR ns / 1000000000) -> freq_judge (K := RScalar) f e ns = TooLow.
Proof.
  intros Hf He Hn H. rewrite judge_eq. apply seconds_pos in Hn. set (w := IZR ns / 1000000000) in *. clearbody w.
  apply Z.lt_neq, Z.neq_sym, Z.eqb_neq in He. rewrite He. clear He.
  pose proof (rate_times (IZR e) w Hn) as Hr. set (r := IZR e / w) in *. rewrite Hr in H. clearbody r. clear Hr.
  assert (2 * r <= f) by nra. destruct (Rlt_dec r ((f - 2) * (9 / 10))) as [L|L]; [reflexivity|lra].
Qed.

Lemma judged_double (f : R) e ns : 5 / 2 < f -> (0 < e)%Z -> (0 < ns)%Z ->
  2 * (f * (IZR ns / 1000000000)) <= IZR e -> freq_judge (K := RScalar) f e ns = TooHigh.
Proof.
  intros Hf He Hn H. rewrite judge_eq. apply seconds_pos in Hn. set (w := IZR ns / 1000000000) in *. clearbody w.
  apply Z.lt_neq, Z.neq_sym, Z.eqb_neq in He. rewrite He. clear He.
  pose proof (rate_times (IZR e) w Hn) as Hr. set (r := IZR e / w) in *. rewrite Hr in H. clearbody r. clear Hr.
  assert (2 * f <= r) by nra. destruct (Rlt_dec r ((f - 2) * (9 / 10))) as [L|L]; [lra|].
  destruct (Rlt_dec ((f + 2) * (11 / 10)) r) as [M|M]; [reflexivity|lra].
Qed.

Lemma judged_never_low (f : R) e ns : f <= 2 -> (0 <= e)%Z -> (0 < ns)%Z -> freq_judge (K := RScalar) f e ns <> TooLow.
Proof.
  intros Hf He Hn. rewrite judge_eq. apply seconds_pos in Hn. set (w := IZR ns / 1000000000) in *. clearbody w.
  destruct (Z.eqb e 0); [discriminate|]. apply IZR_le in He.
  pose proof (rate_times (IZR e) w Hn) as Hr. set (r := IZR e / w) in *. rewrite Hr in He. clearbody r. clear Hr.
  destruct (Rlt_dec r ((f - 2) * (9 / 10))) as [L|L]; [exfalso; nra|]. destruct (Rlt_dec _ r); discriminate.
Qed.

Lemma warns_eq {E : Type} (f : R) cur over (n : node RScalar E) : 0 < f ->
  cycle_warns (K := RScalar) f cur over n = true <-> n_enabled n = true /\ 1000000000 < f * IZR (over - cur).
Proof.
  intros Hf. unfold cycle_warns, dur_seconds. cbn -[IZR]. unfold Rltb. rewrite andb_true_iff.
  assert (A : 1 / f < IZR (over - cur) / 1000000000 <-> 1000000000 < f * IZR (over - cur)).
  { set (d := IZR (over - cur)). clearbody d. split; intros H.
    - apply (Rmult_lt_compat_l (f * 1000000000)) in H; [|lra].
      replace (f * 1000000000 * (1 / f)) with 1000000000 in H by (field; lra). lra.
    - apply (Rmult_lt_reg_l (f * 1000000000)); [lra|].
      replace (f * 1000000000 * (1 / f)) with 1000000000 by (field; lra). lra. }
  destruct (Rlt_dec _ _) as [L|L]; split; intros [H1 H2]; split; try assumption; try discriminate; try tauto.
Qed.

(** ** Statements about a node *)
Section NodeGoals.
Context {K : Scalar} {E : Type}.

Lemma node_window (pq : pqueue K) (vt : vtbl K E) c (f : K) n t0 evs a t b now : pq_ok pq ->
  seen pq vt c n evs = a ++ Check t :: b ++ [Check now] -> checks b = 9%nat ->
  last (fst (watch pq vt c f n (freq_init t0) evs)) Met = freq_judge f (Z.of_nat (ticks b)) (now - t).
Proof. intros Hq H Hb. rewrite (watch_seen pq vt c f Hq), H. apply window_full, Hb. Qed.

Lemma node_window_short (pq : pqueue K) (vt : vtbl K E) c (f : K) n t0 evs a now : pq_ok pq ->
  seen pq vt c n evs = a ++ [Check now] -> (checks a <= 9)%nat ->
  last (fst (watch pq vt c f n (freq_init t0) evs)) Met = freq_judge f (Z.of_nat (ticks a)) (now - t0).
Proof. intros Hq H Hb. rewrite (watch_seen pq vt c f Hq), H. apply window_short, Hb. Qed.

Lemma node_ticks (pq : pqueue K) (vt : vtbl K E) c (f : K) n t0 evs : pq_ok pq ->
  let o := snd (node_run pq vt c n (map snd evs)) in let w := watch pq vt c f n (freq_init t0) evs in
  length (fst w) = checks (seen pq vt c n evs) /\
  (c_print_diag c = true -> (Z.of_nat (length (odoms o)) <= fq_count (snd w))%Z /\
     (c_permit c = true -> Z.of_nat (length (odoms o)) = fq_count (snd w))).
Proof.
  intros Hq. cbv zeta. rewrite (watch_seen pq vt c f Hq). split; [apply monitor_count; discriminate|].
  destruct (monitor_state f (seen pq vt c n evs) (freq_init t0) ltac:(discriminate)) as [A _]. rewrite A. cbn [freq_init fq_count].
  destruct (run_ticks pq vt c Hq evs n) as [_ B]. cbv zeta in B. intros H. destruct (B H) as [B1 B2]. split; [lia|].
  intros Hp. rewrite (B2 Hp). lia.
Qed.

Lemma silent_monitor (f : K) l : forall q, ticks l = 0%nat -> Forall (fun m => fst m = fq_count q) (fq_marks q) ->
  Forall (eq NoEvents) (fst (monitor f q l)).
Proof.
  induction l as [|[|now] l IH]; intros q Hl Hq; [constructor|discriminate Hl|].
  cbn [monitor]. unfold freq_run. destruct (fq_marks q) as [|[s t] r] eqn:Em.
  - specialize (IH q Hl ltac:(rewrite Em; constructor)). destruct (monitor f q l). exact IH.
  - inversion Hq as [|x y H1 H2]; subst. cbn [fst] in H1. subst s.
    specialize (IH (mkFreq (fq_count q) (r ++ [(fq_count q, now)])) Hl). cbn [fq_marks fq_count] in IH.
    destruct (monitor f (mkFreq (fq_count q) (r ++ [(fq_count q, now)])) l) as [v q2]. cbn [fst app] in *.
    constructor; [unfold freq_judge; rewrite Z.sub_diag; reflexivity|].
    apply IH. apply Forall_app. split; [exact H2|]. repeat constructor.
Qed.

Lemma node_unprinted (pq : pqueue K) (vt : vtbl K E) c (f : K) n t0 evs : pq_ok pq -> c_print_diag c = false ->
  Forall (eq NoEvents) (fst (watch pq vt c f n (freq_init t0) evs)).
Proof.
  intros Hq H. rewrite (watch_seen pq vt c f Hq). apply silent_monitor; [apply (run_ticks pq vt c Hq evs n), H|].
  repeat constructor.
Qed.
End NodeGoals.

(** ** A timer that keeps its period *)
Lemma period_bounds (f : R) : 0 < f -> let T := timer_period (K := RScalar) f in IZR T * f <= 1000000000 < (IZR T + 1) * f /\ (0 <= T)%Z.
Proof.
  intros Hf T. unfold T, timer_period, dur_from_seconds. cbn -[IZR].
  assert (P : 0 <= 1 / f * 1000000000) by (apply Rmult_le_pos; [apply Rlt_le, Rdiv_lt_0_compat; lra|lra]).
  destruct (trunc_pos _ P) as [[A B] C]. set (z := Rtrunc (1 / f * 1000000000)) in *. clearbody z.
  assert (Q : 1 / f * 1000000000 * f = 1000000000) by (field; lra).
  split; [|exact C]. split; [rewrite <- Q; apply Rmult_le_compat_r; [lra|exact A]|rewrite <- Q at 1; apply Rmult_lt_compat_r; [exact Hf|exact B]].
Qed.

Lemma ten_hertz : timer_period (K := RScalar) 10 = 100000000%Z.
Proof.
  destruct (period_bounds 10 ltac:(lra)) as [[A B] _]. set (T := timer_period (K := RScalar) 10) in *. clearbody T.
  assert (H1 : IZR T <= 100000000) by lra. assert (H2 : 100000000 - 1 < IZR T) by lra.
  rewrite <- minus_IZR in H2. apply le_IZR in H1. apply lt_IZR in H2. lia.
Qed.

Lemma judged_timer (f : R) s t now (m : Z) : 0 < f -> let T := timer_period (K := RScalar) f in (10 <= T)%Z ->
  (s <= t < s + T)%Z -> (s + m * T <= now < s + (m + 1) * T)%Z -> (600000000 <= now - t)%Z -> (T <= now - t)%Z ->
  freq_judge (K := RScalar) f m (now - t) = Met.
Proof.
  intros Hf T HT Hs Hn Hw HP. destruct (period_bounds f Hf) as [[A B] _]. fold T in A, B. clearbody T.
  assert (Hm : (0 < m)%Z) by nia.
  assert (L : ((m - 1) * T < now - t < (m + 1) * T)%Z) by nia. clear Hs Hn HP.
  set (d := (now - t)%Z) in *. clearbody d. rewrite judge_eq.
  assert (He : (m =? 0)%Z = false) by (apply Z.eqb_neq; lia). rewrite He.
  destruct L as [L1 L2]. apply IZR_lt in L1, L2. rewrite mult_IZR, minus_IZR in L1. rewrite mult_IZR, plus_IZR in L2.
  apply IZR_le in HT, Hw. apply IZR_lt in Hm. change (IZR 0) with 0 in Hm.
  set (w := IZR d / 1000000000). assert (Ew : IZR d = w * 1000000000) by (unfold w; lra).
  assert (W : 3 / 5 <= w) by (unfold w; lra). rewrite Ew in L1, L2. clearbody w.
  set (e := IZR m) in *. set (P := IZR T) in *. clearbody e P. clear Ew Hw d m T s t now He.
  pose proof (rate_times e w ltac:(lra)) as Hr. set (r := e / w) in *. clearbody r. subst e.
  assert (HP : 0 < P) by lra.
  (* r w + 1 > w 1e9 / P >= w f *)
  assert (X : w * f < r * w + 1).
  { apply (Rmult_lt_reg_r P); [exact HP|]. apply Rle_lt_trans with (w * 1000000000); [|lra].
    replace (w * f * P) with (w * (P * f)) by ring. apply Rmult_le_compat_l; lra. }
  assert (Y : (r * w - 1) * P < w * ((P + 1) * f)).
  { apply Rlt_le_trans with (w * 1000000000); [lra|]. apply Rmult_le_compat_l; lra. }
  destruct (Rlt_dec r ((f - 2) * (9 / 10))) as [Q|Q]; [exfalso|].
  { assert (r < f - 9 / 5) by lra. assert (r * w < (f - 9 / 5) * w) by (apply Rmult_lt_compat_r; lra). nra. }
  destruct (Rlt_dec ((f + 2) * (11 / 10)) r) as [M|M]; [exfalso|reflexivity].
  assert (Z1 : (P + 1) * f <= P * (11 / 10 * f)) by nra.
  assert (Z2 : (r * w - 1) * P < (w * (11 / 10 * f)) * P).
  { apply Rlt_le_trans with (1 := Y). replace (w * (11 / 10 * f) * P) with (w * (P * (11 / 10 * f))) by ring. apply Rmult_le_compat_l; lra. }
  apply Rmult_lt_reg_r in Z2; [|exact HP].
  assert ((11 / 10 * f + 11 / 5) * w < r * w) by (apply Rmult_lt_compat_r; lra). nra.
Qed.

Lemma node_timer {E : Type} (pq : pqueue RScalar) (vt : vtbl RScalar E) c (f : R) n t0 evs a t b now s : pq_ok pq ->
  seen pq vt c n evs = a ++ Check t :: b ++ [Check now] -> checks b = 9%nat ->
  let T := timer_period (K := RScalar) f in let m := Z.of_nat (ticks b) in 0 < f -> (10 <= T)%Z ->
  (s <= t < s + T)%Z -> (s + m * T <= now < s + (m + 1) * T)%Z -> (600000000 <= now - t)%Z -> (T <= now - t)%Z ->
  last (fst (watch pq vt c (f : sc RScalar) n (freq_init t0) evs)) Met = Met.
Proof.
  intros Hq H Hb T m Hf HT H1 H2 H3 H4. rewrite (node_window pq vt c (f : sc RScalar) n t0 evs a t b now Hq H Hb).
  exact (judged_timer f s t now m Hf HT H1 H2 H3 H4).
Qed.

(** ** A node at rest: processing toggled off, the filter initialised *)
Section Resting.
Context {K : Scalar} {E : Type}.
Variables (pq : pqueue K) (vt : vtbl K E) (c : config K).
Hypothesis Hpq : pq_ok pq.
Hypothesis Hprint : c_print_diag c = true.

Definition resting (n : node K E) : Prop :=
  n_enabled n = true /\ n_toggled n = false /\ fb_initialized (n_filter n) = true /\ n_last_diag n = 0%Z.

Lemma rest_cycle now n t lookup : resting n -> (0 <= t < c_diag_period c)%Z ->
  seen_of pq vt c now n (EvCycle t t lookup) = [Tick] /\ resting (fst (node_step pq vt c n (EvCycle t t lookup))).
Proof.
  intros (He & Ht & Hi & Hd) H. unfold seen_of. cbn [node_step]. rewrite (cycle_eq pq vt c t t lookup n He).
  unfold working. rewrite Ht, Hi. cbn [app]. rewrite report_app, visible_silent. unfold diag_due, concluded.
  cbn [n_last_diag with_filter with_queue n_filter set_last_time fb_initialized fst n_enabled n_toggled].
  assert (D : (c_print_diag c && ((c_diag_period c <=? t - n_last_diag n)%Z || (t - n_last_diag n <? 0)%Z))%bool = false).
  { rewrite Hd, Hprint. cbn [andb]. apply orb_false_iff. split; [apply Z.leb_gt; lia|apply Z.ltb_ge; lia]. }
  rewrite D, Hprint, He, Hi. cbn [andb orb existsb app]. split; [reflexivity|].
  unfold resting. cbn [n_enabled n_toggled n_filter n_last_diag set_last_time fb_initialized]. repeat split; try reflexivity; try assumption.
  unfold diag_due. cbn [n_last_diag with_filter with_queue]. rewrite D. exact Hd.
Qed.
Lemma rest_check now n : resting n ->
  seen_of pq vt c now n EvDiagnostics = [Check now] /\ resting (fst (node_step pq vt c n EvDiagnostics)).
Proof.
  intros H. unfold seen_of. cbn [node_step]. destruct (aggregateDiagnostics (n_diag n)) as [r d]. cbn [existsb is_report orb app fst].
  split; [reflexivity|exact H].
Qed.
Definition rest_events (ks : list Z) : list (Z * event K E) :=
  flat_map (fun k => [(k, EvCycle k k None); ((k + 1)%Z, EvDiagnostics)]) ks.
Lemma rest_seen ks : forall n, resting n -> Forall (fun k => 0 <= k < c_diag_period c)%Z ks ->
  seen pq vt c n (rest_events ks) = flat_map (fun k => [Tick; Check (k + 1)%Z]) ks.
Proof.
  induction ks as [|k ks IH]; intros n Hn Hk; [reflexivity|]. inversion Hk as [|x y K1 K2]; subst.
  change (rest_events (k :: ks)) with ([(k, EvCycle k k None); ((k + 1)%Z, EvDiagnostics)] ++ rest_events ks).
  cbn [app seen flat_map].
  destruct (rest_cycle k n k None Hn K1) as [A B]. rewrite A.
  destruct (rest_check (k + 1)%Z _ B) as [C D]. rewrite C. rewrite (IH _ D K2). reflexivity.
Qed.
End Resting.
