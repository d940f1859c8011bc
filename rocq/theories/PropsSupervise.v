(** * Properties of the supervision of the update rate (C109) *)

From Coq Require Import ZArith Reals Lra Lia List Bool Arith.
From Verif Require Import Scalar FloatScalar FilterBase Ekf RosFilter RosConfig Supervise SpecNode SpecSupervise
  NodeMore SuperviseFacts SuperviseCase.
Import ListNotations.

(** The updater judges the number of updates with an initialised filter since
    ten reports ago. *)
Theorem C109_window : forall {K : Scalar} {E : Type} (pq : pqueue K) (vt : vtbl K E) c (frequency : K) n t0 evs a t b now, pq_ok pq ->
  seen pq vt c n evs = a ++ Check t :: b ++ [Check now] -> checks b = 9%nat ->
  last (fst (watch pq vt c frequency n (freq_init t0) evs)) Met = freq_judge frequency (Z.of_nat (ticks b)) (now - t).
Proof. exact @node_window. Qed.
Print Assumptions C109_window.

(** During the first ten reports, since the start. *)
Theorem C109_window_short : forall {K : Scalar} {E : Type} (pq : pqueue K) (vt : vtbl K E) c (frequency : K) n t0 evs a now, pq_ok pq ->
  seen pq vt c n evs = a ++ [Check now] -> (checks a <= 9)%nat ->
  last (fst (watch pq vt c frequency n (freq_init t0) evs)) Met = freq_judge frequency (Z.of_nat (ticks a)) (now - t0).
Proof. exact @node_window_short. Qed.
Print Assumptions C109_window_short.

(** One verdict per report; at least as many ticks as odometry messages, and
    exactly as many if corrected publication is permitted. *)
Theorem C109_ticks : forall {K : Scalar} {E : Type} (pq : pqueue K) (vt : vtbl K E) c (frequency : K) n t0 evs, pq_ok pq ->
  let o := snd (node_run pq vt c n (map snd evs)) in let w := watch pq vt c frequency n (freq_init t0) evs in
  length (fst w) = checks (seen pq vt c n evs) /\
  (c_print_diag c = true -> (Z.of_nat (length (odoms o)) <= fq_count (snd w))%Z /\
     (c_permit c = true -> Z.of_nat (length (odoms o)) = fq_count (snd w))).
Proof. exact @node_ticks. Qed.
Print Assumptions C109_ticks.

(** A node that keeps its rate is not reported: the count is within one of
    the expected number and the window at least 0.6 s. *)
Theorem C109_met : forall (frequency : R) events ns, (0 <= frequency)%R -> (0 < events)%Z -> (600000000 <= ns)%Z ->
  (Rabs (IZR events - frequency * (IZR ns / 1000000000)) <= 1)%R -> freq_judge (K := RScalar) frequency events ns = Met.
Proof. exact judged_met. Qed.
Print Assumptions C109_met.

(** So while the timer keeps its period: the last update before a report at
    [s], then one per period. *)
Theorem C109_timer : forall {E : Type} (pq : pqueue RScalar) (vt : vtbl RScalar E) c (frequency : R) n t0 evs a t b now s, pq_ok pq ->
  seen pq vt c n evs = a ++ Check t :: b ++ [Check now] -> checks b = 9%nat ->
  let T := timer_period (K := RScalar) frequency in let m := Z.of_nat (ticks b) in (0 < frequency)%R -> (10 <= T)%Z ->
  (s <= t < s + T)%Z -> (s + m * T <= now < s + (m + 1) * T)%Z -> (600000000 <= now - t)%Z -> (T <= now - t)%Z ->
  last (fst (watch pq vt c (frequency : sc RScalar) n (freq_init t0) evs)) Met = Met.
Proof. exact @node_timer. Qed.
Print Assumptions C109_timer.

(** Half the rate is reported above 4.5 Hz, twice the rate above 2.5 Hz. *)
Theorem C109_half : forall (frequency : R) events ns, (9 / 2 < frequency)%R -> (0 < events)%Z -> (0 < ns)%Z ->
  (2 * IZR events <= frequency * (IZR ns / 1000000000))%R -> freq_judge (K := RScalar) frequency events ns = TooLow.
Proof. exact judged_half. Qed.
Print Assumptions C109_half.
Theorem C109_double : forall (frequency : R) events ns, (5 / 2 < frequency)%R -> (0 < events)%Z -> (0 < ns)%Z ->
  (2 * (frequency * (IZR ns / 1000000000)) <= IZR events)%R -> freq_judge (K := RScalar) frequency events ns = TooHigh.
Proof. exact judged_double. Qed.
Print Assumptions C109_double.

(** Not at low rates: up to 2 Hz no rate is too low. *)
Theorem C109_slow_refuted : forall (frequency : R) events ns, (frequency <= 2)%R -> (0 <= events)%Z -> (0 < ns)%Z ->
  freq_judge (K := RScalar) frequency events ns <> TooLow.
Proof. exact judged_never_low. Qed.
Print Assumptions C109_slow_refuted.

(** The verdict is not about published messages: one message in a second, at a
    frequency of 10 Hz, and the frequency counts as met. *)
Theorem C109_published_refuted : exists ld n, sv_start true false = Ok (ld, n) /\
  let w := watch (list_pq _) (ekf_vtbl sv_eig) (ld_config ld) (p_frequency (sv_par true false)) n (freq_init 0) sv_once in
  fst w = [Met] /\ fq_count (snd w) = 10%Z /\
  List.length (odoms (snd (node_run (list_pq _) (ekf_vtbl sv_eig) (ld_config ld) n (map snd sv_once)))) = 1%nat.
Proof. exact suppressed_ex. Qed.
Print Assumptions C109_published_refuted.

(** Without print_diagnostics every report of the updater is the error that
    nothing happens, ... *)
Theorem C109_unprinted : forall {K : Scalar} {E : Type} (pq : pqueue K) (vt : vtbl K E) c (frequency : K) n t0 evs, pq_ok pq ->
  c_print_diag c = false -> Forall (eq NoEvents) (fst (watch pq vt c frequency n (freq_init t0) evs)).
Proof. exact @node_unprinted. Qed.
Print Assumptions C109_unprinted.
(** ... even of a node that publishes. *)
Theorem C109_unprinted_refuted : exists ld n evs, sv_start false true = Ok (ld, n) /\
  fst (watch (list_pq _) (ekf_vtbl sv_eig) (ld_config ld) (p_frequency (sv_par false true)) n (freq_init 0) evs) = [NoEvents] /\
  List.length (odoms (snd (node_run (list_pq _) (ekf_vtbl sv_eig) (ld_config ld) n (map snd evs)))) = 1%nat.
Proof. exact unprinted_ex. Qed.
Print Assumptions C109_unprinted_refuted.

(** An update complains exactly if it took longer than a period. *)
Theorem C109_overrun : forall {E : Type} (frequency : R) cur over (n : node RScalar E), (0 < frequency)%R ->
  cycle_warns (K := RScalar) frequency cur over n = true <-> n_enabled n = true /\ (1000000000 < frequency * IZR (over - cur))%R.
Proof. exact @warns_eq. Qed.
Print Assumptions C109_overrun.

(** Ten updates and eleven reports. *)
Example C109_window_case : pq_ok (list_pq (FScalar sv_lm)) /\ checks sv_between = 9%nat /\ ticks sv_between = 9%nat /\
  exists ld n, sv_start true true = Ok (ld, n) /\ c_print_diag (ld_config ld) = true /\ c_permit (ld_config ld) = true /\
    seen (list_pq _) (ekf_vtbl sv_eig) (ld_config ld) n sv_checked = [Tick] ++ Check 100000001 :: sv_between ++ [Check 1000000001] /\
    length (odoms (snd (node_run (list_pq _) (ekf_vtbl sv_eig) (ld_config ld) n (map snd sv_checked)))) = 10%nat /\
    fst (watch (list_pq _) (ekf_vtbl sv_eig) (ld_config ld) (p_frequency (sv_par true true)) n (freq_init 0) sv_checked) = repeat Met 11.
Proof.
  split; [apply list_pq_ok|]. split; [reflexivity|]. split; [reflexivity|].
  pose proof sv_counted as H. pose proof sv_seen as S. unfold sv_result in H.
  assert (C : match sv_start true true with Ok (ld, _) => c_print_diag (ld_config ld) = true /\ c_permit (ld_config ld) = true | _ => False end)
    by (vm_compute; split; reflexivity).
  destruct (sv_start true true) as [[ld n]|]; [|discriminate H]. exists ld, n. split; [reflexivity|]. destruct C as [C1 C2].
  split; [exact C1|]. split; [exact C2|]. split; [exact S|]. cbv zeta in H. apply some_triple in H. destruct H as (A & _ & B). split; [exact B|exact A].
Qed.
(** 299 updates in 10 seconds at 30 Hz; 100; 601. *)
Example C109_met_case : freq_judge (K := RScalar) 30%R 299 10000000000 = Met /\
  freq_judge (K := RScalar) 30%R 100 10000000000 = TooLow /\ freq_judge (K := RScalar) 30%R 601 10000000000 = TooHigh.
Proof.
  split; [|split].
  - apply judged_met; [lra|lia|lia|]. rewrite Rabs_left; lra.
  - apply judged_half; [lra|lia|lia|lra].
  - apply judged_double; [lra|lia|lia|lra].
Qed.
(** At 10 Hz an update of 0.11 s is reported, one of 0.1 s is not. *)
Example C109_overrun_case : forall {E : Type} (n : node RScalar E), n_enabled n = true ->
  cycle_warns (K := RScalar) 10%R 0 110000000 n = true /\ cycle_warns (K := RScalar) 10%R 0 100000000 n = false.
Proof.
  intros E n H. split.
  - apply warns_eq; [lra|]. split; [exact H|]. change (110000000 - 0)%Z with 110000000%Z. lra.
  - destruct (cycle_warns _ _ _ n) eqn:W; [|reflexivity]. apply warns_eq in W; [|lra]. destruct W as [_ W].
    change (100000000 - 0)%Z with 100000000%Z in W. lra.
Qed.
(** An update every 0.1 s, each followed by a report. *)
Example C109_timer_case : let b := rest_between ++ [Tick] in let T := timer_period (K := RScalar) 10%R in let m := Z.of_nat (ticks b) in
  (forall vt, seen (list_pq RScalar) vt rest_config rest_node (rest_events rest_times) = [Tick] ++ Check 100000001 :: b ++ [Check 1100000001]) /\
  checks b = 9%nat /\ T = 100000000%Z /\ m = 10%Z /\
  (100000000 <= 100000001 < 100000000 + 100000000)%Z /\ (100000000 + 10 * 100000000 <= 1100000001 < 100000000 + (10 + 1) * 100000000)%Z.
Proof.
  cbv zeta. split; [exact rest_ex|]. split; [reflexivity|]. split; [exact ten_hertz|]. split; [reflexivity|]. lia.
Qed.
