(** * Where the times of a node come from (C97) *)

From Coq Require Import ZArith List Bool String Reals Lia.
From Verif Require Import Scalar FilterBase Tf RosFilter SpecNode NodeMore SpecTimes TimesFacts PropsNode.
Import ListNotations.
Local Open Scope Z_scope.

(** Every stamp published, every prediction's start and end and every time
    kept is the stamp of a sensor message received so far or a clock reading
    taken so far. *)
Theorem C97_times : forall (K : Scalar) E (pq : pqueue K) (vt : vtbl K E) c, pq_ok pq -> time_neutral vt ->
  forall f ang ctl dis now es, fb_initialized f = false ->
  let r := node_run pq vt c (node_init f ang ctl dis now) es in
  keeps_times (all_brought es) (fst r) /\ Forall (timed_by c (all_brought es)) (snd r).
Proof. exact (@start_times). Qed.
Print Assumptions C97_times.

(** With predict_to_current_time, what a cycle publishes is stamped with the
    clock reading at its beginning. *)
Theorem C97_current : forall (K : Scalar) E (pq : pqueue K) (vt : vtbl K E) c, pq_ok pq -> time_neutral vt ->
  forall cur later lookup (n : node K E), n_toggled n = true -> c_predict_now c = true ->
  Forall (fun t => t = cur) (List.concat (map (stamps c) (snd (periodicUpdate pq vt c cur later lookup n)))).
Proof. exact (@current_stamps). Qed.
Print Assumptions C97_current.

(** While processing is toggled off, with the second clock reading. *)
Theorem C97_toggled : forall (K : Scalar) E (pq : pqueue K) (vt : vtbl K E) c, pq_ok pq ->
  forall cur later lookup (n : node K E), n_toggled n = false ->
  Forall (fun t => t = later) (List.concat (map (stamps c) (snd (periodicUpdate pq vt c cur later lookup n)))).
Proof. exact (@toggled_stamps). Qed.
Print Assumptions C97_toggled.

(** Under a monotone clock nothing is stamped after the cycle's last clock
    reading, whatever the stamps of the messages received. *)
Theorem C97_past : forall (K : Scalar) E (pq : pqueue K) (vt : vtbl K E) c, pq_ok pq -> time_neutral vt ->
  forall f ang ctl dis now t0 es cur later lookup, fb_initialized f = false ->
  monotone_clock t0 (es ++ [EvCycle cur later lookup]) ->
  Forall (fun t => t <= later) (List.concat (map (stamps c)
    (snd (periodicUpdate pq vt c cur later lookup (fst (node_run pq vt c (node_init f ang ctl dis now) es)))))).
Proof. exact (@start_past). Qed.
Print Assumptions C97_past.

(** If every time received lies in [0, B] then every interval predicted over
    lies in [-B, B]: differences of non-negative 64 bit nanosecond counts do
    not overflow. *)
Theorem C97_span : forall (K : Scalar) E (pq : pqueue K) (vt : vtbl K E) c, pq_ok pq -> time_neutral vt ->
  forall f ang ctl dis now es B, fb_initialized f = false -> Forall (fun t => 0 <= t <= B) (all_brought es) ->
  let o := snd (node_run pq vt c (node_init f ang ctl dis now) es) in
  (forall r d, In (OutPredict r d) o -> - B <= d <= B) /\
  (forall g m, In (OutFused g m) o -> fb_initialized g = true -> - B <= m_time m - fb_last_time g <= B).
Proof. exact (@start_span). Qed.
Print Assumptions C97_span.

(** A measurement at 10, one stamped 100 in the future, a late one at 12 that
    makes the node go back, and processing toggled off. *)
Example C97_case :
  let es := [ex_msg "odom" 10; EvCycle 10 11 None; ex_msg "imu" 14; ex_msg "gps" 100; EvCycle 14 15 None;
             ex_msg "odom" 12; EvCycle 16 17 None; EvToggle false; EvCycle 18 19 None] in
  let c := ex_cfg true false false true in
  let c' := ex_cfg true true false true in
  monotone_clock 0 es /\ Forall (fun t => 0 <= t <= 100) (all_brought es) /\
  List.concat (map (stamps c) (snd (ex_run c ex_start es))) = [10; 10; 10; 14; 14; 14; 14; 14; 14; 19; 19; 19] /\
  List.concat (map (stamps c') (snd (ex_run c' ex_start es))) = [10; 10; 10; 14; 14; 14; 16; 16; 16; 19; 19; 19].
Proof.
  split; [unfold monotone_clock; cbn; repeat constructor; cbn; lia|].
  split; [cbn; repeat constructor; lia|]. split; vm_compute; reflexivity.
Qed.
