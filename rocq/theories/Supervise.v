(** * The supervision of the update rate

    [tick], [run] and [clear] of diagnostic_updater's FrequencyStatus are
    external code (update_functions.hpp of that package), transcribed: the ring
    of [window_size] counts and times is a queue, its oldest entry first; no
    overflow of the event count. *)

From Coq Require Import ZArith List Bool.
From Verif Require Import Scalar FilterBase Tf RosFilter.
Import ListNotations.

Inductive verdict : Type :=
| NoEvents      (* "No events recorded.", error *)
| TooLow        (* "Frequency too low.", warning *)
| TooHigh       (* "Frequency too high.", warning *)
| Met.          (* "Desired frequency met" *)

(** External: count_ and the ring seq_nums_, times_. *)
Record freq : Type := mkFreq { fq_count : Z; fq_marks : list (Z * Z) }.

Section Supervise.
Context {K : Scalar} {E : Type}.
Local Open Scope sc_scope.

(** ros_filter.cpp 2057-2058 *)
Definition min_frequency (frequency : K) : K := frequency - s_ofZ 2.
Definition max_frequency (frequency : K) : K := frequency + s_ofZ 2.

(** ros_filter.cpp 2059-2065 (construction: clear) with the window of 10
    entries. *)
Definition freq_init (now : Z) : freq := mkFreq 0 (repeat (0, now)%Z 10).
(** External: FrequencyStatus::tick *)
Definition freq_tick (q : freq) : freq := mkFreq (fq_count q + 1)%Z (fq_marks q).
(** External: the judgement of FrequencyStatus::run, with the limits and the
    tolerance 0.1 of ros_filter.cpp 2063-2065. *)
Definition freq_judge (frequency : K) (events ns : Z) : verdict :=
  let rate := s_ofZ events / dur_seconds ns in
  let tolerance := lit 1 1 in
  if Z.eqb events 0 then NoEvents
  else if s_ltb rate (min_frequency frequency * (1 - tolerance)) then TooLow
  else if s_ltb (max_frequency frequency * (1 + tolerance)) rate then TooHigh
  else Met.
(** External: FrequencyStatus::run at time [now]. *)
Definition freq_run (frequency : K) (now : Z) (q : freq) : list verdict * freq :=
  match fq_marks q with
  | (seen, t) :: r =>
      ([freq_judge frequency (fq_count q - seen) (now - t)], mkFreq (fq_count q) (r ++ [(fq_count q, now)]))
  | [] => ([], q)
  end.

(** ros_filter.cpp 2086-2088: the period of the timer, truncated to nanoseconds. *)
Definition timer_period (frequency : K) : Z := dur_from_seconds (1 / frequency).

(** ros_filter.cpp 2108-2121: the node at the time of line 2128. *)
Definition measured (pq : pqueue K) (vt : vtbl K E) (c : config K) (cur later : Z) (n : node K E) : node K E :=
  if n_toggled n then differentiateMeasurements cur (fst (integrateMeasurements pq vt c cur n))
  else
    let n0 := clearMeasurementQueue n in
    if fb_initialized (n_filter n0)
    then with_filter n0 (setLastMeasurementTime (n_filter n0) later) else n0.

(** ros_filter.cpp 2098, 2128, 2243-2245: whether an update calls tick. *)
Definition cycle_ticks (pq : pqueue K) (vt : vtbl K E) (c : config K) (cur later : Z) (n : node K E) : bool :=
  (n_enabled n &&
   match getFilteredOdometryMessage c (measured pq vt c cur later n) with
   | Some _ => c_print_diag c
   | None => false
   end)%bool.
(** ros_filter.cpp 2098, 2261-2268: whether an update calls force_update, which
    runs every task of the updater. *)
Definition cycle_forces (pq : pqueue K) (vt : vtbl K E) (c : config K) (cur later : Z) (n : node K E) : bool :=
  let duration := (cur - n_last_diag (measured pq vt c cur later n))%Z in
  (n_enabled n && (c_print_diag c && (Z.geb duration (c_diag_period c) || Z.ltb duration 0)))%bool.

(** The frequency task over one event of the node; [now] is the time at which
    the updater runs its tasks.  The task is added to the updater whether or not
    print_diagnostics is set (2059-2065), and the updater has its own timer. *)
Definition supervise (pq : pqueue K) (vt : vtbl K E) (c : config K) (frequency : K) (now : Z)
    (n : node K E) (ev : event K E) (q : freq) : list verdict * freq :=
  match ev with
  | EvCycle cur later _ =>
      let q1 := if cycle_ticks pq vt c cur later n then freq_tick q else q in
      if cycle_forces pq vt c cur later n then freq_run frequency now q1 else ([], q1)
  | EvDiagnostics => freq_run frequency now q
  | _ => ([], q)
  end.

(** ros_filter.cpp 2098, 2276-2283: whether an update complains about its
    duration; [over] is the reading of the clock in line 2276. *)
Definition cycle_warns (frequency : K) (cur over : Z) (n : node K E) : bool :=
  (n_enabled n && s_ltb (1 / frequency) (dur_seconds (over - cur)))%bool.

End Supervise.
