(** * Vocabulary for the supervision of the update rate (C109) *)

From Coq Require Import ZArith List Bool.
From Verif Require Import Scalar FilterBase RosFilter Supervise SpecNode.
Import ListNotations.

(** ** The monitor by itself *)
Inductive act : Type := Tick | Check (now : Z).
Definition is_tick (a : act) : bool := match a with Tick => true | Check _ => false end.
Definition ticks (l : list act) : nat := length (filter is_tick l).
Definition checks (l : list act) : nat := length (filter (fun a => negb (is_tick a)) l).

Section Monitor.
Context {K : Scalar}.
Fixpoint monitor (frequency : K) (q : freq) (l : list act) : list verdict * freq :=
  match l with
  | [] => ([], q)
  | Tick :: r => monitor frequency (freq_tick q) r
  | Check now :: r =>
      let '(v1, q1) := freq_run frequency now q in
      let '(v2, q2) := monitor frequency q1 r in (v1 ++ v2, q2)
  end.
End Monitor.

(** ** The monitor of a node *)
Section Watched.
Context {K : Scalar} {E : Type}.
Variables (pq : pqueue K) (vt : vtbl K E) (c : config K).

Definition is_report (o : output K E) : bool := match o with OutReport _ => true | _ => false end.
(** What the monitor should see of an event: a tick for an enabled update that
    ends with an initialised filter, a check for each report. *)
Definition seen_of (now : Z) (n : node K E) (ev : event K E) : list act :=
  let '(n', o) := node_step pq vt c n ev in
  match ev with
  | EvCycle _ _ _ => if (c_print_diag c && n_enabled n && fb_initialized (n_filter n'))%bool then [Tick] else []
  | _ => []
  end ++ (if existsb is_report o then [Check now] else []).
Fixpoint seen (n : node K E) (evs : list (Z * event K E)) : list act :=
  match evs with
  | [] => []
  | (now, ev) :: r => seen_of now n ev ++ seen (fst (node_step pq vt c n ev)) r
  end.
(** The verdicts that the node's updater gives. *)
Fixpoint watch (frequency : K) (n : node K E) (q : freq) (evs : list (Z * event K E)) : list verdict * freq :=
  match evs with
  | [] => ([], q)
  | (now, ev) :: r =>
      let '(v1, q1) := supervise pq vt c frequency now n ev q in
      let '(v2, q2) := watch frequency (fst (node_step pq vt c n ev)) q1 r in (v1 ++ v2, q2)
  end.
End Watched.
