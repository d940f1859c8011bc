(** * RobotLocalizationEstimator: src/robot_localization_estimator.cpp

    Time stamps are doubles (seconds), hence of the scalar type.  The filter is
    held as an [fb] with its virtual methods [vt]. *)

From Coq Require Import ZArith Bool List Arith.
From Verif Require Import Scalar Mat FilterBase Ekf Ukf.
Import ListNotations.

Section Est.
Context {K : Scalar} {E : Type} (vt : vtbl K E).
Local Open Scope sc_scope.

(** robot_localization_estimator.hpp 58-84 *)
Record est_state : Type := mkEst { es_time : K; es_state : vec K; es_cov : mat K }.

(** robot_localization_estimator.hpp 221-231: boost::circular_buffer as a list
    (oldest first) plus its capacity, and the filter. *)
Record estimator : Type := mkEstimator {
  e_buf : list est_state; e_cap : nat; e_filter : fb K E }.

(** boost::circular_buffer (external).  push_back overwrites the front when
    full and does nothing for capacity 0. *)
Definition cb_push_back (cap : nat) (b : list est_state) (x : est_state) : list est_state :=
  if Nat.eqb cap 0 then b
  else if Nat.ltb (length b) cap then b ++ [x] else tl b ++ [x].

(** insert before position [k]; when full the front is dropped, and inserting
    before the front then does nothing. *)
Definition cb_insert (cap : nat) (b : list est_state) (k : nat) (x : est_state) : list est_state :=
  if Nat.ltb (length b) cap then firstn k b ++ x :: skipn k b
  else match k with
       | O => b
       | S k' => firstn k' (tl b) ++ x :: skipn k' (tl b)
       end.

(** set_capacity removes elements from the back when shrinking below size. *)
Definition cb_set_capacity (b : list est_state) (n : nat) : list est_state := firstn n b.

(** enum EstimatorResult, robot_localization_estimator.hpp 86-97 *)
Inductive est_result : Type :=
| ExtrapolationIntoFuture | Interpolation | ExtrapolationIntoPast | Exact | EmptyBuffer | Failed.

(** robot_localization_estimator.cpp 46-69.  [f] is the filter made for the
    requested type; [None] for NotDefined, where the code dereferences a null
    pointer (undefined behaviour, outcome [None]). *)
Definition est_construct (cap : nat) (f : option (fb K E)) (Q : mat K) : option estimator :=
  match f with
  | Some s => Some (mkEstimator [] cap (setProcessNoiseCovariance s Q))
  | None => None
  end.

(** First position whose element satisfies [p] (loop at 83-90). *)
Fixpoint find_pos (p : est_state -> bool) (l : list est_state) : option nat :=
  match l with
  | [] => None
  | a :: r => if p a then Some 0%nat else option_map S (find_pos p r)
  end.

(** Last element of a non-empty buffer (back()). *)
Fixpoint back (a : est_state) (l : list est_state) : est_state :=
  match l with [] => a | b :: r => back b r end.

(** robot_localization_estimator.cpp 75-93 *)
Definition est_setState (e : estimator) (x : est_state) : estimator :=
  let b :=
    match e_buf e with
    | [] => cb_push_back (e_cap e) [] x
    | a :: r =>
      if s_ltb (es_time (back a r)) (es_time x) then cb_push_back (e_cap e) (a :: r) x
      else match find_pos (fun it => s_ltb (es_time x) (es_time it)) (a :: r) with
           | Some k => cb_insert (e_cap e) (a :: r) k x
           | None => a :: r
           end
    end in
  mkEstimator b (e_cap e) (e_filter e).

(** Loop of getState (113-131) over the reversed buffer. *)
Inductive scan_result : Type :=
| ScanExact (s : est_state)
| ScanDone (prev next : option est_state).
Fixpoint est_scan (time : K) (rl : list est_state) (next : option est_state) : scan_result :=
  match rl with
  | [] => ScanDone None next
  | s :: r =>
    if s_eqb (es_time s) time then ScanExact s
    else if s_leb (es_time s) time then ScanDone (Some s) next
    else est_scan time r (Some s)
  end.

(** robot_localization_estimator.cpp 171-193.  The multiplication result is
    converted to int64 nanoseconds by rclcpp::Time's constructor. *)
Definition est_extrapolate (f : fb K E) (boundary : est_state) (time : K) : fb K E * est_state :=
  let f1 := setEstimateErrorCovariance (setState f (es_state boundary)) (es_cov boundary) in
  let delta := time - es_time boundary in
  let stamp := s_trunc (es_time boundary * s_ofZ 1000000000) in
  let f2 := v_predict vt f1 stamp (dur_from_seconds delta) in
  (f2, mkEst time (fb_state f2) (fb_P f2)).

(** robot_localization_estimator.cpp 95-149 (interpolate, 195-207, forwards to
    extrapolate).  Returns the code, the out parameter and the estimator. *)
Definition est_getState (e : estimator) (time : K) (out : est_state)
    : est_result * est_state * estimator :=
  match e_buf e with
  | [] => (EmptyBuffer, out, e)
  | a :: r =>
    match est_scan time (rev (a :: r)) None with
    | ScanExact s => (Exact, s, e)
    | ScanDone (Some p) (Some _) =>
        let (f, s) := est_extrapolate (e_filter e) p time in
        (Interpolation, s, mkEstimator (e_buf e) (e_cap e) f)
    | ScanDone (Some p) None =>
        let (f, s) := est_extrapolate (e_filter e) p time in
        (ExtrapolationIntoFuture, s, mkEstimator (e_buf e) (e_cap e) f)
    | ScanDone None (Some n) =>
        let (f, s) := est_extrapolate (e_filter e) n time in
        (ExtrapolationIntoPast, s, mkEstimator (e_buf e) (e_cap e) f)
    | ScanDone None None => (Failed, back a r, e)
    end
  end.

(** robot_localization_estimator.cpp 151-154; negative capacities (converted to
    huge unsigned values, an allocation failure) are not modelled. *)
Definition est_setBufferCapacity (e : estimator) (n : nat) : estimator :=
  mkEstimator (cb_set_capacity (e_buf e) n) n (e_filter e).
(** robot_localization_estimator.cpp 156-169 *)
Definition est_clearBuffer (e : estimator) : estimator := mkEstimator [] (e_cap e) (e_filter e).
Definition est_getBufferCapacity (e : estimator) : nat := e_cap e.
Definition est_getSize (e : estimator) : nat := length (e_buf e).

(** Sequences of public calls. *)
Inductive est_op : Type :=
| EstSet (x : est_state) | EstQuery (time : K) | EstCapacity (n : nat) | EstClear.
Definition est_exec (e : estimator) (o : est_op) : estimator :=
  match o with
  | EstSet x => est_setState e x
  | EstQuery t => snd (est_getState e t (mkEst 0 vzero mzero))
  | EstCapacity n => est_setBufferCapacity e n
  | EstClear => est_clearBuffer e
  end.
Definition est_run (e : estimator) (ops : list est_op) : estimator := fold_left est_exec ops e.
End Est.
Arguments est_state K : clear implicits.
Arguments estimator K E : clear implicits.
Arguments est_op K : clear implicits.
