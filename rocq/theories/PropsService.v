(** * The listener's get_state service (C92) *)

From Coq Require Import Reals ZArith List Bool Arith String Lia Lra.
From Verif Require Import Scalar Mat FilterBase Tf RosFilter Estimator Listener Ekf Ukf SpecTf SpecPrepare SpecListener SpecService FloatOrder ListenerProofs ListenerGoals ServiceFacts.
Import ListNotations.

(** ** C92: the response holds the state and, by columns, the covariance the
    listener answers *)
Theorem C92_answer : forall (K : Scalar) E (vt : vtbl K E) env now stamp frame (l : listener K E) c s P l' c',
  listener_getState_ros vt env now stamp frame "" l c = Returned (true, s, P, l', c') ->
  exists a, getStateCallback vt env now stamp frame l c = Returned (s, a, l', c') /\ by_columns P a.
Proof. exact (@service_answers). Qed.
Print Assumptions C92_answer.
Theorem C92_undefined : forall (K : Scalar) E (vt : vtbl K E) env now stamp frame (l : listener K E) c,
  getStateCallback vt env now stamp frame l c = Undefined <-> listener_getState_ros vt env now stamp frame "" l c = Undefined.
Proof. exact (@service_undefined). Qed.
Print Assumptions C92_undefined.
(** Column order is the documented row order exactly for symmetric matrices, ... *)
Theorem C92_order : forall (K : Scalar) (P : mat K) a, by_columns P a -> (by_rows P a <-> symmetric P).
Proof. exact (@rows_are_symmetric). Qed.
Print Assumptions C92_order.
(** ... which all answers are when the covariances of the messages and of the
    process noise are, over every execution, for every frame. *)
Theorem C92_rows : forall E (vt : vtbl RScalar E), predicts_symmetric vt ->
  forall cap (filter : fb RScalar E) reparse q l0 c0 evs l c env now stamp frame s P l' c',
  listener_construct cap (Some filter) reparse q = Returned l0 -> fb_use_dyn filter = false ->
  (forall i j, (i < 15)%nat -> (j < 15)%nat -> nth (15 * i + j) q 0%R = nth (15 * j + i) q 0%R) ->
  Forall symmetric_pair (heard evs) -> listener_run vt evs (l0, c0) = Returned (l, c) ->
  listener_getState_ros vt env now stamp frame "" l c = Returned (true, s, P, l', c') ->
  exists a, getStateCallback vt env now stamp frame l c = Returned (s, a, l', c') /\ by_rows P a.
Proof. exact (@service_rows). Qed.
Print Assumptions C92_rows.
Theorem C92_filters : forall eig, predicts_symmetric (@ekf_vtbl RScalar eig) /\ predicts_symmetric (@ukf_vtbl RScalar eig).
Proof. exact (fun eig => conj (ekf_predicts_symmetric eig) (ukf_predicts_symmetric eig)). Qed.
Print Assumptions C92_filters.
(** A query that fails is answered with zeros. *)
Theorem C92_failed : forall (K : Scalar) E (vt : vtbl K E) env now stamp frame (l : listener K E) c s P l' c',
  listener_getState_ros vt env now stamp frame "" l c = Returned (false, s, P, l', c') ->
  getStateCallback vt env now stamp frame l c = Returned (fun _ => s_ofZ 0, fun _ => s_ofZ 0, l', c').
Proof. exact (@service_fails). Qed.
Print Assumptions C92_failed.

(** ** Concrete executions *)
(** Asked for the base frame at 1.95 s *)
Example C92_case : predicts_symmetric still_vt /\ Forall symmetric_pair (heard three_messages) /\ fb_use_dyn case_filter = false /\
  exists l c s P l' c',
  listener_construct 10 (Some case_filter) (fun x => x) (repeat (0%R : RScalar) 225) = Returned (case_listener 10) /\
  listener_run still_vt three_messages (case_listener 10, no_cache) = Returned (l, c) /\
  listener_getState_ros still_vt (case_env robot_tree) 0 1950000000 "base" "" l c = Returned (true, s, P, l', c') /\ s 0%nat = 1%R.
Proof.
  split; [intros f r d H1 H2; split; assumption|]. split; [repeat constructor|]. split; [reflexivity|].
  destruct three_case as (l & c & R & _ & s & Q & X). exists l, c, (es_state s), (es_cov s), l, c.
  split; [apply case_constructed|]. split; [exact R|]. split; [exact Q|exact X].
Qed.

(** "The response tells whether the query failed" is false: a listener that has
    heard nothing and one that stores nothing respond alike, and only the
    latter's query succeeds. *)
Theorem C92_failure_refuted : exists l c s1 P1 l1 c1 s2 P2 l2 c2 response,
  listener_getState_ros still_vt (case_env robot_tree) 0 2000000000 "base" "" (case_listener 0) no_cache = Returned (false, s1, P1, l1, c1) /\
  listener_run still_vt three_messages (case_listener 0, no_cache) = Returned (l, c) /\
  listener_getState_ros still_vt (case_env robot_tree) 0 2000000000 "base" "" l c = Returned (true, s2, P2, l2, c2) /\
  getStateCallback still_vt (case_env robot_tree) 0 2000000000 "base" (case_listener 0) no_cache = Returned (response, l1, c1) /\
  getStateCallback still_vt (case_env robot_tree) 0 2000000000 "base" l c = Returned (response, l2, c2).
Proof. do 11 eexists. split; [reflexivity|]. split; [reflexivity|]. split; [reflexivity|]. split; reflexivity. Qed.
Print Assumptions C92_failure_refuted.

(** "The covariance is in row-major order", as GetState.srv says, is false of a
    message with an asymmetric covariance. *)
Definition asymmetric_pair : pair_msg (K := RScalar) :=
  (@mkOdom RScalar 1200000000 "odom" "base" (v3 1 0 0) (@quat_identity RScalar) (v3 1 0 0) (v3 0 0 2) (fun i => if Nat.eqb i 1 then 1%R else 0%R) (fun _ => 0%R),
   @mkAccel RScalar 1200000000 "base" (v3 0 0 0) (v3 0 0 0) (fun _ => 0%R)).
Theorem C92_row_major_refuted : exists l c s P l' c' a,
  listener_run still_vt [hears asymmetric_pair] (case_listener 10, no_cache) = Returned (l, c) /\
  listener_getState_ros still_vt (case_env robot_tree) 0 1950000000 "base" "" l c = Returned (true, s, P, l', c') /\
  P 0%nat 1%nat = 1%R /\
  getStateCallback still_vt (case_env robot_tree) 0 1950000000 "base" l c = Returned (s, a, l', c') /\ ~ by_rows P a.
Proof.
  assert (X : exists l c, listener_run still_vt [hears asymmetric_pair] (case_listener 10, no_cache) = Returned (l, c) /\
    l_base l = "base"%string /\ l_world l = "odom"%string).
  { do 2 eexists. split; [reflexivity|]. split; reflexivity. }
  destruct X as (l & c & R & Hb & Hw).
  destruct (stored_answer still_vt real_order seconds_R 10 case_filter (fun x => x) (repeat (0%R : RScalar) 225) _ l no_cache c [hears asymmetric_pair]
    (case_env robot_tree) 0 1950000000 asymmetric_pair "" (case_constructed 10)) as (s & (_ & _ & _ & _ & _ & HC) & Q).
  - repeat constructor; unfold stamped32, int32; cbv; congruence.
  - repeat constructor.
  - exact R.
  - rewrite Hb. discriminate.
  - rewrite Hw. discriminate.
  - reflexivity.
  - left. reflexivity.
  - lia.
  - reflexivity.
  - rewrite Hb in Q. destruct (service_answers still_vt (case_env robot_tree) 0 1950000000 "base" l c _ _ _ _ Q) as (a & A1 & A2).
    assert (H01 : es_cov s 0%nat 1%nat = 1%R) by (rewrite (HC 0%nat 1%nat) by lia; reflexivity).
    assert (H10 : es_cov s 1%nat 0%nat = 0%R) by (rewrite (HC 1%nat 0%nat) by lia; reflexivity).
    exists l, c, (es_state s), (es_cov s), l, c, a. split; [exact R|]. split; [exact Q|]. split; [exact H01|]. split; [exact A1|].
    intros HR. specialize (proj1 (rows_are_symmetric _ a A2) HR 0%nat 1%nat ltac:(lia) ltac:(lia)). intros H. rewrite H01, H10 in H. revert H. apply R1_neq_R0.
Qed.
Print Assumptions C92_row_major_refuted.
