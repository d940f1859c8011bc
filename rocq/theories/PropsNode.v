(** * Properties of the node's queue, history, update cycle and services (C26-C40, C58) *)

From Coq Require Import Reals ZArith List Permutation Sorting.Sorted Bool Lia String Arith Floats.
From Verif Require Import Scalar FloatScalar Mat FilterBase Ekf Ukf Tf StrMap Diagnostics RosFilter SpecNode
  NodeProofs NodeInv NodeFacts NodeTime NodeSmooth NodeMore NodeScenario NodeReach EigenExist.
Import ListNotations.
Local Open Scope Z_scope.

(** The hypotheses on queue and filter hold: a list searched for its minimum is
    a priority queue, and both filters leave time and control alone. *)
Theorem C26_queue_exists : forall K, pq_ok (list_pq K).
Proof. exact list_pq_ok. Qed.
Print Assumptions C26_queue_exists.
Theorem C26_ekf_time_neutral : forall K eig, time_neutral (@ekf_vtbl K eig).
Proof. exact (@ekf_neutral). Qed.
Print Assumptions C26_ekf_time_neutral.
Theorem C26_ukf_time_neutral : forall K eig, time_neutral (@ukf_vtbl K eig).
Proof. exact (@ukf_neutral). Qed.
Print Assumptions C26_ukf_time_neutral.

(** ** Concrete nodes *)
Definition ex_cfg (smooth predict control permit : bool) : config RScalar :=
  mkConfig smooth predict control permit true true false 100 20 0 10 mzero mzero
    "odom" "map" "odom" "base_link" "base_link".
Definition k (x : R) : vec RScalar := fun _ => x.
Definition ex_filter : ekf RScalar :=
  setSensorTimeout (@fb_init RScalar unit (k 0) tt) 20.
Definition ex_ang : angular RScalar := @mkAng RScalar v3zero mzero v3zero 0%R.
Definition ex_start : node RScalar unit := node_init ex_filter ex_ang (k 0) false 0.
Definition ex_upd : list bool := repeat true 15.
Definition ex_msg (topic : string) (t : Z) : event RScalar unit := @message RScalar unit topic t ex_upd (k 1) meye 5%R.
(** A filter that computes nothing, to run examples by evaluation. *)
Definition still : vtbl RScalar unit := mkVtbl (fun s _ _ => s) (fun s _ => s).
Lemma still_neutral : time_neutral still.
Proof. split; intros; split; reflexivity. Qed.
Definition ex_run c n es := node_run (list_pq RScalar) still c n es.

(** ** C26 *)
Theorem C26_no_early_fusion : forall (K : Scalar) E (pq : pqueue K) (vt : vtbl K E) c, pq_ok pq ->
  forall cur later lookup (n n' : node K E) o, periodicUpdate pq vt c cur later lookup n = (n', o) ->
  Forall (fun m => m_time m <= cur) (fused o) /\
  (n_toggled n = true -> forall m, In m (n_queue n) -> cur < m_time m -> In m (n_queue n')).
Proof.
  exact (fun K E pq vt c Hpq cur later lookup n n' o H =>
    conj (proj1 (cycle_order pq vt c Hpq cur later lookup n n' o H))
      (fun Ht m => cycle_later_stay pq vt c Hpq cur later lookup n n' o m H Ht)).
Qed.
Print Assumptions C26_no_early_fusion.

(** Everything due is fused: an enabled, toggled-on node keeps nothing stamped
    at or before the current time. *)
Theorem C26_due_fused : forall (K : Scalar) E (pq : pqueue K) (vt : vtbl K E) c, pq_ok pq ->
  forall cur later lookup (n n' : node K E) o, periodicUpdate pq vt c cur later lookup n = (n', o) ->
  n_enabled n = true -> n_toggled n = true -> Forall (fun m => cur < m_time m) (n_queue n').
Proof.
  exact (fun K E pq vt c Hpq cur later lookup n n' o H He Ht =>
    proj1 (proj1 (proj2 (proj2 (cycle_order pq vt c Hpq cur later lookup n n' o H))) He Ht)).
Qed.
Print Assumptions C26_due_fused.

Example C26_case :
  let r := ex_run (ex_cfg false false false true) ex_start
             [ex_msg "odom" 5; ex_msg "gps" 9; ex_msg "imu" 2; EvCycle 6 6 None] in
  map m_time (fused (snd r)) = [2; 5] /\ map m_time (n_queue (fst r)) = [9].
Proof. split; reflexivity. Qed.

(** ** C27 *)
Theorem C27_stamp_order : forall (K : Scalar) E (pq : pqueue K) (vt : vtbl K E) c, pq_ok pq ->
  forall cur later lookup (n n' : node K E) o, periodicUpdate pq vt c cur later lookup n = (n', o) ->
  in_order (fused o).
Proof.
  exact (fun K E pq vt c Hpq cur later lookup n n' o H =>
    proj1 (proj2 (cycle_order pq vt c Hpq cur later lookup n n' o H))).
Qed.
Print Assumptions C27_stamp_order.

(** Over every run without smoothing: fused, still queued and explicitly
    discarded measurements together are exactly the enqueued ones. *)
Theorem C27_exactly_once : forall (K : Scalar) E (pq : pqueue K) (vt : vtbl K E) c, pq_ok pq ->
  forall es, c_smooth c = false -> forall n : node K E,
  Permutation (fused (snd (node_run pq vt c n es)) ++ n_queue (fst (node_run pq vt c n es)) ++ dropped pq vt c n es)
    (n_queue n ++ queued (snd (node_run pq vt c n es))).
Proof. exact (@run_account). Qed.
Print Assumptions C27_exactly_once.

Example C27_case :
  let es := [ex_msg "odom" 5; ex_msg "gps" 2; EvCycle 6 6 None; ex_msg "odom" 9; EvCycle 7 7 None] in
  let r := ex_run (ex_cfg false false false true) ex_start es in
  map m_time (fused (snd r)) = [2; 5] /\ map m_time (n_queue (fst r)) = [9] /\
  dropped (list_pq RScalar) still (ex_cfg false false false true) ex_start es = [].
Proof. repeat split; reflexivity. Qed.
Example C27_dropped_case :
  map m_time (dropped (list_pq RScalar) still (ex_cfg false false false true) ex_start [ex_msg "odom" 5; EvReset]) = [5].
Proof. reflexivity. Qed.

(** ** C28 *)
Theorem C28_ekf_in_order : forall (K : Scalar) eig pq (c : config K) f ang ctl dis now t0 es,
  pq_ok pq -> c_smooth c = true -> c_use_control c = false ->
  fb_F f = meye -> fb_use_control f = false -> fb_initialized f = false ->
  monotone_clock t0 es -> Forall plain es ->
  let n := node_init f ang ctl dis now in
  let r := node_run pq (ekf_vtbl eig) c n es in
  deep_enough pq (ekf_vtbl eig) c n es -> intervals (snd r) = [] ->
  exists l, in_order l /\ Permutation (l ++ n_queue (fst r)) (queued (snd r)) /\
    same_estimate (n_filter (fst r)) (fold_left (processMeasurement (ekf_vtbl eig)) l f).
Proof. exact (@ekf_in_order). Qed.
Print Assumptions C28_ekf_in_order.

Theorem C28_ukf_in_order : forall (K : Scalar) eig pq (c : config K) f ang ctl dis now t0 es,
  pq_ok pq -> c_smooth c = true -> c_use_control c = false ->
  fb_F f = meye -> fb_use_control f = false -> fb_initialized f = false ->
  monotone_clock t0 es -> Forall plain es ->
  let n := node_init f ang ctl dis now in
  let r := node_run pq (ukf_vtbl eig) c n es in
  deep_enough pq (ukf_vtbl eig) c n es -> intervals (snd r) = [] ->
  exists l, in_order l /\ Permutation (l ++ n_queue (fst r)) (queued (snd r)) /\
    same_estimate (n_filter (fst r)) (fold_left (processMeasurement (ukf_vtbl eig)) l f).
Proof. exact (@ukf_in_order). Qed.
Print Assumptions C28_ukf_in_order.

Theorem C28_order_unique : forall (K : Scalar) (l l' : list (meas K)),
  in_order l -> in_order l' -> Permutation l l' -> NoDup (map m_time l) -> l = l'.
Proof. exact (@order_unique). Qed.
Print Assumptions C28_order_unique.

(** Stamps 1, 5, 3 in that order of arrival: all hypotheses hold, and
    everything has been fused. *)
Example C28_case eig :
  let c := ex_cfg true false false true in
  let es := shuffled ex_upd (k 1) (k 2) meye 5%R None in
  fb_F ex_filter = meye /\ fb_use_control ex_filter = false /\ fb_initialized ex_filter = false /\
  monotone_clock 0 es /\ Forall plain es /\
  deep_enough (list_pq RScalar) (ekf_vtbl eig) c ex_start es /\
  intervals (snd (node_run (list_pq RScalar) (ekf_vtbl eig) c ex_start es)) = [] /\
  map m_time (queued (snd (node_run (list_pq RScalar) (ekf_vtbl eig) c ex_start es))) = [1; 5; 3] /\
  n_queue (fst (node_run (list_pq RScalar) (ekf_vtbl eig) c ex_start es)) = [].
Proof.
  cbv zeta. repeat (split; [reflexivity|]).
  apply (shuffled_ok (list_pq RScalar) (ekf_vtbl eig) (ex_cfg true false false true) (list_pq_ok _) (ekf_neutral eig)
    ex_filter ex_ang (k 0)); cbn; try reflexivity. lia.
Qed.
Example C28_ukf_case eig :
  let c := ex_cfg true false false true in
  let f := setConstants (@ukf_init RScalar (k 0) (fun _ => k 0) mzero 0%R) 1%R 0%R 2%R in
  let es := shuffled ex_upd (k 1) (k 2) meye 5%R None in
  fb_F f = meye /\ fb_use_control f = false /\ fb_initialized f = false /\
  deep_enough (list_pq RScalar) (ukf_vtbl eig) c (node_init f ex_ang (k 0) false 0) es.
Proof.
  cbv zeta. repeat (split; [reflexivity|]).
  apply (shuffled_ok (list_pq RScalar) (ukf_vtbl eig) (ex_cfg true false false true) (list_pq_ok _) (ukf_neutral eig)
    (setConstants (@ukf_init RScalar (k 0) (fun _ => k 0) mzero 0%R) 1%R 0%R 2%R) ex_ang (k 0)); cbn; try reflexivity. lia.
Qed.

(** ** C29 *)
Theorem C29_revert_exact : forall (K : Scalar) E (pq : pqueue K), pq_ok pq -> forall (n : node K E) t,
  StronglySorted (fun a b => m_time a <= m_time b) (n_meas_hist n) ->
  StronglySorted (fun a b => fs_time a <= fs_time b) (n_state_hist n) ->
  n_state_hist n <> [] ->
  exists pre s post, n_state_hist n = pre ++ s :: post /\
    Forall (fun x => t < fs_time x) post /\
    (fs_time s <= t \/ pre = [] /\ t < fs_time s) /\
    fst (revertTo pq n t) = (fs_time s <=? t) /\
    let n' := snd (revertTo pq n t) in
    fb_state (n_filter n') = fs_state s /\ fb_P (n_filter n') = fs_P s /\
    fb_last_time (n_filter n') = fs_time s /\
    fb_initialized (n_filter n') = fb_initialized (n_filter n) /\
    fb_control (n_filter n') = fb_control (n_filter n) /\
    n_state_hist n' = filter (fun x => fs_time x <=? t) (n_state_hist n) /\
    n_meas_hist n' = filter (fun m => m_time m <=? t) (n_meas_hist n) /\
    Permutation (n_queue n')
      (n_queue n ++ filter (fun m => (t <? m_time m) && (fs_time s <=? m_time m))%bool (n_meas_hist n)).
Proof. exact (@revert_exact). Qed.
Print Assumptions C29_revert_exact.

Theorem C29_revert_empty : forall (K : Scalar) E (pq : pqueue K), pq_ok pq ->
  forall (n : node K E) t, n_state_hist n = [] -> revertTo pq n t = (false, n).
Proof. exact (@revert_empty). Qed.
Print Assumptions C29_revert_empty.

(** The node with three recorded states; reverting to 7 and to 1. *)
Definition ex_hist : node RScalar unit :=
  fst (ex_run (ex_cfg true false false true) ex_start
    [ex_msg "odom" 2; EvCycle 2 2 None; ex_msg "odom" 6; EvCycle 6 6 None; ex_msg "odom" 8; EvCycle 8 8 None]).
Example C29_case :
  map fs_time (n_state_hist ex_hist) = [2; 6; 8] /\ map m_time (n_meas_hist ex_hist) = [2; 6; 8] /\
  fst (revertTo (list_pq RScalar) ex_hist 7) = true /\
  fb_last_time (n_filter (snd (revertTo (list_pq RScalar) ex_hist 7))) = 6 /\
  map m_time (n_queue (snd (revertTo (list_pq RScalar) ex_hist 7))) = [8] /\
  fst (revertTo (list_pq RScalar) ex_hist 1) = false /\
  map m_time (n_queue (snd (revertTo (list_pq RScalar) ex_hist 1))) = [2; 6; 8].
Proof. repeat split; reflexivity. Qed.
Example C29_empty_case : n_state_hist ex_start = [].
Proof. reflexivity. Qed.

(** ** C30 *)

(** Every execution: when the lagged measurement is not later than the oldest
    snapshot, all recorded measurements not earlier than that snapshot are
    fused again, including those that the snapshot already contains. *)
Theorem C30_refused_refuted : forall (K : Scalar) E (pq : pqueue K) (vt : vtbl K E) c, pq_ok pq -> time_neutral vt ->
  forall f ang ctl dis now t0 es cur later lookup first s post m,
  fb_initialized f = false -> monotone_clock t0 (es ++ [EvCycle cur later lookup]) -> c_smooth c = true ->
  let n := fst (node_run pq vt c (node_init f ang ctl dis now) es) in
  n_enabled n = true -> n_toggled n = true ->
  In first (n_queue n) -> m_time first < fb_last_time (n_filter n) ->
  n_state_hist n = s :: post -> m_time first <= fs_time s ->
  In m (n_meas_hist n) -> fs_time s <= m_time m -> m_time m <= cur ->
  In m (fused (snd (periodicUpdate pq vt c cur later lookup n))).
Proof. exact (@history_refused). Qed.
Print Assumptions C30_refused_refuted.

(** A run of every filter in which two messages lead to three fusions. *)
Theorem C30_fused_twice_refuted : forall (K : Scalar) E (pq : pqueue K) (vt : vtbl K E) c, pq_ok pq -> time_neutral vt ->
  forall f ang ctl upd v v' cov th lk,
  c_smooth c = true -> c_predict_now c = false -> fb_initialized f = false -> 0 <= c_history c ->
  let m1 := mkMeas "odom" 5 v cov upd th ctl 0 in
  let m2 := mkMeas "gps" 3 v' cov upd th ctl 0 in
  let r := node_run pq vt c (node_init f ang ctl false 0)
    [message "odom" 5 upd v cov th; EvCycle 5 5 lk; message "gps" 3 upd v' cov th; EvCycle 6 6 lk] in
  queued (snd r) = [m1; m2] /\ fused (snd r) = [m1; m2; m1].
Proof. exact (@fused_twice). Qed.
Print Assumptions C30_fused_twice_refuted.

Example C30_case :
  let n := fst (ex_run (ex_cfg true false false true) ex_start
    [ex_msg "odom" 5; EvCycle 5 5 None; ex_msg "gps" 3]) in
  map m_time (n_queue n) = [3] /\ fb_last_time (n_filter n) = 5 /\ map fs_time (n_state_hist n) = [5] /\
  map m_time (n_meas_hist n) = [5] /\
  monotone_clock (E:=unit) (K:=RScalar) 0 ([ex_msg "odom" 5; EvCycle 5 5 None; ex_msg "gps" 3] ++ [EvCycle 6 6 None]).
Proof. repeat (split; [reflexivity|]). unfold monotone_clock. cbn. repeat constructor; cbn; lia. Qed.

(** ** C31 *)
Theorem C31_history_ordered : forall (K : Scalar) E (pq : pqueue K) (vt : vtbl K E) c, pq_ok pq -> time_neutral vt ->
  forall f ang ctl dis now t0 es, fb_initialized f = false -> monotone_clock t0 es ->
  let n := fst (node_run pq vt c (node_init f ang ctl dis now) es) in
  StronglySorted (fun a b => m_time a <= m_time b) (n_meas_hist n) /\
  StronglySorted (fun a b => fs_time a <= fs_time b) (n_state_hist n) /\
  (c_smooth c = false -> n_meas_hist n = [] /\ n_state_hist n = []).
Proof. exact (@history_ordered). Qed.
Print Assumptions C31_history_ordered.

(** [n''] is the node after the same cycle with a longer history: expiry
    removes exactly what lies outside the window. *)
Theorem C31_history_window : forall (K : Scalar) E (pq : pqueue K) (vt : vtbl K E) c, pq_ok pq -> time_neutral vt ->
  forall f ang ctl dis now t0 es cur later lookup,
  fb_initialized f = false -> monotone_clock t0 (es ++ [EvCycle cur later lookup]) -> c_smooth c = true ->
  let n := fst (node_run pq vt c (node_init f ang ctl dis now) es) in
  n_enabled n = true ->
  let n' := fst (periodicUpdate pq vt c cur later lookup n) in
  let cutoff := fb_last_time (n_filter n') - c_history c in
  Forall (fun m => cutoff <= m_time m) (n_meas_hist n') /\
  Forall (fun s => cutoff <= fs_time s) (n_state_hist n') /\
  forall h, c_history c <= h ->
    let n'' := fst (periodicUpdate pq vt (with_history c h) cur later lookup n) in
    n_meas_hist n' = filter (fun m => cutoff <=? m_time m) (n_meas_hist n'') /\
    n_state_hist n' = filter (fun s => cutoff <=? fs_time s) (n_state_hist n'').
Proof. exact (@history_window). Qed.
Print Assumptions C31_history_window.

Example C31_case :
  let c := with_history (ex_cfg true false false true) 5 in
  let es := [ex_msg "odom" 2; EvCycle 2 2 None; ex_msg "odom" 6; EvCycle 6 6 None; ex_msg "odom" 8] in
  monotone_clock (E:=unit) (K:=RScalar) 0 (es ++ [EvCycle 8 8 None]) /\
  map m_time (n_meas_hist (fst (ex_run c ex_start es))) = [2; 6] /\
  map m_time (n_meas_hist (fst (ex_run c ex_start (es ++ [EvCycle 8 8 None])))) = [6; 8] /\
  map fs_time (n_state_hist (fst (ex_run c ex_start (es ++ [EvCycle 8 8 None])))) = [6; 8].
Proof. split; [unfold monotone_clock; cbn; repeat constructor; cbn; lia|]. repeat split; reflexivity. Qed.

(** ** C32 *)

(** Of all predictions that anybody requests of the filter (the node's own and
    those inside processMeasurement), none covers a negative interval. *)
Theorem C32_never_backwards : forall (K : Scalar) E (pq : pqueue K) (vt : vtbl K E) c, pq_ok pq -> time_neutral vt ->
  forall f ang ctl dis now t0 es,
  fb_initialized f = false -> fst (fb_ext f) = [] -> monotone_clock t0 es ->
  Forall (fun d => 0 <= d) (logged (fst (node_run pq (recording vt) c (node_init f ang ctl dis now) es))).
Proof.
  exact (fun K E pq vt c Hpq Hvt f ang ctl dis now t0 es Hf Hl Hm =>
    never_backwards pq vt c Hpq Hvt es _ t0 (init_inv c f ang ctl dis now t0 Hf)
      (eq_ind_r (fun l => Forall _ l) (Forall_nil _) Hl) Hm).
Qed.
Print Assumptions C32_never_backwards.

(** With a clock that jumps back from 10 to 5 the filter is asked to predict
    over -5. *)
Theorem C32_backward_clock_refuted : forall (K : Scalar) E (pq : pqueue K) (vt : vtbl K E) c, pq_ok pq -> time_neutral vt ->
  forall f ang ctl upd v cov th lk, c_smooth c = false -> c_predict_now c = true -> fb_initialized f = false ->
  intervals (snd (node_run pq vt c (node_init f ang ctl false 0)
    [message "odom" 10 upd v cov th; EvCycle 10 10 lk; EvCycle 5 5 lk])) = [0; -5].
Proof. exact (@back_run). Qed.
Print Assumptions C32_backward_clock_refuted.

Theorem C32_backward_projection_refuted : forall (K : Scalar) E (pq : pqueue K) (vt : vtbl K E) c, pq_ok pq ->
  forall cur later lookup (n : node K E),
  n_enabled n = true -> n_toggled n = true -> n_queue n = [] -> fb_initialized (n_filter n) = true ->
  c_predict_now c = true -> cur < fb_last_time (n_filter n) ->
  exists d, d < 0 /\ intervals (snd (periodicUpdate pq vt c cur later lookup n)) = [d] /\
    fb_state (n_filter (fst (periodicUpdate pq vt c cur later lookup n))) = fb_state (v_predict vt (n_filter n) cur d).
Proof. exact (@backward_projection). Qed.
Print Assumptions C32_backward_projection_refuted.

Example C32_case :
  let f := with_log ex_filter ([], tt) in
  let r := node_run (list_pq RScalar) (recording still) (ex_cfg false true false true)
    (node_init f ex_ang (k 0) false 0)
    [message "odom" 5 ex_upd (k 1) meye 5%R; EvCycle 6 6 None;
     message "odom" 8 ex_upd (k 1) meye 5%R; EvCycle 9 9 None] in
  logged (fst r) = [1; 2; 1].
Proof. reflexivity. Qed.
Example C32_backward_case :
  let n := fst (ex_run (ex_cfg false true false true) ex_start [ex_msg "odom" 10; EvCycle 10 10 None]) in
  n_enabled n = true /\ n_toggled n = true /\ n_queue n = [] /\ fb_initialized (n_filter n) = true /\
  fb_last_time (n_filter n) = 10.
Proof. repeat split; reflexivity. Qed.

(** ** C33 *)
Theorem C33_timeout : forall (K : Scalar) E (pq : pqueue K) (vt : vtbl K E) c, pq_ok pq ->
  forall cur later lookup (n n' : node K E) o,
  n_enabled n = true -> n_toggled n = true -> n_queue n = [] ->
  periodicUpdate pq vt c cur later lookup n = (n', o) ->
  fused o = [] /\
  if (fb_initialized (n_filter n) &&
      (c_predict_now c || (fb_sensor_timeout (n_filter n) <=? cur - fb_last_time (n_filter n))))%bool
  then intervals o = [cur - fb_last_time (n_filter n)] /\
       n_filter n' = (let p := v_predict vt (n_filter n) cur (cur - fb_last_time (n_filter n)) in
                      set_last_time p (fb_last_time p + (cur - fb_last_time (n_filter n))))
  else intervals o = [] /\ n_filter n' = n_filter n.
Proof. exact (@idle_cycle). Qed.
Print Assumptions C33_timeout.

Example C33_case :
  let n := fst (ex_run (ex_cfg false false false true) ex_start [ex_msg "odom" 10; EvCycle 10 10 None]) in
  n_queue n = [] /\ fb_sensor_timeout (n_filter n) = 20 /\
  intervals (snd (ex_run (ex_cfg false false false true) n [EvCycle 29 29 None])) = [] /\
  intervals (snd (ex_run (ex_cfg false false false true) n [EvCycle 30 30 None])) = [20] /\
  intervals (snd (ex_run (ex_cfg false false false true) ex_start [EvCycle 30 30 None])) = [].
Proof. repeat split; reflexivity. Qed.

(** ** C34 *)
Theorem C34_stale_message : forall (K : Scalar) E (pq : pqueue K) warn topic stamp upd thresh prep (n : node K E),
  stamp <= n_set_pose n \/ (exists last, sm_find (n_last_msg n) topic = Some last /\ stamp < last) ->
  let r := sensorCallback pq warn topic stamp upd thresh prep n in
  snd r = [] /\ exists d, fst r = with_diag n d.
Proof. exact (@sensor_stale). Qed.
Print Assumptions C34_stale_message.

(** The warning says which of the two it was. *)
Theorem C34_warned : forall (K : Scalar) E (pq : pqueue K) warn topic stamp upd thresh prep (n : node K E),
  let r := fst (sensorCallback pq warn topic stamp upd thresh prep n) in
  let warned text := addDiagnostic (n_diag n) (mkCall 1 (topic ++ "_timestamp") text false) in
  (stamp <= n_set_pose n ->
     n_diag r = if warn then warned "message has a timestamp equal to or before the last filter reset"%string else n_diag n) /\
  (forall last, n_set_pose n < stamp -> sm_find (n_last_msg n) topic = Some last -> stamp < last ->
     n_diag r = warned "message has a timestamp before that of the previous message received"%string).
Proof. exact (@stale_warned). Qed.
Print Assumptions C34_warned.

Theorem C34_set_pose_barrier : forall (K : Scalar) E (pq : pqueue K) (vt : vtbl K E) c, pq_ok pq ->
  forall stamp prep now es (n : node K E), Forall no_reset es ->
  let n1 := setPoseCallback stamp prep now n in
  let r := node_run pq vt c n1 es in
  Forall (fun m => stamp < m_time m) (fused (snd r)) /\ Forall (fun m => stamp < m_time m) (n_queue (fst r)).
Proof. exact (@barrier). Qed.
Print Assumptions C34_set_pose_barrier.

Example C34_case :
  let es := [ex_msg "odom" 5; ex_msg "odom" 4; EvSetPose 7 (verbatim (k 1) meye) 7; ex_msg "gps" 7; ex_msg "gps" 8; EvCycle 9 9 None] in
  let r := ex_run (ex_cfg false false false true) ex_start es in
  map m_time (queued (snd r)) = [5; 8] /\ map m_time (fused (snd r)) = [8].
Proof. split; reflexivity. Qed.

(** ** C35 *)
Theorem C35_publication : forall (K : Scalar) E (pq : pqueue K) (vt : vtbl K E) c, pq_ok pq ->
  forall cur later lookup (n : node K E),
  let r := periodicUpdate pq vt c cur later lookup n in
  let f := n_filter (fst r) in
  (if (n_enabled n && fb_initialized f && (c_permit c || (n_last_pub n <? fb_last_time f)))%bool
   then exists m, odoms (snd r) = [m] /\ carries f m
   else odoms (snd r) = []) /\
  (n_enabled n = true -> fb_initialized f = true -> n_last_pub (fst r) = fb_last_time f).
Proof. exact (@publication). Qed.
Print Assumptions C35_publication.

(** The remembered stamp only changes in such a cycle and by a reset; other
    events publish nothing. *)
Theorem C35_remembered_stamp : forall (K : Scalar) E (pq : pqueue K) (vt : vtbl K E) c, pq_ok pq ->
  forall (n : node K E) e,
  match e with
  | EvCycle _ _ _ => n_enabled n = false \/ fb_initialized (n_filter (fst (node_step pq vt c n e))) = false
  | EvReset => False
  | _ => True
  end -> n_last_pub (fst (node_step pq vt c n e)) = n_last_pub n.
Proof. exact (@pub_memory). Qed.
Print Assumptions C35_remembered_stamp.

Theorem C35_other_events_quiet : forall (K : Scalar) E (pq : pqueue K) (vt : vtbl K E) c, pq_ok pq ->
  forall (n : node K E) e, match e with EvCycle _ _ _ => False | _ => True end ->
  let r := node_step pq vt c n e in fused (snd r) = [] /\ odoms (snd r) = [] /\ intervals (snd r) = [].
Proof. exact (@other_quiet). Qed.
Print Assumptions C35_other_events_quiet.

Example C35_case :
  let r := ex_run (ex_cfg false false false false) ex_start
    [EvCycle 5 5 None; ex_msg "odom" 6; EvCycle 6 6 None; EvCycle 7 7 None; ex_msg "odom" 8; EvCycle 9 9 None] in
  map o_stamp (odoms (snd r)) = [6; 8].
Proof. reflexivity. Qed.

(** ** C36 *)
Theorem C36_increasing_stamps : forall (K : Scalar) E (pq : pqueue K) (vt : vtbl K E) c, pq_ok pq -> time_neutral vt ->
  forall f ang ctl dis now t0 es, c_smooth c = false -> c_permit c = false ->
  fb_initialized f = false -> monotone_clock t0 es -> Forall no_hard_reset es ->
  StronglySorted Z.lt (map o_stamp (odoms (snd (node_run pq vt c (node_init f ang ctl dis now) es)))).
Proof. exact (@start_stamps). Qed.
Print Assumptions C36_increasing_stamps.

(** With smoothing: stamps 10, 10+T, 12 are published in this order. *)
Theorem C36_falling_stamps_refuted : forall (K : Scalar) E (pq : pqueue K) (vt : vtbl K E) c, pq_ok pq -> time_neutral vt ->
  forall f ang ctl upd v cov th lk,
  let T := fb_sensor_timeout f in
  c_smooth c = true -> c_permit c = false -> c_predict_now c = false -> fb_initialized f = false ->
  2 < T -> T <= c_history c ->
  map o_stamp (odoms (snd (node_run pq vt c (node_init f ang ctl false 0)
    [message "odom" 10 upd v cov th; EvCycle 10 10 lk; EvCycle (10 + T) (10 + T) lk;
     message "odom" 11 upd v cov th; EvCycle (11 + T) (11 + T) lk;
     message "odom" 12 upd v cov th; EvCycle (12 + T) (12 + T) lk]))) = [10; 10 + T; 12].
Proof. exact (@falling_stamps). Qed.
Print Assumptions C36_falling_stamps_refuted.

Example C36_case :
  let es := [ex_msg "odom" 6; EvCycle 6 6 None; EvCycle 7 7 None; ex_msg "odom" 8; EvCycle 9 9 None; EvCycle 40 40 None] in
  monotone_clock 0 es /\ Forall no_hard_reset es /\
  map o_stamp (odoms (snd (ex_run (ex_cfg false false false false) ex_start es))) = [6; 8; 40].
Proof. split; [unfold monotone_clock; cbn; repeat constructor; cbn; lia|]. split; [repeat constructor|reflexivity]. Qed.
Example C36_falling_case :
  let c := ex_cfg true false false false in
  c_smooth c = true /\ c_permit c = false /\ c_predict_now c = false /\ fb_initialized ex_filter = false /\
  2 < fb_sensor_timeout ex_filter /\ fb_sensor_timeout ex_filter <= c_history c.
Proof. cbn. repeat split; lia. Qed.

(** ** C37 *)
Theorem C37_nonfinite_published : forall (K : Scalar) E (pq : pqueue K) (vt : vtbl K E) c, pq_ok pq ->
  forall cur later lookup (n : node K E) m i,
  n_enabled n = true -> n_toggled n = true -> n_queue n = [m] -> n_state_hist n = [] ->
  fb_initialized (n_filter n) = false -> m_time m <= cur -> c_predict_now c = false ->
  (c_permit c = true \/ n_last_pub n < m_time m) ->
  In i [0; 1; 2; 6; 7; 8; 9; 10; 11]%nat -> nth i (m_upd m) false = true ->
  s_isnan (m_value m i) = true \/ s_isinf (m_value m i) = true ->
  let r := periodicUpdate pq vt c cur later lookup n in
  exists msg, odoms (snd r) = [msg] /\ carries (n_filter (fst r)) msg /\
    fb_state (n_filter (fst r)) i = m_value m i /\ In OutNonFinite (snd r).
Proof. exact (@nonfinite_published). Qed.
Print Assumptions C37_nonfinite_published.

(** With doubles: one message with a NaN speed, then a cycle. *)
Example C37_case lm :
  let c : config (FScalar lm) := mkConfig false false false false true true false 100 20 0 10 mzero mzero
    "odom" "map" "odom" "base_link" "base_link" in
  let f := @fb_init (FScalar lm) unit vzero tt in
  let n := fst (node_step (list_pq (FScalar lm)) (mkVtbl (fun s _ _ => s) (fun s _ => s)) c
    (node_init f (@mkAng (FScalar lm) v3zero mzero v3zero PrimFloat.zero) vzero false 0)
    (@message (FScalar lm) unit "twist" 10 (repeat true 15) (fun _ => PrimFloat.nan) mzero PrimFloat.zero)) in
  exists m, n_queue n = [m] /\ n_enabled n = true /\ n_toggled n = true /\ n_state_hist n = [] /\
    fb_initialized (n_filter n) = false /\ n_last_pub n < m_time m /\ nth 6 (m_upd m) false = true /\
    s_isnan (m_value m 6%nat) = true.
Proof. cbv zeta. eexists. split; [reflexivity|]. repeat split; reflexivity. Qed.

(** ** C38 *)
Theorem C38_toggle_service : forall (K : Scalar) E on (n : node K E),
  let r := toggleFilterProcessingCallback on n in
  n_toggled (fst r) = on /\ snd r = [OutStatus (negb (Bool.eqb on (n_toggled n)))] /\
  (on = n_toggled n -> fst r = n) /\ n_filter (fst r) = n_filter n /\ n_queue (fst r) = n_queue n.
Proof. exact (@toggle_service). Qed.
Print Assumptions C38_toggle_service.

Theorem C38_toggled_off_cycle : forall (K : Scalar) E (pq : pqueue K) (vt : vtbl K E) c cur later lookup (n n' : node K E) o,
  n_enabled n = true -> n_toggled n = false -> periodicUpdate pq vt c cur later lookup n = (n', o) ->
  n_queue n' = [] /\ fused o = [] /\ intervals o = [] /\
  n_filter n' = if fb_initialized (n_filter n) then set_last_time (n_filter n) later else n_filter n.
Proof. exact (@toggled_off_cycle). Qed.
Print Assumptions C38_toggled_off_cycle.

Example C38_case :
  let n := fst (ex_run (ex_cfg false false false true) ex_start
    [ex_msg "odom" 5; EvCycle 5 5 None; EvToggle false; ex_msg "odom" 6]) in
  n_toggled n = false /\ n_enabled n = true /\ fb_initialized (n_filter n) = true /\ map m_time (n_queue n) = [6] /\
  fb_last_time (n_filter (fst (ex_run (ex_cfg false false false true) n [EvCycle 8 9 None]))) = 9.
Proof. repeat split; reflexivity. Qed.

(** ** C39 *)
Theorem C39_disabled_quiet : forall (K : Scalar) E (pq : pqueue K) (vt : vtbl K E) c, pq_ok pq ->
  forall es (n : node K E), n_enabled n = false -> Forall not_enable es ->
  n_enabled (fst (node_run pq vt c n es)) = false /\
  fused (snd (node_run pq vt c n es)) = [] /\ intervals (snd (node_run pq vt c n es)) = [] /\
  odoms (snd (node_run pq vt c n es)) = [] /\ accels (snd (node_run pq vt c n es)) = [] /\
  tfs (snd (node_run pq vt c n es)) = [].
Proof. exact (@disabled_quiet). Qed.
Print Assumptions C39_disabled_quiet.

Theorem C39_enable_service : forall (K : Scalar) E (n : node K E),
  let r := enableFilterSrvCallback n in
  n_enabled (fst r) = true /\ snd r = [OutStatus true] /\ (n_enabled n = true -> fst r = n) /\
  enableFilterSrvCallback (fst r) = r /\ n_queue (fst r) = n_queue n /\ n_filter (fst r) = n_filter n.
Proof. exact (@enable_service). Qed.
Print Assumptions C39_enable_service.

Theorem C39_fused_after_enabling : forall (K : Scalar) E (pq : pqueue K) (vt : vtbl K E) c, pq_ok pq ->
  forall es cur later lookup (n : node K E) m,
  n_enabled n = false -> n_toggled (fst (node_run pq vt c n es)) = true -> Forall keeps_queue es ->
  In m (n_queue n ++ queued (snd (node_run pq vt c n es))) -> m_time m <= cur ->
  In m (fused (snd (node_run pq vt c (fst (node_run pq vt c n es)) [EvEnable; EvCycle cur later lookup]))).
Proof. exact (@enabled_later). Qed.
Print Assumptions C39_fused_after_enabling.

Example C39_case :
  let n := node_init ex_filter ex_ang (k 0) true 0 in
  let r := ex_run (ex_cfg false false false true) n [ex_msg "odom" 5; EvCycle 6 6 None] in
  n_enabled n = false /\ n_toggled (fst r) = true /\ map m_time (queued (snd r)) = [5] /\
  map m_time (fused (snd (ex_run (ex_cfg false false false true) (fst r) [EvEnable; EvCycle 7 7 None]))) = [5].
Proof. repeat split; reflexivity. Qed.

(** ** C40 *)
Theorem C40_reset : forall (K : Scalar) E (c : config K) (n : node K E),
  let n' := reset c n in
  n_queue n' = [] /\ n_meas_hist n' = [] /\ n_state_hist n' = [] /\ n_streams n' = no_streams /\ n_last_msg n' = [] /\
  n_set_pose n' = 0 /\ n_last_pub n' = 0 /\
  fb_initialized (n_filter n') = false /\ (forall i, fb_state (n_filter n') i = s_ofZ 0) /\
  fb_last_time (n_filter n') = 0 /\
  fb_P (n_filter n') = c_P c /\ fb_Q (n_filter n') = c_Q c /\ fb_sensor_timeout (n_filter n') = c_sensor_timeout c /\
  n_enabled n' = n_enabled n /\ n_toggled n' = n_toggled n.
Proof. exact (@reset_facts). Qed.
Print Assumptions C40_reset.

Example C40_case : let n := ex_hist in
  fb_initialized (n_filter n) = true /\ map fs_time (n_state_hist n) = [2; 6; 8] /\
  n_last_msg n = [("odom"%string, 8)] /\ fb_last_time (n_filter n) = 8.
Proof. repeat split; reflexivity. Qed.

(** ** C58 *)
Theorem C58_control_neutral : forall K eig, control_neutral (@ekf_vtbl K eig) /\ control_neutral (@ukf_vtbl K eig).
Proof. exact (fun K eig => conj (ekf_control_neutral eig) (ukf_control_neutral eig)). Qed.
Print Assumptions C58_control_neutral.

(** In every replay, [r] being the number of restored measurements: the first
    [r] measurements processed, restored or not, use their own control; all
    further ones, and the filter afterwards, use the control of the [r]-th. *)
Theorem C58_replay_controls_refuted : forall (K : Scalar) E (pq : pqueue K) (vt : vtbl K E) c, pq_ok pq -> time_neutral vt ->
  forall f ang ctl dis now t0 es cur later lookup first m0, control_neutral vt ->
  fb_initialized f = false -> monotone_clock t0 (es ++ [EvCycle cur later lookup]) ->
  c_smooth c = true -> c_use_control c = true -> c_predict_now c = false ->
  let n := fst (node_run pq vt c (node_init f ang ctl dis now) es) in
  n_enabled n = true -> n_toggled n = true -> n_state_hist n <> [] ->
  In first (n_queue n) -> (forall m, In m (n_queue n) -> m_time first <= m_time m) -> m_time first < fb_last_time (n_filter n) ->
  let n' := fst (periodicUpdate pq vt c cur later lookup n) in
  let o := snd (periodicUpdate pq vt c cur later lookup n) in
  exists back, incl back (n_meas_hist n) /\
    Permutation (fused o ++ n_queue n') (n_queue n ++ back) /\ in_order (fused o) /\
    let r := List.length back in
    List.length (controls o) = List.length (fused o) /\
    (forall i d, (i < List.length (fused o))%nat ->
       nth i (controls o) d = if Nat.ltb i r then m_control (nth i (fused o) m0)
                              else match r with O => fb_control (n_filter n) | S r' => m_control (nth r' (fused o) m0) end) /\
    ((0 < r)%nat -> (r <= List.length (fused o))%nat -> fb_control (n_filter n') = m_control (nth (r - 1) (fused o) m0)).
Proof. exact (@replay_reached). Qed.
Print Assumptions C58_replay_controls_refuted.

(** A run of every filter: the measurement stamped 6, first processed under
    control [u2], is replayed under [u1], and the filter is left with the
    outdated control [u1] although [u2] is the latest command. *)
Theorem C58_control_lost_refuted : forall (K : Scalar) E (pq : pqueue K) (vt : vtbl K E) c, pq_ok pq -> time_neutral vt ->
  control_neutral vt -> forall f ang ctl u1 u2 upd v cov th lk,
  c_smooth c = true -> c_predict_now c = false -> c_use_control c = true -> fb_initialized f = false -> 10 <= c_history c ->
  let m0 := mkMeas "odom" 1 v cov upd th ctl 0 in
  let m1 := mkMeas "odom" 5 v cov upd th u1 4 in
  let m2 := mkMeas "odom" 6 v cov upd th u2 6 in
  let m3 := mkMeas "gps" 4 v cov upd th u2 6 in
  let r1 := node_run pq vt c (node_init f ang ctl false 0)
    [message "odom" 1 upd v cov th; EvCycle 1 1 lk;
     EvControl (c_base c) u1 4; message "odom" 5 upd v cov th; EvCycle 5 5 lk;
     EvControl (c_base c) u2 6; message "odom" 6 upd v cov th; EvCycle 6 6 lk;
     message "gps" 4 upd v cov th] in
  let r2 := node_step pq vt c (fst r1) (EvCycle 7 7 lk) in
  fused (snd r1) = [m0; m1; m2] /\ fused (snd r2) = [m3; m1; m2] /\ controls (snd r2) = [u2; u1; u1] /\
  n_ctl (fst r2) = u2 /\ fb_control (n_filter (fst r2)) = u1.
Proof. exact (@control_lost). Qed.
Print Assumptions C58_control_lost_refuted.

Example C58_case :
  let n := fst (ex_run (ex_cfg true false true true) ex_start
    [ex_msg "odom" 1; EvCycle 1 1 None; ex_msg "odom" 5; EvCycle 5 5 None; ex_msg "odom" 6; EvCycle 6 6 None; ex_msg "gps" 4]) in
  map m_time (n_queue n) = [4] /\ fb_last_time (n_filter n) = 6 /\ map fs_time (n_state_hist n) = [1; 5; 6] /\
  control_neutral still /\ c_use_control (ex_cfg true false true true) = true.
Proof. repeat (split; [reflexivity|]). split; [split; intros; reflexivity|reflexivity]. Qed.
