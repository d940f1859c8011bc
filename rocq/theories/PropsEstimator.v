(** * Properties of RobotLocalizationEstimator (C21-C25) *)

From Coq Require Import Reals ZArith List Bool Arith Sorted Lra Lia Floats.
From Verif Require Import Scalar FloatScalar Mat FilterBase FilterOps Ekf Ukf Estimator SpecEstimator
  SpecLin SpecFilter SpecMotion RLin RBridge EkfPsd Motion UkfProofs EigenExist
  EstimatorProofs FloatOrder EstimatorFilter.
Import ListNotations.

(** The order laws used below hold for IEEE doubles and for the reals. *)
Theorem C21_order_doubles : forall lm, order_ok (FScalar lm).
Proof. exact float_order. Qed.
Print Assumptions C21_order_doubles.

Theorem C21_order_reals : order_ok RScalar.
Proof. exact real_order. Qed.
Print Assumptions C21_order_reals.

(** ** A concrete estimator: three states at 1 s, 2 s and 3 s, capacity 3 *)
Definition ex_st (t : R) : est_state RScalar := mkEst (K := RScalar) t (fun _ => t) mzero.
Definition ex_est_init : estimator RScalar unit :=
  mkEstimator [] 3 (setProcessNoiseCovariance (@fb_init RScalar unit (fun _ => 0%R) tt) (@default_Q RScalar)).
Definition ex_est_ops : list (est_op RScalar) := [EstSet (ex_st 2); EstSet (ex_st 1); EstSet (ex_st 3)].

Lemma ex_construct : est_construct 3 (Some (@fb_init RScalar unit (fun _ => 0%R) tt)) (@default_Q RScalar) = Some ex_est_init.
Proof. reflexivity. Qed.
Lemma ex_stamped : Forall op_stamped ex_est_ops.
Proof. repeat constructor. Qed.

Ltac rcmp := repeat match goal with
  | |- context [@s_ltb RScalar ?a ?b] => change (@s_ltb RScalar a b) with (Rltb a b)
  | |- context [@s_leb RScalar ?a ?b] => change (@s_leb RScalar a b) with (Rleb a b)
  | |- context [@s_eqb RScalar ?a ?b] => change (@s_eqb RScalar a b) with (Reqb a b)
  | |- context [Rltb ?a ?b] => first
     [ rewrite (proj2 (Rltb_true a b)) by (cbn; lra) | rewrite (proj2 (Rltb_false a b)) by (cbn; lra) ]
  | |- context [Rleb ?a ?b] => first
     [ rewrite (proj2 (Rleb_true a b)) by (cbn; lra) | rewrite (proj2 (Rleb_false a b)) by (cbn; lra) ]
  | |- context [Reqb ?a ?b] => first
     [ rewrite (proj2 (Reqb_true a b)) by (cbn; lra) | rewrite (proj2 (Reqb_false a b)) by (cbn; lra) ]
  end.

Lemma ex_buffer eig :
  e_buf (est_run (ekf_vtbl eig) ex_est_init ex_est_ops) = [ex_st 1; ex_st 2; ex_st 3].
Proof.
  unfold est_run, ex_est_ops. cbn [fold_left est_exec]. unfold est_setState at 3. cbn [e_buf e_cap e_filter ex_est_init].
  unfold cb_push_back. cbn [Nat.eqb length Nat.ltb Nat.leb app].
  unfold est_setState at 2. cbn [e_buf e_cap e_filter back find_pos].
  change (es_time (ex_st 2)) with 2%R. change (es_time (ex_st 1)) with 1%R. rcmp.
  unfold cb_insert. cbn [Nat.ltb Nat.leb length firstn skipn app].
  unfold est_setState. cbn [e_buf e_cap e_filter back].
  change (es_time (ex_st 2)) with 2%R. change (es_time (ex_st 3)) with 3%R. rcmp.
  reflexivity.
Qed.

(** ** C21 *)
Theorem C21_buffer_ordered_bounded : forall (K : Scalar) E (vt : vtbl K E) cap f Q (e0 : estimator K E) ops,
  order_ok K -> est_construct cap f Q = Some e0 -> Forall op_stamped ops ->
  let e := est_run vt e0 ops in
  time_ordered (e_buf e) /\ length (e_buf e) <= est_getBufferCapacity e /\ est_getSize e = length (e_buf e).
Proof.
  exact (fun K E vt cap f Q e0 ops Ho H0 Hs =>
    conj (proj1 (proj2 (buffer_reachable vt Ho cap f Q e0 ops H0 Hs)))
      (conj (proj2 (proj2 (buffer_reachable vt Ho cap f Q e0 ops H0 Hs))) eq_refl)).
Qed.
Print Assumptions C21_buffer_ordered_bounded.

(** For the doubles of the code, every Eigen and every math library. *)
Theorem C21_buffer_ordered_bounded_doubles : forall lm E (vt : vtbl (FScalar lm) E) cap f Q e0 ops,
  est_construct cap f Q = Some e0 -> Forall op_stamped ops ->
  time_ordered (e_buf (est_run vt e0 ops)) /\ length (e_buf (est_run vt e0 ops)) <= e_cap (est_run vt e0 ops).
Proof.
  exact (fun lm E vt cap f Q e0 ops H0 Hs => proj2 (buffer_reachable vt (float_order lm) cap f Q e0 ops H0 Hs)).
Qed.
Print Assumptions C21_buffer_ordered_bounded_doubles.

Example C21_case eig : order_ok RScalar /\
  est_construct 3 (Some (@fb_init RScalar unit (fun _ => 0%R) tt)) (@default_Q RScalar) = Some ex_est_init /\
  Forall op_stamped ex_est_ops /\
  map es_time (e_buf (est_run (ekf_vtbl eig) ex_est_init ex_est_ops)) = [1; 2; 3]%R.
Proof. repeat split; try apply real_order; try apply ex_stamped. rewrite ex_buffer. reflexivity. Qed.

(** A NaN stamp violates the hypothesis for good: once it is the only buffered
    state, nothing is stored any more. *)
Theorem C21_nan_stamp_blocks : forall lm E (e : estimator (FScalar lm) E) x y,
  e_buf e = [x] -> PrimFloat.is_nan (es_time x) = true -> est_setState e y = e.
Proof. exact (@nan_stamp_blocks). Qed.
Print Assumptions C21_nan_stamp_blocks.

Example C21_nan_case lm : exists x : est_state (FScalar lm), PrimFloat.is_nan (es_time x) = true.
Proof. exists (mkEst (K := FScalar lm) PrimFloat.nan vzero mzero). reflexivity. Qed.

(** ** C22 *)

(** Newer than everything: stored at the end, the oldest dropped when full. *)
Theorem C22_newer_stored : forall (K : Scalar) E (e : estimator K E) x,
  good_buffer (e_cap e) (e_buf e) ->
  (forall z, In z (e_buf e) -> before z x) ->
  e_buf (est_setState e x) = last_n (e_cap e) (e_buf e ++ [x]).
Proof. exact (@insert_newest). Qed.
Print Assumptions C22_newer_stored.

(** Same stamp as the newest: dropped. *)
Theorem C22_equal_newest_dropped : forall (K : Scalar) E, order_ok K -> forall (e : estimator K E) x l y,
  good_buffer (e_cap e) (e_buf e) -> stamped x -> e_buf e = l ++ [y] -> same_time y x.(es_time) ->
  est_setState e x = e.
Proof.
  exact (fun K E Ho e x l y Hg Hx Eb Hy =>
    match l as l' return e_buf e = l' ++ [y] -> est_setState e x = e with
    | [] => fun Eb => insert_equal_newest Ho e x y [] Hg Hx Eb Hy
    | a :: r => fun Eb => insert_equal_newest Ho e x a (r ++ [y]) Hg Hx Eb
        (eq_ind_r (fun z => s_eqb (es_time z) (es_time x) = true) Hy (back_app a y r))
    end Eb).
Qed.
Print Assumptions C22_equal_newest_dropped.

(** Older than some buffered state: inserted after the states not later than it;
    when full, the oldest element of the result is dropped, possibly the new one. *)
Theorem C22_older_inserted : forall (K : Scalar) E, order_ok K -> forall (e : estimator K E) x l1 l2,
  good_buffer (e_cap e) (e_buf e) -> stamped x -> e_buf e = l1 ++ l2 -> l2 <> [] ->
  (forall z, In z l1 -> before_eq z x) -> (forall z, In z l2 -> before x z) ->
  e_buf (est_setState e x) = last_n (e_cap e) (l1 ++ x :: l2).
Proof. exact (fun K E Ho => @insert_middle K E Ho). Qed.
Print Assumptions C22_older_inserted.

(** The three cases cover everything. *)
Theorem C22_cases : forall (K : Scalar) E, order_ok K -> forall (e : estimator K E) x,
  good_buffer (e_cap e) (e_buf e) -> stamped x ->
  (forall z, In z (e_buf e) -> before z x) \/
  (exists l y, e_buf e = l ++ [y] /\ same_time y (es_time x)) \/
  (exists l1 l2, e_buf e = l1 ++ l2 /\ l2 <> [] /\
     (forall z, In z l1 -> before_eq z x) /\ (forall z, In z l2 -> before x z)).
Proof. exact (fun K E Ho => @insert_cases_last K E Ho). Qed.
Print Assumptions C22_cases.

(** Strictly increasing stamps: exactly the latest [cap] states are kept. *)
Theorem C22_increasing_keeps_latest : forall (K : Scalar) E (vt : vtbl K E), order_ok K ->
  forall cap f Q e0 xs, est_construct cap f Q = Some e0 ->
  Forall stamped xs -> StronglySorted before xs ->
  e_buf (est_run vt e0 (map EstSet xs)) = last_n cap xs.
Proof. exact (fun K E vt Ho => @increasing_from_construct K E vt Ho). Qed.
Print Assumptions C22_increasing_keeps_latest.

(** Shrinking keeps the oldest states: the newest [length - n] are lost. *)
Theorem C22_shrink_keeps_oldest : forall (K : Scalar) E (e : estimator K E) n,
  e_buf (est_setBufferCapacity e n) = firstn n (e_buf e) /\ e_cap (est_setBufferCapacity e n) = n.
Proof. exact (fun K E e n => conj eq_refl eq_refl). Qed.
Print Assumptions C22_shrink_keeps_oldest.

Example C22_case_newer eig : let e := est_run (ekf_vtbl eig) ex_est_init ex_est_ops in
  good_buffer (e_cap e) (e_buf e) /\ (forall z, In z (e_buf e) -> before z (ex_st 4)) /\
  map es_time (e_buf (est_setState e (ex_st 4))) = [2; 3; 4]%R.
Proof.
  intros e. assert (Hg : good_buffer (e_cap e) (e_buf e))
    by exact (buffer_reachable (ekf_vtbl eig) real_order 3 _ _ _ _ ex_construct ex_stamped).
  assert (Hn : forall z, In z (e_buf e) -> before z (ex_st 4)).
  { unfold e. rewrite ex_buffer. intros z [<-|[<-|[<-|[]]]]; apply Rltb_true; cbn; lra. }
  split; [exact Hg|]. split; [exact Hn|].
  rewrite (insert_newest e (ex_st 4) Hg Hn). unfold e. rewrite ex_buffer. reflexivity.
Qed.

Example C22_case_older eig : let e := est_run (ekf_vtbl eig) ex_est_init ex_est_ops in
  map es_time (e_buf (est_setState e (ex_st (5/2)))) = [2; 5/2; 3]%R.
Proof.
  intros e. assert (Hg : good_buffer (e_cap e) (e_buf e))
    by exact (buffer_reachable (ekf_vtbl eig) real_order 3 _ _ _ _ ex_construct ex_stamped).
  rewrite (insert_middle real_order e (ex_st (5/2)) [ex_st 1; ex_st 2] [ex_st 3] Hg eq_refl).
  - reflexivity.
  - unfold e. rewrite ex_buffer. reflexivity.
  - discriminate.
  - intros z [<-|[<-|[]]]; apply Rleb_true; cbn; lra.
  - intros z [<-|[]]; apply Rltb_true; cbn; lra.
Qed.

Example C22_case_equal eig : let e := est_run (ekf_vtbl eig) ex_est_init ex_est_ops in
  e_buf e = [ex_st 1; ex_st 2] ++ [ex_st 3] /\ same_time (ex_st 3) (es_time (ex_st 3)).
Proof. split; [apply ex_buffer|]. apply Reqb_true. reflexivity. Qed.

(** ** C23 *)
Theorem C23_query_codes : forall (K : Scalar) E (vt : vtbl K E), order_ok K ->
  forall (e : estimator K E) t o, good_buffer (e_cap e) (e_buf e) -> s_isnan t = false ->
  let c := fst (fst (est_getState vt e t o)) in
  (c = EmptyBuffer <-> e_buf e = []) /\
  (c = Exact <-> exists s, In s (e_buf e) /\ same_time s t) /\
  (c = ExtrapolationIntoPast <-> e_buf e <> [] /\ forall s, In s (e_buf e) -> later s t) /\
  (c = ExtrapolationIntoFuture <-> e_buf e <> [] /\ forall s, In s (e_buf e) -> earlier s t) /\
  (c = Interpolation <-> (exists s, In s (e_buf e) /\ earlier s t) /\
     (exists s, In s (e_buf e) /\ later s t) /\ (forall s, In s (e_buf e) -> ~ same_time s t)) /\
  c <> Failed.
Proof. exact (fun K E vt Ho => @code_iff K E vt Ho). Qed.
Print Assumptions C23_query_codes.

(** Exact answers are buffered states, verbatim. *)
Theorem C23_exact_verbatim : forall (K : Scalar) E (vt : vtbl K E), order_ok K ->
  forall (e : estimator K E) t o x, good_buffer (e_cap e) (e_buf e) -> s_isnan t = false ->
  fst (est_getState vt e t o) = (Exact, x) -> In x (e_buf e) /\ same_time x t.
Proof. exact (fun K E vt Ho => @exact_verbatim K E vt Ho). Qed.
Print Assumptions C23_exact_verbatim.

(** On reachable estimators with the doubles of the code. *)
Theorem C23_never_failed_doubles : forall lm E (vt : vtbl (FScalar lm) E) cap f Q e0 ops t o,
  est_construct cap f Q = Some e0 -> Forall op_stamped ops -> PrimFloat.is_nan t = false ->
  fst (fst (est_getState vt (est_run vt e0 ops) t o)) <> Failed.
Proof.
  exact (fun lm E vt cap f Q e0 ops t o H0 Hs Ht =>
    proj2 (proj2 (proj2 (proj2 (proj2 (code_iff vt (float_order lm) (est_run vt e0 ops) t o
      (buffer_reachable vt (float_order lm) cap f Q e0 ops H0 Hs) Ht)))))).
Qed.
Print Assumptions C23_never_failed_doubles.

Example C23_case eig o : let e := est_run (ekf_vtbl eig) ex_est_init ex_est_ops in
  let code t := fst (fst (est_getState (ekf_vtbl eig) e t o)) in
  code 0%R = ExtrapolationIntoPast /\ code 2%R = Exact /\ code (5/2)%R = Interpolation /\
  code 4%R = ExtrapolationIntoFuture.
Proof.
  intros e code.
  assert (Hg : good_buffer (e_cap e) (e_buf e))
    by exact (buffer_reachable (ekf_vtbl eig) real_order 3 _ _ _ _ ex_construct ex_stamped).
  assert (Eb : e_buf e = [ex_st 1; ex_st 2; ex_st 3]) by apply ex_buffer.
  repeat split.
  - apply (code_iff (ekf_vtbl eig) real_order e 0%R o Hg eq_refl). rewrite Eb. split; [discriminate|].
    intros s [<-|[<-|[<-|[]]]]; apply Rltb_true; cbn; lra.
  - apply (code_iff (ekf_vtbl eig) real_order e 2%R o Hg eq_refl). rewrite Eb.
    exists (ex_st 2). split; [cbn; auto|]. apply Reqb_true. reflexivity.
  - apply (code_iff (ekf_vtbl eig) real_order e (5/2)%R o Hg eq_refl). rewrite Eb.
    split; [exists (ex_st 1)|split; [exists (ex_st 3)|]].
    + split; [cbn; auto|]. apply Rltb_true. cbn. lra.
    + split; [cbn; auto|]. apply Rltb_true. cbn. lra.
    + intros s [<-|[<-|[<-|[]]]] H; apply Reqb_true in H; cbn in H; lra.
  - apply (code_iff (ekf_vtbl eig) real_order e 4%R o Hg eq_refl). rewrite Eb. split; [discriminate|].
    intros s [<-|[<-|[<-|[]]]]; apply Rltb_true; cbn; lra.
Qed.

(** ** C24 *)

(** The value returned: nothing, the buffered state, or the prediction from the
    neighbour described by [query_verdict]. *)
Theorem C24_anchor : forall (K : Scalar) E (vt : vtbl K E), order_ok K ->
  forall (e : estimator K E) t o, good_buffer (e_cap e) (e_buf e) -> s_isnan t = false ->
  exists v, query_verdict (e_buf e) t v /\
  match v with
  | VEmpty => fst (est_getState vt e t o) = (EmptyBuffer, o)
  | VExact s => fst (est_getState vt e t o) = (Exact, s)
  | VAnchored c p => fst (est_getState vt e t o) = (c, snd (est_extrapolate vt (e_filter e) p t))
  end.
Proof. exact (fun K E vt Ho => @answer_verdict K E vt Ho). Qed.
Print Assumptions C24_anchor.

(** With exact arithmetic and the EKF, that prediction is one motion step from
    the anchor over the time difference (truncated to whole nanoseconds). *)
Theorem C24_ekf_motion : forall eig cap g Q (e0 : estimator RScalar unit) ops (t : R)
    (o : est_state RScalar) c (x : est_state RScalar),
  est_construct cap (Some (fb_init g tt)) Q = Some e0 -> Forall op_stamped ops ->
  let e := est_run (ekf_vtbl eig) e0 ops in
  fst (est_getState (ekf_vtbl eig) e t o) = (c, x) -> predicted_code c ->
  exists (p : est_state RScalar) (dt : R),
    query_verdict (e_buf e) t (VAnchored c p) /\ (Rabs (dt - (t - es_time p)) < / 1000000000)%R /\
    es_time x = t /\ motion_step (es_state p) dt (es_state x).
Proof. exact ekf_query_motion. Qed.
Print Assumptions C24_ekf_motion.

Theorem C24_buffer_untouched : forall (K : Scalar) E (vt : vtbl K E) (e : estimator K E) t o,
  e_buf (snd (est_getState vt e t o)) = e_buf e /\ e_cap (snd (est_getState vt e t o)) = e_cap e.
Proof. exact (@getState_buf). Qed.
Print Assumptions C24_buffer_untouched.

(** The answer depends on the buffered states only, not on earlier calls. *)
Theorem C24_history_independent_ekf : forall (K : Scalar) eig cap1 cap2 g Q (e1 e2 : estimator K unit) ops1 ops2 t o,
  est_construct cap1 (Some (fb_init g tt)) Q = Some e1 ->
  est_construct cap2 (Some (fb_init g tt)) Q = Some e2 ->
  e_buf (est_run (ekf_vtbl eig) e1 ops1) = e_buf (est_run (ekf_vtbl eig) e2 ops2) ->
  fst (est_getState (ekf_vtbl eig) (est_run (ekf_vtbl eig) e1 ops1) t o) =
  fst (est_getState (ekf_vtbl eig) (est_run (ekf_vtbl eig) e2 ops2) t o).
Proof. exact (@ekf_answer_history). Qed.
Print Assumptions C24_history_independent_ekf.

Theorem C24_history_independent_ukf : forall (K : Scalar) eig cap1 cap2 (f : ukf K) Q (e1 e2 : estimator K (ukf_ext K)) ops1 ops2 t o,
  (exists g gs gq gl, f = ukf_init g gs gq gl \/
     exists alpha kappa beta, f = setConstants (ukf_init g gs gq gl) alpha kappa beta) ->
  est_construct cap1 (Some f) Q = Some e1 -> est_construct cap2 (Some f) Q = Some e2 ->
  e_buf (est_run (ukf_vtbl eig) e1 ops1) = e_buf (est_run (ukf_vtbl eig) e2 ops2) ->
  fst (est_getState (ukf_vtbl eig) (est_run (ukf_vtbl eig) e1 ops1) t o) =
  fst (est_getState (ukf_vtbl eig) (est_run (ukf_vtbl eig) e2 ops2) t o).
Proof. exact (@ukf_answer_history). Qed.
Print Assumptions C24_history_independent_ukf.

(** Two different histories with the same buffer. *)
Example C24_case eig :
  let ops1 := ex_est_ops in
  let ops2 := ex_est_ops ++ [@EstQuery RScalar (5/2)%R; @EstQuery RScalar 9%R; @EstQuery RScalar 0%R] in
  ops1 <> ops2 /\
  e_buf (est_run (ekf_vtbl eig) ex_est_init ops1) = e_buf (est_run (ekf_vtbl eig) ex_est_init ops2).
Proof.
  intros ops1 ops2. split; [discriminate|]. unfold ops1, ops2, est_run. rewrite fold_left_app.
  change (fold_left (est_exec (ekf_vtbl eig)) ex_est_ops ex_est_init) with (est_run (ekf_vtbl eig) ex_est_init ex_est_ops).
  generalize (est_run (ekf_vtbl eig) ex_est_init ex_est_ops). intros e. cbn [fold_left est_exec].
  rewrite !(fun e t o => proj1 (getState_buf (ekf_vtbl eig) e t o)). reflexivity.
Qed.

(** ** C25 *)
Local Open Scope R_scope.

Theorem C25_forward_covariance_psd : forall eig cap g Q (e0 : estimator RScalar unit) ops (t : R)
    (o : est_state RScalar) c (x : est_state RScalar),
  est_construct cap (Some (fb_init g tt)) Q = Some e0 -> Forall op_stamped ops ->
  let e := est_run (ekf_vtbl eig) e0 ops in
  psd 15 Q -> Forall (fun s : est_state RScalar => psd 15 (es_cov s)) (e_buf e) ->
  fst (est_getState (ekf_vtbl eig) e t o) = (c, x) ->
  c = Interpolation \/ c = ExtrapolationIntoFuture -> psd 15 (es_cov x).
Proof. exact ekf_query_psd. Qed.
Print Assumptions C25_forward_covariance_psd.

(** The UKF needs non-negative weights (alpha = 1, kappa = 0, beta >= 0, say). *)
Theorem C25_forward_covariance_psd_ukf : forall eig cap g gs gq gl (alpha kappa beta : R) Q
    (e0 : estimator RScalar (ukf_ext RScalar)) ops (t : R) (o : est_state RScalar) c (x : est_state RScalar),
  est_construct cap (Some (@setConstants RScalar (ukf_init g gs gq gl) alpha kappa beta)) Q = Some e0 ->
  Forall op_stamped ops ->
  let e := est_run (ukf_vtbl eig) e0 ops in
  psd 15 Q ->
  (forall i, (i < 31)%nat -> 0 <= @ukf_cw RScalar alpha beta (@ukf_lambda RScalar alpha kappa) i) ->
  fst (est_getState (ukf_vtbl eig) e t o) = (c, x) ->
  c = Interpolation \/ c = ExtrapolationIntoFuture -> psd 15 (es_cov x).
Proof. exact ukf_query_psd. Qed.
Print Assumptions C25_forward_covariance_psd_ukf.

(** In every prediction the process noise enters with the sign of the interval. *)
Theorem C25_covariance_formula : forall eig cap g Q (e0 : estimator RScalar unit) ops (t : R)
    (o : est_state RScalar) c (x : est_state RScalar),
  est_construct cap (Some (fb_init g tt)) Q = Some e0 -> Forall op_stamped ops ->
  let e := est_run (ekf_vtbl eig) e0 ops in
  fst (est_getState (ekf_vtbl eig) e t o) = (c, x) -> predicted_code c ->
  exists (p : est_state RScalar) (J : rmat) (dt : R), query_verdict (e_buf e) t (VAnchored c p) /\
    Rabs (dt - (t - es_time p)) < / 1000000000 /\
    forall i j, es_cov x i j = rmul 15 (rmul 15 J (es_cov p)) (rT J) i j + dt * Q i j.
Proof. exact ekf_query_cov. Qed.
Print Assumptions C25_covariance_formula.

(** Backward: not PSD as soon as the buffered covariances are zero. *)
Theorem C25_past_covariance_psd_refuted : forall eig cap g Q (e0 : estimator RScalar unit) ops (t : R)
    (o x : est_state RScalar) i,
  est_construct cap (Some (fb_init g tt)) Q = Some e0 -> Forall op_stamped ops ->
  let e := est_run (ekf_vtbl eig) e0 ops in
  fst (est_getState (ekf_vtbl eig) e t o) = (ExtrapolationIntoPast, x) ->
  (forall p, In p (e_buf e) -> forall a b, es_cov p a b = 0) ->
  (forall p, In p (e_buf e) -> t + / 1000000000 <= es_time p) ->
  (i < 15)%nat -> 0 < Q i i -> es_cov x i i < 0 /\ ~ psd 15 (es_cov x).
Proof. exact past_not_psd. Qed.
Print Assumptions C25_past_covariance_psd_refuted.

Lemma default_Q_diag i j : @default_Q RScalar i j = if Nat.eqb i j then @default_Q RScalar i i else 0.
Proof. unfold default_Q. rewrite Nat.eqb_refl. destruct (Nat.eqb i j) eqn:E; [apply Nat.eqb_eq in E; subst|]; reflexivity. Qed.

Example C25_case_forward eig o : let e := est_run (ekf_vtbl eig) ex_est_init ex_est_ops in
  psd 15 (@default_Q RScalar) /\ Forall (fun s : est_state RScalar => psd 15 (es_cov s)) (e_buf e) /\
  fst (fst (est_getState (ekf_vtbl eig) e 4 o)) = ExtrapolationIntoFuture.
Proof.
  intros e. split; [|split].
  - exact (proj1 (proj1 (proj2 (inv_init (fun _ => 0) True)))).
  - unfold e. rewrite ex_buffer. repeat constructor; cbn; try lra; intros; apply psd_zero.
  - apply C23_case.
Qed.

Example C25_case_weights beta : 0 <= beta ->
  forall i, (i < 31)%nat -> 0 <= @ukf_cw RScalar 1 beta (@ukf_lambda RScalar 1 0) i.
Proof.
  intros Hb i Hi.
  assert (El : @ukf_lambda RScalar 1 0 = 0) by (unfold ukf_lambda; cbn; lra).
  rewrite El. unfold ukf_cw, ukf_sw. cbn. destruct (Nat.eqb i 0); cbn; lra.
Qed.

Example C25_case_past eig o : let e := est_run (ekf_vtbl eig) ex_est_init ex_est_ops in
  fst (fst (est_getState (ekf_vtbl eig) e 0 o)) = ExtrapolationIntoPast /\
  (forall p, In p (e_buf e) -> forall a b, es_cov p a b = 0) /\
  (forall p, In p (e_buf e) -> 0 + / 1000000000 <= es_time p) /\ 0 < @default_Q RScalar 0%nat 0%nat.
Proof.
  intros e. split; [apply C23_case|]. unfold e. rewrite ex_buffer. split; [|split].
  - intros p [<-|[<-|[<-|[]]]] a b; reflexivity.
  - intros p [<-|[<-|[<-|[]]]]; cbn; lra.
  - unfold default_Q. cbn. unfold lit. cbn. lra.
Qed.
