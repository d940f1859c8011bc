(** * The correction is the best estimate (C100) *)

From Coq Require Import Reals ZArith String List Bool Arith Lra Lia Permutation.
From Verif Require Import Scalar Mat FilterBase Ekf SpecLin SpecFilter SpecOrder SpecBest RLin RBridge
  EkfPsd EkfUpdate Pdef FilterExtra UkfUpdate EigenExist Order OrderCases Best BestCase PropsFilter PropsUkf.
Import ListNotations.
Local Open Scope R_scope.

(** ** C100 *)

(** A measurement some state explains within the threshold moves the filter to
    the one state, up to turns of its angles, that explains estimate and
    measurement together best; a measurement no state explains is left out. *)
Theorem C100_least_squares : forall eig, eigen_inverse_ok eig ->
  forall (s : ekf RScalar) (m : meas RScalar) (L W : rmat) (z : rvec),
  pdef 15 (fb_P s) -> length (m_upd m) = 15%nat -> pdef (length (selected m)) (selected_noise m) ->
  is_inverse 15 (fb_P s) L -> is_inverse (length (selected m)) (selected_noise m) W ->
  nearest_reading (fb_state s) m z ->
  let cost := misfit (fb_state s) L m z W in
  let s' := ekf_correct eig s m in
  ((exists v, cost v < m_thresh m * m_thresh m) ->
    exists y, same_up_to_turns y (fb_state s') /\
      (forall v, cost y <= cost v) /\ (forall v, cost v <= cost y -> veq 15 v y)) /\
  ((forall v, m_thresh m * m_thresh m <= cost v) -> s' = s).
Proof. exact least_squares. Qed.
Print Assumptions C100_least_squares.

(** State and covariance come from one gain, and no other gain would leave a
    smaller error covariance, in whatever direction one looks. *)
Theorem C100_optimal : forall eig, eigen_inverse_ok eig ->
  forall (s : ekf RScalar) (m : meas RScalar),
  psd 15 (fb_P s) -> length (m_upd m) = 15%nat -> pdef (length (selected m)) (selected_noise m) ->
  passes_gate (fb_state s) (fb_P s) m ->
  let s' := ekf_correct eig s m in
  (exists G nu, innovation_of (fb_state s) m nu /\
    same_up_to_turns (fun k => fb_state s k + rmv (length (selected m)) G nu k) (fb_state s') /\
    forall x, quad 15 (fb_P s') x = quad 15 (error_cov (fb_P s) m G) x) /\
  forall G, loewner_le 15 (fb_P s') (error_cov (fb_P s) m G).
Proof. exact optimal_gain. Qed.
Print Assumptions C100_optimal.

(** A measurement whose noise falls into two independent parts may be fused at
    once or part by part. *)
Theorem C100_parts : forall eig, eigen_inverse_ok eig ->
  forall (s : ekf RScalar) (p q m : meas RScalar), pdef 15 (fb_P s) ->
  linear_meas p -> linear_meas q -> linear_meas m -> put_together p q m ->
  passes_gate (fb_state s) (fb_P s) m -> all_accepted eig s [p; q] ->
  let once := ekf_correct eig s m in
  let twice := ekf_correct eig (ekf_correct eig s p) q in
  meq 15 15 (fb_P once) (fb_P twice) /\ veq 15 (fb_state once) (fb_state twice).
Proof. exact parts_same. Qed.
Print Assumptions C100_parts.

(** The gate sees the difference: both parts can pass where the whole, with the
    same threshold, is left out. *)
Theorem C100_parts_gate_refuted : forall eig, eigen_inverse_ok eig ->
  forall s : ekf RScalar, meq 15 15 (fb_P s) rI -> (forall i, (i < 2)%nat -> fb_state s i = 0) ->
  exists p q m : meas RScalar, linear_meas p /\ linear_meas q /\ linear_meas m /\ put_together p q m /\
    m_thresh p = m_thresh m /\ m_thresh q = m_thresh m /\
    all_accepted eig s [p; q] /\ ekf_correct eig s m = s /\
    fb_state (ekf_correct eig (ekf_correct eig s p) q) 1%nat = 1 / 2.
Proof. exact whole_refused. Qed.
Print Assumptions C100_parts_gate_refuted.

Example C100_filter_case : pdef 15 (fb_P ex_filter) /\ psd 15 (fb_P ex_filter) /\ is_inverse 15 (fb_P ex_filter) rI /\
  meq 15 15 (fb_P ex_filter) rI /\ (forall i, (i < 2)%nat -> fb_state ex_filter i = 0).
Proof.
  split; [exact ex_rI_pdef|]. split; [apply pdef_psd; exact ex_rI_pdef|]. split.
  - intros i j Hi Hj. change (fb_P ex_filter) with rI. rewrite rmul_I_l by exact Hi. split; reflexivity.
  - split; [intros i j _ _; reflexivity|reflexivity].
Qed.

(** A fix of x and y at (1, 1): its least misfit is 1. *)
Example C100_fix_case : let m := xy_fix 2 in
  length (m_upd m) = 15%nat /\ pdef (length (selected m)) (selected_noise m) /\
  is_inverse (length (selected m)) (selected_noise m) rI /\
  nearest_reading (fb_state ex_filter) m (fun _ => 1) /\
  misfit (fb_state ex_filter) rI m (fun _ => 1) rI (fun i => if (i <? 2)%nat then / 2 else 0) < m_thresh m * m_thresh m /\
  passes_gate (fb_state ex_filter) (fb_P ex_filter) m.
Proof.
  intros m. split; [reflexivity|]. split; [apply xy_linear|]. split; [|split; [|split]].
  - change (length (selected m)) with 2%nat. intros i j Hi Hj.
    rewrite (rmul_ext 2 (selected_noise m) rI rI rI i j) by (auto; intros; apply xy_noise; assumption).
    rewrite (rmul_ext 2 rI rI (selected_noise m) rI i j) by (auto; intros; apply xy_noise; assumption).
    rewrite rmul_I_l by exact Hi. split; reflexivity.
  - intros a Ha. change (length (selected m)) with 2%nat in Ha. cbv zeta. unfold m. rewrite xy_selected. split.
    + unfold angular. destruct (two a Ha) as [->| ->]; cbn [nth]; lia.
    + intros _. destruct (two a Ha) as [->| ->]; reflexivity.
  - unfold misfit. change (length (selected m)) with 2%nat. change (m_thresh m) with 2.
    rewrite (quad_ext 15 rI (fun i j => if Nat.eqb i j then 1 else 0)) by (intros i j _ _; reflexivity).
    rewrite (quad_diag 15 (fun _ => 1)).
    rewrite (quad_ext 2 rI (fun i j => if Nat.eqb i j then 1 else 0)) by (intros i j _ _; reflexivity).
    rewrite (quad_diag 2 (fun _ => 1)).
    change (fb_state ex_filter) with (fun _ : nat => 0). cbn. lra.
  - apply xy_accepted; [intros i j _ _; reflexivity|reflexivity|lra].
Qed.

(** A reading of the yaw on the other side of the cut is taken in the turn
    nearest to the state. *)
Example C100_turn_case : let m := @mkMeas RScalar "imu" 0 (fun _ => 5) (fun i j => if Nat.eqb i j then 1 else 0)
    (repeat false 5 ++ true :: repeat false 9) 10 (fun _ => 0) 0 in
  nearest_reading (fb_state ex_filter) m (fun _ => 5 - 2 * PI).
Proof.
  intros m a Ha. change (selected m) with [5%nat] in *. cbn in Ha. replace a with 0%nat by lia. cbv zeta. cbn [nth]. split.
  - intros _. change (fb_state ex_filter 5%nat) with 0.
    pose proof PI_4. pose proof PI2_3_2 as H2. unfold PI2 in H2. split; [lra|]. exists (-1)%Z. change (m_value m 5%nat) with 5. lra.
  - unfold angular. lia.
Qed.

Example C100_parts_case : let m := xy_fix 2 in
  put_together (x_fix 1 1 2) (y_fix 2) m /\ linear_meas (x_fix 1 1 2) /\ linear_meas (y_fix 2) /\ linear_meas m /\
  passes_gate (fb_state ex_filter) (fb_P ex_filter) m /\ all_accepted ideal_eigen ex_filter [x_fix 1 1 2; y_fix 2] /\
  fb_state (ekf_correct ideal_eigen (ekf_correct ideal_eigen ex_filter (x_fix 1 1 2)) (y_fix 2)) 1%nat = 1 / 2.
Proof.
  assert (A : meq 15 15 (fb_P ex_filter) rI) by (intros i j _ _; reflexivity).
  assert (B : forall i, (i < 2)%nat -> fb_state ex_filter i = 0) by reflexivity.
  intros m. split; [apply fix_together|]. split; [apply fix_linear; lra|]. split; [apply y_linear|]. split; [apply xy_linear|].
  split; [apply xy_accepted; try assumption; lra|].
  split; [apply parts_accepted; try assumption; try exact ideal_inverse; lra|].
  rewrite parts_moved; try assumption; try exact ideal_inverse; lra.
Qed.
