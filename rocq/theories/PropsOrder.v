(** * Simultaneous measurements: does the order of corrections matter? (C85) *)

From Coq Require Import Reals ZArith String List Bool Arith Lra Lia Permutation.
From Verif Require Import Scalar Mat FilterBase Ekf Ukf SpecLin SpecFilter SpecOrder RLin RBridge
  EkfPsd EkfUpdate UkfProofs Pdef FilterExtra EigenExist Order OrderCases PropsFilter PropsUkf.
Import ListNotations.
Local Open Scope R_scope.

(** ** C85 *)

(** An accepted correction adds the measurement's information: the inverse of
    the covariance grows by H' R^-1 H and the information vector by H' R^-1 z. *)
Theorem C85_information : forall eig, eigen_inverse_ok eig ->
  forall (s : ekf RScalar) (m : meas RScalar) (L W : rmat),
  pdef 15 (fb_P s) -> linear_meas m -> passes_gate (fb_state s) (fb_P s) m ->
  is_inverse 15 (fb_P s) L -> is_inverse (length (selected m)) (selected_noise m) W ->
  let s' := ekf_correct eig s m in
  let L' := fun i j => L i j + information_of m W i j in
  pdef 15 (fb_P s') /\ is_inverse 15 (fb_P s') L' /\
  exists y, same_up_to_turns y (fb_state s') /\
    veq 15 (rmv 15 L' y) (fun k => rmv 15 L (fb_state s) k +
      at_selected m (rmv (length (selected m)) W (fun a => m_value m (nth a (selected m) 0%nat))) k).
Proof. exact one_information. Qed.
Print Assumptions C85_information.

(** Measurements of the same time accepted in two orders give one estimate. *)
Theorem C85_order : forall eig, eigen_inverse_ok eig ->
  forall (s : ekf RScalar) ms ms', pdef 15 (fb_P s) -> Forall linear_meas ms -> Permutation ms ms' ->
  all_accepted eig s ms -> all_accepted eig s ms' ->
  meq 15 15 (fb_P (correct_all eig ms s)) (fb_P (correct_all eig ms' s)) /\
  veq 15 (fb_state (correct_all eig ms s)) (fb_state (correct_all eig ms' s)).
Proof. exact order_irrelevant. Qed.
Print Assumptions C85_order.

(** Without the gate's agreement the order decides which fix counts. *)
Theorem C85_gate_refuted : forall eig, eigen_inverse_ok eig ->
  exists (s : ekf RScalar) a b, pdef 15 (fb_P s) /\ linear_meas a /\ linear_meas b /\
    fb_state (correct_all eig [a; b] s) 0%nat = 5 / 3 /\ fb_state (correct_all eig [b; a] s) 0%nat = 1.
Proof. exact gate_order_ex. Qed.
Print Assumptions C85_gate_refuted.

(** The unscented filter's correction is not of this form: two accepted fixes
    of one variable give different estimates in the two orders. *)
Theorem C85_ukf_refuted : forall eig, eigen_inverse_ok eig -> eigen_llt_ok eig ->
  forall alpha kappa beta : R, 0 < alpha * alpha * (15 + kappa) ->
  forall s : ukf RScalar, @consts RScalar alpha kappa beta s -> u_uncorrected (fb_ext s) = false ->
  meq 15 15 (fb_P s) rI -> fb_state s 0%nat = 0 ->
  exists a b, linear_meas a /\ linear_meas b /\
    passes_gate (fb_state s) (fb_P s) a /\ passes_gate (fb_state s) (fb_P s) b /\
    (let s' := ukf_correct eig s a in passes_gate (fb_state s') (fb_P s') b) /\
    (let s' := ukf_correct eig s b in passes_gate (fb_state s') (fb_P s') a) /\
    fb_state (ukf_correct eig (ukf_correct eig s a) b) 0%nat = 1 / 5 /\
    fb_state (ukf_correct eig (ukf_correct eig s b) a) 0%nat = 4 / 31.
Proof. exact ukf_order_ex. Qed.
Print Assumptions C85_ukf_refuted.

(** Two fixes accepted in both orders, over a unit prior. *)
Example C85_case : let a := x_fix 2 1 10 in let b := x_fix 3 1 10 in
  pdef 15 (fb_P ex_filter) /\ Forall linear_meas [a; b] /\ Permutation [a; b] [b; a] /\
  all_accepted ideal_eigen ex_filter [a; b] /\ all_accepted ideal_eigen ex_filter [b; a] /\
  fb_state (correct_all ideal_eigen [a; b] ex_filter) 0%nat = 5 / 3.
Proof.
  intros a b. split; [exact ex_rI_pdef|].
  split; [repeat constructor; apply fix_linear; lra|]. split; [apply perm_swap|].
  destruct (ekf_fix ideal_eigen ideal_inverse ex_filter 2 1 10 1 0 ltac:(lra) ltac:(lra) eq_refl eq_refl ltac:(lra)) as [A1 A2].
  destruct (ekf_fix ideal_eigen ideal_inverse ex_filter 3 1 10 1 0 ltac:(lra) ltac:(lra) eq_refl eq_refl ltac:(lra)) as [B1 B2].
  fold a in A1, A2. fold b in B1, B2.
  split; [|split].
  - split; [|split; [|exact I]].
    + apply (fix_passes 2 1 10 ltac:(lra) _ _ 1 ltac:(lra) eq_refl). change (fb_state ex_filter 0%nat) with 0. lra.
    + apply (fix_passes 3 1 10 ltac:(lra) _ _ (1 * 1 / (1 + 1)) ltac:(lra) A2). rewrite A1. lra.
  - split; [|split; [|exact I]].
    + apply (fix_passes 3 1 10 ltac:(lra) _ _ 1 ltac:(lra) eq_refl). change (fb_state ex_filter 0%nat) with 0. lra.
    + apply (fix_passes 2 1 10 ltac:(lra) _ _ (1 * 1 / (1 + 1)) ltac:(lra) B2). rewrite B1. lra.
  - unfold correct_all. cbn [fold_left].
    destruct (ekf_fix ideal_eigen ideal_inverse (ekf_correct ideal_eigen ex_filter a) 3 1 10
      (1 * 1 / (1 + 1)) (0 + 1 / (1 + 1) * (2 - 0)) ltac:(lra) ltac:(lra) A2 A1 ltac:(lra)) as [C1 _].
    unfold b. rewrite C1. lra.
Qed.

Example C85_ukf_case : @consts RScalar 1 0 2 ex_ukf_fresh /\ u_uncorrected (fb_ext ex_ukf_fresh) = false /\
  meq 15 15 (fb_P ex_ukf_fresh) rI /\ fb_state ex_ukf_fresh 0%nat = 0.
Proof. split; [repeat split|]. split; [reflexivity|]. split; [intros i j _ _; reflexivity|reflexivity]. Qed.
