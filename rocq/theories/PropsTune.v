(** * Tuning covariances (C101) *)

From Coq Require Import Reals ZArith String List Bool Arith Lra Lia.
From Verif Require Import Scalar Mat FilterBase Ekf SpecLin SpecFilter SpecOrder SpecBest SpecTune RLin RBridge
  EkfPsd EkfUpdate Pdef FilterExtra UkfUpdate EigenExist Order OrderCases Best BestCase Tune PropsFilter PropsUkf.
Import ListNotations.
Local Open Scope R_scope.

(** ** C101 *)

(** Two filters that accept sequences of measurements of the same variables: the
    one that starts with the smaller covariance and sees less noise ends with the
    smaller covariance, whatever the states and the readings. *)
Theorem C101_certainty : forall eig, eigen_inverse_ok eig ->
  forall ms ns, Forall2 less_noisy ms ns -> forall s t : ekf RScalar,
  Forall noisy_meas ms -> Forall noisy_meas ns ->
  psd 15 (fb_P s) -> psd 15 (fb_P t) -> loewner_le 15 (fb_P s) (fb_P t) ->
  all_accepted eig s ms -> all_accepted eig t ns ->
  loewner_le 15 (fb_P (correct_all eig ms s)) (fb_P (correct_all eig ns t)).
Proof. exact sequence_mono. Qed.
Print Assumptions C101_certainty.

(** Predictions from one state: a smaller covariance and smaller process noise
    predict a smaller covariance. *)
Theorem C101_prediction : forall (s : ekf RScalar) (P1 P2 Q1 Q2 : rmat) r d,
  loewner_le 15 P1 P2 -> loewner_le 15 Q1 Q2 -> fb_use_dyn s = false -> (0 <= d)%Z ->
  loewner_le 15
    (fb_P (ekf_predict (set_P (setProcessNoiseCovariance s (Q1 : mat RScalar)) (P1 : mat RScalar)) r d))
    (fb_P (ekf_predict (set_P (setProcessNoiseCovariance s (Q2 : mat RScalar)) (P2 : mat RScalar)) r d)).
Proof. exact predict_mono. Qed.
Print Assumptions C101_prediction.

(** n accepted measurements of one kind leave at most one n-th of the variance
    of a single one, in every combination of the measured variables. *)
Theorem C101_average : forall eig, eigen_inverse_ok eig ->
  forall (s : ekf RScalar) a ms (g : rvec), psd 15 (fb_P s) -> noisy_meas a -> ms <> [] ->
  Forall (same_kind a) ms -> all_accepted eig s ms ->
  quad 15 (fb_P (correct_all eig ms s)) (at_selected a g) <=
  quad (length (selected a)) (selected_noise a) g / INR (length ms).
Proof. exact averaging. Qed.
Print Assumptions C101_average.

(** In particular the variance of each measured variable. *)
Theorem C101_variance : forall eig, eigen_inverse_ok eig ->
  forall (s : ekf RScalar) a ms i, psd 15 (fb_P s) -> noisy_meas a -> ms <> [] ->
  Forall (same_kind a) ms -> all_accepted eig s ms -> (i < 15)%nat -> nth i (m_upd a) false = true ->
  fb_P (correct_all eig ms s) i i <= repaired_cov a i i / INR (length ms).
Proof. exact averaging_one. Qed.
Print Assumptions C101_variance.

(** Across the gate it is not so: the measurement with less noise is left out and
    the filter ends with the larger covariance. *)
Theorem C101_gate_refuted : forall eig, eigen_inverse_ok eig ->
  exists (s : ekf RScalar) a b, pdef 15 (fb_P s) /\ noisy_meas a /\ noisy_meas b /\ less_noisy a b /\
    m_thresh a = m_thresh b /\ (forall i, m_value a i = m_value b i) /\
    fb_P (ekf_correct eig s a) 0%nat 0%nat = 1 /\ fb_P (ekf_correct eig s b) 0%nat 0%nat = 3 / 4.
Proof.
  exact (fun eig Heig => ex_intro _ ex_filter (ex_intro _ (x_fix 3 1 2) (ex_intro _ (x_fix 3 3 2) (noise_out eig Heig ex_filter ex_rI_pdef eq_refl eq_refl)))).
Qed.
Print Assumptions C101_gate_refuted.

Lemma fix_noisy z r t : 1 <= r -> noisy_meas (x_fix z r t).
Proof. intros H. destruct (fix_linear z r t H) as (A & _ & B). split; assumption. Qed.

(** A filter with unit covariance and one with twice that, fixes of variance 1
    and 3. *)
Example C101_certainty_case :
  let t := set_P ex_filter ((fun i j => 2 * rI i j) : mat RScalar) in
  let a := x_fix 2 1 10 in let b := x_fix 5 3 10 in
  Forall2 less_noisy [a] [b] /\ Forall noisy_meas [a] /\ Forall noisy_meas [b] /\
  psd 15 (fb_P ex_filter) /\ psd 15 (fb_P t) /\ loewner_le 15 (fb_P ex_filter) (fb_P t) /\
  all_accepted ideal_eigen ex_filter [a] /\ all_accepted ideal_eigen t [b].
Proof.
  intros t a b. assert (HI : psd 15 rI) by (apply pdef_psd; exact ex_rI_pdef).
  split; [constructor; [apply fix_less; lra|constructor]|].
  split; [constructor; [apply fix_noisy; lra|constructor]|]. split; [constructor; [apply fix_noisy; lra|constructor]|].
  split; [exact HI|]. split; [apply (psd_scale 15 2 rI); [lra|exact HI]|]. split.
  - intros x. change (quad 15 rI x <= quad 15 (fun i j => 2 * rI i j) x). rewrite quad_scale.
    pose proof (proj2 HI x). lra.
  - split; (split; [|exact I]).
    + apply (fix_passes 2 1 10 ltac:(lra) _ _ 1 ltac:(lra) eq_refl). change (fb_state ex_filter 0%nat) with 0. lra.
    + apply (fix_passes 5 3 10 ltac:(lra) _ _ (2 * 1) ltac:(lra) eq_refl). change (fb_state t 0%nat) with 0. lra.
Qed.

(** Two fixes of one kind. *)
Example C101_average_case : let a := x_fix 2 1 10 in let ms := [a; x_fix 3 1 10] in
  psd 15 (fb_P ex_filter) /\ noisy_meas a /\ ms <> [] /\ Forall (same_kind a) ms /\ all_accepted ideal_eigen ex_filter ms /\
  nth 0 (m_upd a) false = true /\ repaired_cov a 0 0 = 1.
Proof.
  intros a ms. split; [apply pdef_psd; exact ex_rI_pdef|]. split; [apply fix_noisy; lra|]. split; [discriminate|].
  split; [constructor; [|constructor; [|constructor]]; (split; [reflexivity|intros i j _ _; reflexivity])|].
  split; [|split; [reflexivity|apply fix_noise; lra]].
  destruct (ekf_fix ideal_eigen ideal_inverse ex_filter 2 1 10 1 0 ltac:(lra) ltac:(lra) eq_refl eq_refl ltac:(lra)) as [A1 A2].
  split; [|split; [|exact I]].
  - apply (fix_passes 2 1 10 ltac:(lra) _ _ 1 ltac:(lra) eq_refl). change (fb_state ex_filter 0%nat) with 0. lra.
  - apply (fix_passes 3 1 10 ltac:(lra) _ _ (1 * 1 / (1 + 1)) ltac:(lra) A2). fold a in A1. rewrite A1. lra.
Qed.

Example C101_prediction_case : loewner_le 15 rI (fun i j => 2 * rI i j) /\ fb_use_dyn ex_filter = false.
Proof.
  split; [|reflexivity]. intros x. rewrite quad_scale.
  pose proof (proj2 (pdef_psd _ _ ex_rI_pdef) x). lra.
Qed.
