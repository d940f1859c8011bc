(** * Predictions of the unscented filter and the correction after them (C82-C84) *)

From Coq Require Import Reals ZArith String List Bool Arith Lra Lia Psatz.
From Verif Require Import Scalar Mat FilterBase FilterOps Ekf Ukf SpecLin SpecFilter SpecMotion SpecUkf
  RLin RBridge EkfPsd Angles Pdef EigenExist UkfProofs UkfFlip UkfFirst PropsFilter PropsUkf.
Import ListNotations.
Local Open Scope R_scope.

(** ** C82 *)

(** A level, unturning vehicle whose angle variance stays below 2 keeps its
    heading through a prediction, and the variance grows as for a linear filter. *)
Theorem C82_kept : forall eig (alpha kappa beta : R) g gs gq gl ops,
  let c := alpha * alpha * (15 + kappa) in
  let s := fb_run (ukf_vtbl eig) (setConstants (@ukf_init RScalar g gs gq gl) alpha kappa beta) ops in
  eigen_llt_ok eig -> eigen_llt_lower eig -> 0 < c ->
  level_unturning (fb_state s) -> independent (fb_P s) ->
  forall r d k, angular k ->
  let dt := IZR d / 1000000000 in
  fb_P s k k + dt * dt * fb_P s (k + 6)%nat (k + 6)%nat < 2 ->
  wrapped (fb_state s k) (fb_state (ukf_predict eig s r d) k) /\
  (fb_use_dyn s = false -> c <= 4 ->
   fb_P (ukf_predict eig s r d) k k =
   fb_P s k k + dt * dt * fb_P s (k + 6)%nat (k + 6)%nat + dt * fb_Q s k k).
Proof. exact resting_kept. Qed.
Print Assumptions C82_kept.

(** The prediction of a vehicle that does not turn does not keep the heading:
    once the angle variance is above 2 the mean of the directions of the sigma
    points flips, and the predicted heading is off by pi. *)
Theorem C82_turned_refuted : forall eig (alpha kappa beta : R) g gs gq gl ops,
  let c := alpha * alpha * (15 + kappa) in
  let s := fb_run (ukf_vtbl eig) (setConstants (@ukf_init RScalar g gs gq gl) alpha kappa beta) ops in
  eigen_llt_ok eig -> eigen_llt_lower eig -> 0 < c ->
  level_unturning (fb_state s) -> independent (fb_P s) ->
  forall r d k, angular k ->
  let v := fb_P s k k in
  c * v <= 4 -> 2 < v * (1 - c * v / 12) ->
  wrapped (fb_state s k + PI) (fb_state (ukf_predict eig s r d) k) /\
  (fb_use_dyn s = false ->
   fb_P (ukf_predict eig s r d) k k <=
   (2 - alpha * alpha + beta) * (PI * PI) + v - 2 * PI * sqrt (c * v) / c + IZR d / 1000000000 * fb_Q s k k).
Proof. exact resting_turned. Qed.
Print Assumptions C82_turned_refuted.

(** With the default constants (ukf_node.cpp 45-48) the predicted variance of
    that heading is negative. *)
Theorem C82_default_refuted : forall eig g gs gq gl ops r d k,
  let s := fb_run (ukf_vtbl eig) (setConstants (@ukf_init RScalar g gs gq gl) (1 / 1000) 0 2) ops in
  eigen_llt_ok eig -> eigen_llt_lower eig -> level_unturning (fb_state s) -> independent (fb_P s) ->
  fb_use_dyn s = false -> angular k -> 2001 / 1000 <= fb_P s k k <= 100000 ->
  IZR d / 1000000000 * fb_Q s k k <= 1000 ->
  wrapped (fb_state s k + PI) (fb_state (ukf_predict eig s r d) k) /\ fb_P (ukf_predict eig s r d) k k < 0.
Proof. exact default_turned. Qed.
Print Assumptions C82_default_refuted.

(** Histories meeting the hypotheses: the covariance set to a multiple of the
    identity, from the start. *)
Definition scaled_I (v : R) : rmat := fun i j => if Nat.eqb i j then v else 0.
Definition ex_zero_Q : fb_op RScalar := @OpSetQ RScalar (fun _ _ => 0).
Definition ex_run (alpha kappa beta v : R) (ops : list (fb_op RScalar)) : ukf RScalar :=
  fb_run (ukf_vtbl ideal_eigen)
    (setConstants (@ukf_init RScalar (fun _ => 0) (fun _ _ => 0) rI 0) alpha kappa beta)
    (@OpSetP RScalar (scaled_I v) :: ops).

Lemma ideal_llt_lower : eigen_llt_lower ideal_eigen.
Proof. intros n A i j H Hij _. exact (ideal_lower n A i j H Hij). Qed.

Lemma ex_run_level alpha kappa beta v : level_unturning (fb_state (ex_run alpha kappa beta v [])).
Proof. repeat split. Qed.
Lemma ex_run_indep alpha kappa beta v : 0 < v -> independent (fb_P (ex_run alpha kappa beta v [])).
Proof.
  intros Hv. split.
  - intros i j Hi Hj Hne. change (scaled_I v i j = 0). unfold scaled_I. destruct (Nat.eqb_spec i j); [contradiction|reflexivity].
  - intros i Hi. change (0 < scaled_I v i i). unfold scaled_I. rewrite Nat.eqb_refl. exact Hv.
Qed.
Lemma ex_run_var alpha kappa beta v i : fb_P (ex_run alpha kappa beta v []) i i = v.
Proof. change (scaled_I v i i = v). unfold scaled_I. rewrite Nat.eqb_refl. reflexivity. Qed.

Example C82_kept_case : forall k, angular k ->
  eigen_llt_ok ideal_eigen /\ eigen_llt_lower ideal_eigen /\ 0 < 1 / 2 * (1 / 2) * (15 + 0) <= 4 /\
  fb_P (ex_run (1 / 2) 0 2 1 []) k k +
    IZR 500000000 / 1000000000 * (IZR 500000000 / 1000000000) * fb_P (ex_run (1 / 2) 0 2 1 []) (k + 6)%nat (k + 6)%nat < 2 /\
  fb_use_dyn (ex_run (1 / 2) 0 2 1 []) = false.
Proof.
  intros k Hk. rewrite !ex_run_var. split; [exact ideal_llt|]. split; [exact ideal_llt_lower|].
  split; [lra|]. split; [lra|reflexivity].
Qed.

(** One prediction by half a second turns the heading of a vehicle at rest by
    pi and gives it a negative variance. *)
Example C82_default_case :
  let s' := ukf_predict ideal_eigen (ex_run (1 / 1000) 0 2 3 [ex_zero_Q]) 0 500000000 in
  wrapped PI (fb_state s' 5%nat) /\ fb_P s' 5%nat 5%nat < 0.
Proof.
  pose proof (C82_default_refuted ideal_eigen (fun _ => 0) (fun _ _ => 0) rI 0 [@OpSetP RScalar (scaled_I 3); ex_zero_Q] 0 500000000 5) as H.
  cbv zeta in H. change (fb_run _ _ [@OpSetP RScalar (scaled_I 3); ex_zero_Q]) with (ex_run (1 / 1000) 0 2 3 [ex_zero_Q]) in H.
  change (fb_state (ex_run (1 / 1000) 0 2 3 [ex_zero_Q]) 5%nat) with 0 in H.
  rewrite Rplus_0_l in H. cbv zeta. apply H; clear H.
  - exact ideal_llt.
  - exact ideal_llt_lower.
  - repeat split.
  - apply (ex_run_indep (1 / 1000) 0 2 3). lra.
  - reflexivity.
  - right. right. reflexivity.
  - change (fb_P (ex_run (1 / 1000) 0 2 3 [ex_zero_Q]) 5%nat 5%nat) with 3. lra.
  - change (fb_Q (ex_run (1 / 1000) 0 2 3 [ex_zero_Q]) 5%nat 5%nat) with 0. lra.
Qed.

(** ** C83 *)

(** With alpha^2 <= beta the predicted covariance is positive semidefinite,
    with and without the process noise, whenever the weighted angular differences of the sigma points to the
    predicted state sum to zero. *)
Theorem C83_predicted_psd : forall eig (alpha kappa beta : R) g gs gq gl ops,
  let s := fb_run (ukf_vtbl eig) (setConstants (@ukf_init RScalar g gs gq gl) alpha kappa beta) ops in
  0 < alpha * alpha * (15 + kappa) ->
  forall r d, alpha * alpha <= beta -> (0 <= d)%Z ->
  let s' := ukf_predict eig s r d in
  let N := if fb_use_dyn s' then fb_dynQ s' else fb_Q s' in
  forall e : nat -> rvec,
  (forall i k, (i < 31)%nat -> (k < 15)%nat -> var_diff k (u_sigma (fb_ext s') i k - fb_state s' k) (e i k)) ->
  (forall k, angular k -> rsum 31 (fun i => u_sw (fb_ext s') i * e i k) = 0) ->
  psd 15 (fun a b => fb_P s' a b - IZR d / 1000000000 * N a b) /\ (psd 15 N -> psd 15 (fb_P s')).
Proof. exact predicted_psd. Qed.
Print Assumptions C83_predicted_psd.

(** The condition on the angles holds for a level, unturning vehicle with small
    angle variances. *)
Theorem C83_resting_psd : forall eig (alpha kappa beta : R) g gs gq gl ops,
  let c := alpha * alpha * (15 + kappa) in
  let s := fb_run (ukf_vtbl eig) (setConstants (@ukf_init RScalar g gs gq gl) alpha kappa beta) ops in
  0 < c -> eigen_llt_ok eig -> eigen_llt_lower eig ->
  level_unturning (fb_state s) -> independent (fb_P s) -> c <= 4 ->
  forall r d,
  (forall k, angular k ->
     fb_P s k k + IZR d / 1000000000 * (IZR d / 1000000000) * fb_P s (k + 6)%nat (k + 6)%nat < 2) ->
  alpha * alpha <= beta -> (0 <= d)%Z ->
  let s' := ukf_predict eig s r d in
  let N := if fb_use_dyn s' then fb_dynQ s' else fb_Q s' in
  psd 15 (fun a b => fb_P s' a b - IZR d / 1000000000 * N a b) /\ (psd 15 N -> psd 15 (fb_P s')).
Proof. exact resting_psd. Qed.
Print Assumptions C83_resting_psd.

Lemma zero_psd : psd 15 (fun _ _ => 0).
Proof.
  apply (psd_ext 15 (fun i j => if Nat.eqb i j then 0 else 0)).
  - intros i j _ _. destruct (Nat.eqb i j); reflexivity.
  - apply (psd_diag 15 (fun _ => 0)). intros. lra.
Qed.

Example C83_case : psd 15 (fb_P (ukf_predict ideal_eigen (ex_run (1 / 2) 0 2 1 [ex_zero_Q]) 0 500000000)).
Proof.
  eapply (C83_resting_psd ideal_eigen (1 / 2) 0 2 (fun _ => 0) (fun _ _ => 0) rI 0 [@OpSetP RScalar (scaled_I 1); ex_zero_Q]).
  - lra.
  - exact ideal_llt.
  - exact ideal_llt_lower.
  - repeat split.
  - apply (ex_run_indep (1 / 2) 0 2 1). lra.
  - lra.
  - intros k Hk. change (fb_run _ _ [@OpSetP RScalar (scaled_I 1); ex_zero_Q]) with (ex_run (1 / 2) 0 2 1 [ex_zero_Q]).
    change (fb_P (ex_run (1 / 2) 0 2 1 [ex_zero_Q])) with (scaled_I 1). unfold scaled_I. rewrite !Nat.eqb_refl. lra.
  - lra.
  - lia.
  - exact zero_psd.
Qed.

(** ** C84 *)

(** The first correction after a prediction, when no angle is measured and every
    sigma point lies within half a turn of the predicted state: gate, state and
    covariance are those of a Kalman filter for the predicted covariance
    without the process noise [M], except that the noise is then left in the
    covariance. *)
Theorem C84_first_correction : forall eig (alpha kappa beta : R) g gs gq gl ops,
  let s := fb_run (ukf_vtbl eig) (setConstants (@ukf_init RScalar g gs gq gl) alpha kappa beta) ops in
  forall r d m,
  eigen_inverse_ok eig -> length (m_upd m) = 15%nat -> no_angle_selected m ->
  let s' := ukf_predict eig s r d in
  let N := if fb_use_dyn s' then fb_dynQ s' else fb_Q s' in
  let M := fun a b => fb_P s' a b - IZR d / 1000000000 * N a b in
  let n := length (selected m) in
  (forall i k, (i < 31)%nat -> angular k -> - PI < u_sigma (fb_ext s') i k - fb_state s' k <= PI) ->
  invertible n (innovation_cov M m) ->
  forall nu w, innovation_of (fb_state s') m nu -> veq n (rmv n (innovation_cov M m) w) nu ->
  (m_thresh m * m_thresh m <= rdot n nu w -> ukf_correct eig s' m = s') /\
  (rdot n nu w < m_thresh m * m_thresh m ->
   corrected_state (fb_state s') M m w (fb_state (ukf_correct eig s' m)) /\
   (forall G, is_gain M m G -> forall i j, (i < 15)%nat -> (j < 15)%nat ->
     fb_P (ukf_correct eig s' m) i j =
     fb_P s' i j - rsum n (fun b => rsum n (fun a =>
        G i a * M (nth a (selected m) 0%nat) (nth b (selected m) 0%nat)) * G j b)) /\
   (psd 15 M -> psd 15 N -> (0 <= d)%Z -> psd 15 (m_cov m) -> psd 15 (fb_P (ukf_correct eig s' m)))).
Proof. exact first_correction. Qed.
Print Assumptions C84_first_correction.

(** So the gain of that correction is not the Kalman gain of the predicted
    covariance: for one measured variable it is strictly smaller as soon as the
    prediction added process noise to it. *)
Theorem C84_gain_refuted : forall eig (alpha kappa beta : R) g gs gq gl ops,
  let s := fb_run (ukf_vtbl eig) (setConstants (@ukf_init RScalar g gs gq gl) alpha kappa beta) ops in
  forall r d m k0,
  eigen_inverse_ok eig -> length (m_upd m) = 15%nat -> selected m = [k0] -> ~ angular k0 ->
  let s' := ukf_predict eig s r d in
  let N := if fb_use_dyn s' then fb_dynQ s' else fb_Q s' in
  let q := IZR d / 1000000000 * N k0 k0 in
  let p := fb_P s' k0 k0 in
  let rr := repaired_cov m k0 k0 in
  let nu := m_value m k0 - fb_state s' k0 in
  (forall i k, (i < 31)%nat -> angular k -> - PI < u_sigma (fb_ext s') i k - fb_state s' k <= PI) ->
  0 < q -> q <= p -> nu * nu < (p - q + rr) * (m_thresh m * m_thresh m) ->
  fb_state (ukf_correct eig s' m) k0 = fb_state s' k0 + (p - q) / (p - q + rr) * nu /\
  (p - q) / (p - q + rr) < p / (p + rr).
Proof. exact first_step_short. Qed.
Print Assumptions C84_gain_refuted.

(** One second of unit process noise before a position fix one metre away. *)
Example C84_case :
  let s := ex_run (1 / 2) 0 2 (1 / 2) [@OpSetQ RScalar rI] in
  let s' := ukf_predict ideal_eigen s 0 1000000000 in
  let m := ex_meas 0 (fb_state s' 0%nat + 1) in
  exists gain, fb_state (ukf_correct ideal_eigen s' m) 0%nat = fb_state s' 0%nat + gain /\
    gain < fb_P s' 0%nat 0%nat / (fb_P s' 0%nat 0%nat + 4).
Proof.
  cbv zeta. set (ops := [@OpSetP RScalar (scaled_I (1 / 2)); @OpSetQ RScalar rI]).
  change (ex_run (1 / 2) 0 2 (1 / 2) [@OpSetQ RScalar rI]) with
    (fb_run (ukf_vtbl ideal_eigen)
      (setConstants (@ukf_init RScalar (fun _ => 0) (fun _ _ => 0) rI 0) (1 / 2) 0 2) ops).
  assert (Hx : level_unturning (fb_state (fb_run (ukf_vtbl ideal_eigen)
      (setConstants (@ukf_init RScalar (fun _ => 0) (fun _ _ => 0) rI 0) (1 / 2) 0 2) ops))) by repeat split.
  assert (HP : independent (fb_P (fb_run (ukf_vtbl ideal_eigen)
      (setConstants (@ukf_init RScalar (fun _ => 0) (fun _ _ => 0) rI 0) (1 / 2) 0 2) ops)))
    by (apply (ex_run_indep (1 / 2) 0 2 (1 / 2)); lra).
  assert (Hcalm : calm_at ideal_eigen (1 / 2) 0 2 (fun _ => 0) (fun _ _ => 0) rI 0 ops 1000000000).
  { intros k Hk. change (fb_P (fb_run _ _ ops)) with (scaled_I (1 / 2)). unfold scaled_I.
    rewrite !Nat.eqb_refl. lra. }
  assert (Hr : forall k, angular k -> - PI < fb_state (fb_run (ukf_vtbl ideal_eigen)
      (setConstants (@ukf_init RScalar (fun _ => 0) (fun _ _ => 0) rI 0) (1 / 2) 0 2) ops) k <= PI).
  { intros k Hk. pose proof PI_RGT_0. change (fb_state (fb_run _ _ ops) k) with 0. lra. }
  pose proof (resting_near ideal_eigen (1 / 2) 0 2 (fun _ => 0) (fun _ _ => 0) rI 0 ops ltac:(lra) ideal_llt
    ideal_llt_lower Hx HP ltac:(lra) 0 1000000000 Hcalm Hr) as Hnear.
  destruct (C83_resting_psd ideal_eigen (1 / 2) 0 2 (fun _ => 0) (fun _ _ => 0) rI 0 ops ltac:(lra) ideal_llt
    ideal_llt_lower Hx HP ltac:(lra) 0%Z 1000000000%Z Hcalm ltac:(lra) ltac:(lia)) as [HM _].
  apply (psd_diag_nonneg 15 _ 0%nat) in HM; [|lia].
  set (s := fb_run _ _ ops) in *.
  set (s' := ukf_predict ideal_eigen s 0 1000000000) in *.
  assert (HN : (if fb_use_dyn s' then fb_dynQ s' else fb_Q s') 0%nat 0%nat = 1) by reflexivity.
  assert (HRR : repaired_cov (ex_meas 0 (fb_state s' 0%nat + 1)) 0%nat 0%nat = 4).
  { clearbody s'. change (Rmax (Rabs 4) (/ 1000000000) = 4). rewrite Rabs_right by lra. apply Rmax_left. lra. }
  pose proof (C84_gain_refuted ideal_eigen (1 / 2) 0 2 (fun _ => 0) (fun _ _ => 0) rI 0 ops 0%Z 1000000000%Z
    (ex_meas 0 (fb_state s' 0%nat + 1)) 0%nat ideal_inverse eq_refl (ex_selected _ _)) as H.
  cbv zeta in H. fold s in H. fold s' in H. rewrite HRR in H.
  cbv beta zeta in HM. fold s in HM. fold s' in HM. cbv beta in HM.
  rewrite HN in H, HM.
  clearbody s'. clear HN HRR.
  replace (m_value (ex_meas 0 (fb_state s' 0%nat + 1)) 0%nat - fb_state s' 0%nat) with 1 in H
    by (change (fb_state s' 0%nat + 1 - fb_state s' 0%nat) with (fb_state s' 0%nat + 1 - fb_state s' 0%nat); cbn; lra).
  change (m_thresh (ex_meas 0 (fb_state s' 0%nat + 1))) with 5 in H.
  destruct H as [H1 H2].
  - unfold angular. lia.
  - exact Hnear.
  - lra.
  - lra.
  - lra.
  - eexists. split; [exact H1|]. rewrite Rmult_1_r. exact H2.
Qed.
