(** * Properties of the unscented filter (C14-C19) *)

From Coq Require Import Reals ZArith String List Bool Arith Lra Lia.
From Verif Require Import Scalar Mat FilterBase FilterOps Ekf Ukf SpecLin SpecFilter SpecMotion
  RLin RBridge EkfFacts EkfPsd Angles EkfUpdate Motion UkfProofs UkfUpdate UkfCross Pdef EigenExist
  FilterExtra PropsFilter.
Import ListNotations.
Local Open Scope R_scope.

(** A UKF with alpha = 1, kappa = 0, beta = 2 after setConstants. *)
Definition ex_ukf : ukf RScalar :=
  set_P (setConstants (@ukf_init RScalar (fun _ => 0) (fun _ _ => 0) rI 0) 1 0 2) rI.

Lemma ex_rI_pdef : pdef 15 rI.
Proof.
  apply (pdef_ext 15 rI (fun i j => if Nat.eqb i j then 1 else 0)); [reflexivity|].
  apply (pdef_diag 15 (fun _ => 1)). intros. lra.
Qed.

(** ** C14 *)

Theorem C14_weights_sum : forall alpha kappa, alpha * alpha * (15 + kappa) <> 0 ->
  rsum 31 (@ukf_sw RScalar (@ukf_lambda RScalar alpha kappa)) = 1.
Proof. exact weights_sum_one. Qed.
Print Assumptions C14_weights_sum.

(** Weighted mean and scatter of freshly generated sigma points, over every
    history after setConstants. *)
Theorem C14_sigma_moments : forall eig (alpha kappa beta : R) g gs gq gl ops,
  eigen_llt_ok eig -> 0 < alpha * alpha * (15 + kappa) ->
  let s := fb_run (ukf_vtbl eig) (setConstants (@ukf_init RScalar g gs gq gl) alpha kappa beta) ops in
  pdef 15 (fb_P s) ->
  let e := fb_ext (generateSigmaPoints eig s) in
  (forall k, rsum 31 (fun i => u_sw e i * u_sigma e i k) = fb_state s k) /\
  (forall a b, (a < 15)%nat -> (b < 15)%nat ->
     rsum 31 (fun i => u_cw e i * ((u_sigma e i a - fb_state s a) * (u_sigma e i b - fb_state s b)))
     = fb_P s a b).
Proof. exact generated_moments_run. Qed.
Print Assumptions C14_sigma_moments.

Example C14_case : eigen_llt_ok ideal_eigen /\ 0 < 1 * 1 * (15 + 0) /\ pdef 15 (fb_P ex_ukf).
Proof. split; [exact ideal_llt|]. split; [lra|exact ex_rI_pdef]. Qed.

(** ** C15 *)

(** The first correction since a prediction (flag [u_uncorrected]) ignores the
    current covariance for the state update, and takes the innovation from the
    stored sigma points, whatever the current state; any scalar type. *)
Theorem C15_stale_ignores_covariance : forall (K : Scalar) eig (s : ukf K) m (P2 : mat K),
  u_uncorrected (fb_ext s) = true ->
  fb_state (ukf_correct eig (set_P s P2) m) = fb_state (ukf_correct eig s m).
Proof. exact (@stale_state_ignores_P). Qed.
Print Assumptions C15_stale_ignores_covariance.

Theorem C15_stale_innovation : forall (K : Scalar) eig (e : ukf_ext K) (x1 x2 : vec K) m,
  uu_innov (ukf_compute_update eig e x1 m) = uu_innov (ukf_compute_update eig e x2 m).
Proof. exact (@stale_innovation_ignores_state). Qed.
Print Assumptions C15_stale_innovation.

(** Later corrections regenerate the sigma points from the current estimate. *)
Theorem C15_later_regenerate : forall (K : Scalar) eig (s : ukf K) m,
  u_uncorrected (fb_ext s) = false ->
  let fresh := set_ext s (ext_set_uncorrected (fb_ext (generateSigmaPoints eig s)) true) in
  fb_state (ukf_correct eig s m) = fb_state (ukf_correct eig fresh m) /\
  fb_P (ukf_correct eig s m) = fb_P (ukf_correct eig fresh m).
Proof. exact (@fresh_regenerates). Qed.
Print Assumptions C15_later_regenerate.

(** Consequence: after initialisation from a first measurement, a second
    measurement with the same stamp has no effect at all, whatever it says. *)
Theorem C15_second_measurement_ignored_refuted : forall eig alpha kappa beta g gs gq gl (m1 m2 : meas RScalar),
  0 < alpha * alpha * (15 + kappa) -> m_time m2 = m_time m1 ->
  let s0 := setConstants (@ukf_init RScalar g gs gq gl) alpha kappa beta in
  let s1 := processMeasurement (ukf_vtbl eig) s0 m1 in
  let s2 := processMeasurement (ukf_vtbl eig) s1 m2 in
  (forall i j, fb_P s2 i j = fb_P s1 i j) /\
  ((forall k, fb_state s2 k = @wrap_angles RScalar (fb_state s1) k) \/
   (forall k, fb_state s2 k = fb_state s1 k)).
Proof. exact second_measurement_ignored. Qed.
Print Assumptions C15_second_measurement_ignored_refuted.

Example C15_case : u_uncorrected (fb_ext ex_ukf) = true /\ m_time (ex_meas 7 1) = m_time (ex_meas 7 3).
Proof. split; reflexivity. Qed.

(** ** C16 *)

(** Cross covariance of state variable [k] and selected variable at position
    [a]: correct when normalisation at subset position agrees with the state
    index, or no wrap occurs for [k]. *)
Theorem C16_cross_covariance : forall eig (e : ukf_ext RScalar) (x : rvec) (m : meas RScalar),
  length (m_upd m) = 15%nat ->
  forall (X Z : nat -> rvec) k a, (k < 15)%nat -> (a < length (selected m))%nat ->
  ((angular k <-> (k < length (selected m))%nat /\ angular (nth k (selected m) 0%nat)) \/
   (forall i, (i < 31)%nat -> - PI < u_sigma e i k - x k <= PI)) ->
  (forall i, (i < 31)%nat -> var_diff k (u_sigma e i k - x k) (X i k)) ->
  (forall i, (i < 31)%nat ->
     var_diff (nth a (selected m) 0%nat)
       (u_sigma e i (nth a (selected m) 0%nat) - uu_zhat (ukf_compute_update eig e x m) a) (Z i a)) ->
  uu_Pxz (ukf_compute_update eig e x m) k a = rsum 31 (fun i => u_cw e i * (X i k * Z i a)).
Proof. exact cross_cov_ok. Qed.
Print Assumptions C16_cross_covariance.

(** A yaw-only measurement: a position difference is wrapped as if it were an
    angle, and the correlation of x with yaw changes sign. *)
Theorem C16_cross_covariance_refuted : forall eig,
  0 < rmul 15 witness_L (rT witness_L) 0%nat 5%nat /\
  uu_Pxz (ukf_compute_update eig witness_ext (fun _ => 0) witness_meas) 0%nat 0%nat < 0.
Proof. exact witness_sign. Qed.
Print Assumptions C16_cross_covariance_refuted.

(** With all variables selected, subset position and state index coincide. *)
Definition ex_full_meas : meas RScalar :=
  @mkMeas RScalar "full" 0 (fun _ => 0) rI (repeat true 15) 5 (fun _ => 0) 0.
Example C16_case k : (k < 15)%nat ->
  (angular k <-> (k < length (selected ex_full_meas))%nat /\ angular (nth k (selected ex_full_meas) 0%nat)).
Proof.
  intros Hk. change (selected ex_full_meas) with (seq 0 15). rewrite seq_length, seq_nth by assumption.
  cbn [Nat.add]. tauto.
Qed.

(** ** C17 *)

(** For arbitrary sigma points: the update P - K Pzz K' is P - K (Pzz+R) K' + K R K',
    below the prior and above the update that includes R. *)
Theorem C17_update_split : forall n (P Pxz Pzz R0 Sinv : rmat) i j,
  P i j - rmul n (rmul n (rmul n Pxz Sinv) Pzz) (rT (rmul n Pxz Sinv)) i j =
  P i j - rmul n (rmul n (rmul n Pxz Sinv) (fun i0 j0 => Pzz i0 j0 + R0 i0 j0)) (rT (rmul n Pxz Sinv)) i j
  + rmul n (rmul n (rmul n Pxz Sinv) R0) (rT (rmul n Pxz Sinv)) i j.
Proof. exact ukf_cov_split. Qed.
Print Assumptions C17_update_split.

(** With freshly generated sigma points and no angle selected, the state update
    is the Kalman update; the covariance lies between the optimal posterior and
    the prior and is PSD. *)
Theorem C17_fresh_update : forall eig, eigen_inverse_ok eig -> eigen_llt_ok eig ->
  forall alpha kappa beta : R, 0 < alpha * alpha * (15 + kappa) ->
  forall (s : ukf RScalar) (m : meas RScalar),
  @consts RScalar alpha kappa beta s -> pdef 15 (fb_P s) -> length (m_upd m) = 15%nat ->
  no_angle_selected m -> u_uncorrected (fb_ext s) = false ->
  invertible (length (selected m)) (innovation_cov (fb_P s) m) ->
  forall nu w, innovation_of (fb_state s) m nu ->
  veq (length (selected m)) (rmv (length (selected m)) (innovation_cov (fb_P s) m) w) nu ->
  rdot (length (selected m)) nu w < m_thresh m * m_thresh m ->
  corrected_state (fb_state s) (fb_P s) m w (fb_state (ukf_correct eig s m)) /\
  (forall G, is_gain (fb_P s) m G -> forall i j, (i < 15)%nat -> (j < 15)%nat ->
     fb_P (ukf_correct eig s m) i j =
     fb_P s i j - rsum (length (selected m)) (fun b =>
       rsum (length (selected m)) (fun a =>
         G i a * fb_P s (nth a (selected m) 0%nat) (nth b (selected m) 0%nat)) * G j b)) /\
  loewner_le 15 (fb_P (ukf_correct eig s m)) (fb_P s) /\
  (psd 15 (m_cov m) -> psd 15 (fb_P (ukf_correct eig s m))) /\
  (psd 15 (m_cov m) -> forall Pk, corrected_cov (fb_P s) m Pk ->
     loewner_le 15 Pk (fb_P (ukf_correct eig s m))).
Proof. exact ukf_fresh_accept. Qed.
Print Assumptions C17_fresh_update.

Theorem C17_fresh_reject : forall eig, eigen_inverse_ok eig -> eigen_llt_ok eig ->
  forall alpha kappa beta : R, 0 < alpha * alpha * (15 + kappa) ->
  forall (s : ukf RScalar) (m : meas RScalar),
  @consts RScalar alpha kappa beta s -> pdef 15 (fb_P s) -> length (m_upd m) = 15%nat ->
  no_angle_selected m -> u_uncorrected (fb_ext s) = false ->
  invertible (length (selected m)) (innovation_cov (fb_P s) m) ->
  forall nu w, innovation_of (fb_state s) m nu ->
  veq (length (selected m)) (rmv (length (selected m)) (innovation_cov (fb_P s) m) w) nu ->
  m_thresh m * m_thresh m <= rdot (length (selected m)) nu w ->
  fb_state (ukf_correct eig s m) = fb_state s /\ fb_P (ukf_correct eig s m) = fb_P s.
Proof. exact ukf_fresh_reject. Qed.
Print Assumptions C17_fresh_reject.

(** The hypotheses hold for P = I and the concrete position fix. *)
Definition ex_ukf_fresh : ukf RScalar := set_ext ex_ukf (ext_set_uncorrected (fb_ext ex_ukf) false).
Example C17_case : @consts RScalar 1 0 2 ex_ukf_fresh /\ pdef 15 (fb_P ex_ukf_fresh) /\
  no_angle_selected (ex_meas 0 3) /\ u_uncorrected (fb_ext ex_ukf_fresh) = false /\
  invertible 1 (innovation_cov (fb_P ex_ukf_fresh) (ex_meas 0 3)) /\
  innovation_of (fb_state ex_ukf_fresh) (ex_meas 0 3) (fun _ => 3) /\
  veq 1 (rmv 1 (innovation_cov (fb_P ex_ukf_fresh) (ex_meas 0 3)) (fun _ => 3 / 5)) (fun _ => 3).
Proof.
  split; [repeat split|]. split; [exact ex_rI_pdef|]. split.
  - intros a Ha. rewrite ex_selected in *. cbn in Ha. assert (a = 0%nat) by lia. subst. cbn. unfold angular. lia.
  - split; [reflexivity|]. split; [|split].
    + apply (proj1 (C03_case 0)).
    + apply (proj1 (proj2 (C03_case 0))).
    + apply (proj1 (proj2 (proj2 (C03_case 0)))).
Qed.

(** ** C18 *)

Theorem C18_predict_ignores_control : forall (K : Scalar) eig (s : ukf K) uc timeout ctime ag al dg dl cu ca c r r' d,
  fb_state (ukf_predict eig (with_control s uc timeout ctime ag al dg dl cu ca c) r d)
    = fb_state (ukf_predict eig s r' d) /\
  fb_P (ukf_predict eig (with_control s uc timeout ctime ag al dg dl cu ca c) r d)
    = fb_P (ukf_predict eig s r' d).
Proof. exact (@ukf_predict_no_control). Qed.
Print Assumptions C18_predict_ignores_control.

(** ** C19 *)

(** The UKF moves every sigma point by the EKF's (uncontrolled) motion model. *)
Theorem C19_sigma_motion : forall n (F : rmat) (sg : nat -> rvec) d i k,
  @F_ok RScalar F -> (i < n)%nat -> (k < 15)%nat ->
  snd (@project_all RScalar n F sg d) i k = motion_fun (IZR d / 1000000000) (sg i) k.
Proof. exact project_all_spec. Qed.
Print Assumptions C19_sigma_motion.

Theorem C19_ekf_same_motion : forall (s : ekf RScalar) (F : rmat) (pt : rvec) r d k,
  tf_inv s -> fb_use_control s = false -> @F_ok RScalar F -> (k < 15)%nat ->
  (forall i, fb_state s i = pt i) ->
  let sigma := snd (@projectSigmaPoint RScalar F pt d) in
  (angular k -> wrapped (sigma k) (fb_state (ekf_predict s r d) k)) /\
  (~ angular k -> fb_state (ekf_predict s r d) k = sigma k).
Proof. exact sigma_vs_ekf. Qed.
Print Assumptions C19_ekf_same_motion.

(** Reachable UKF states meet the hypothesis on the transfer function. *)
Theorem C19_reachable : forall eig g gs gq gl alpha kappa beta ops,
  tf_inv (fb_run (ukf_vtbl eig) (setConstants (@ukf_init RScalar g gs gq gl) alpha kappa beta) ops).
Proof. exact ukf_reachable_tf. Qed.
Print Assumptions C19_reachable.

Example C19_case : tf_inv ex_init /\ fb_use_control ex_init = false /\ @F_ok RScalar (@meye RScalar).
Proof. split; [apply tf_inv_init|]. split; [reflexivity|exact (@meye_F_ok RScalar)]. Qed.
