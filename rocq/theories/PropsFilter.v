(** * Properties of the filter core: FilterBase and Ekf (C01-C13, C20)

    Every theorem is one line on top of a lemma; the [Example]s next to a theorem
    show a concrete case meeting its hypotheses. *)

From Coq Require Import Reals ZArith String List Bool Arith Lra Lia.
From Verif Require Import Scalar FloatScalar Mat FilterBase FilterOps Ekf Ukf ForceTwoD
  SpecLin SpecFilter SpecMotion RLin RBridge EkfFacts EkfPsd Angles EkfUpdate Motion Jacobian
  Pdef EigenExist TwoD WitTwoD FilterExtra NanFacts.
Import ListNotations.
Local Open Scope R_scope.

(** ** A concrete position fix: x = 3 with variance 4, everything else unselected *)

Definition ex_flags : list bool := true :: repeat false 14.
Definition ex_cov : rmat := fun i j => if (Nat.eqb i 0 && Nat.eqb j 0)%bool then 4 else 0.
Definition ex_meas (t : Z) (v : R) : meas RScalar :=
  @mkMeas RScalar "odom0_pose" t (fun i => if Nat.eqb i 0 then v else 0) ex_cov ex_flags 5 (fun _ => 0) 0.

Example ex_meas_good t v : good_meas (ex_meas t v).
Proof.
  split; [reflexivity|]. apply (psd_ext 15 (fun i j => if Nat.eqb i j then (if Nat.eqb i 0 then 4 else 0) else 0)).
  - intros i j _ _. cbn. unfold ex_cov.
    destruct (Nat.eqb_spec i 0), (Nat.eqb_spec j 0), (Nat.eqb_spec i j); subst; cbn; auto; congruence.
  - apply psd_diag. intros i _. destruct (Nat.eqb i 0); lra.
Qed.

Definition ex_init : ekf RScalar := @fb_init RScalar unit (fun _ => 0) tt.

Example ex_init_P i j : fb_P ex_init i j = if Nat.eqb i j then / 1000000000 else 0.
Proof.
  change (@mscale RScalar (@lit RScalar 1 9) (@meye RScalar) i j = if Nat.eqb i j then / 1000000000 else 0).
  unfold mscale. rewrite lit_1_9. toR. unfold rI. destruct (Nat.eqb i j); ring.
Qed.

(** A history: first measurement, half a second of prediction, a second measurement. *)
Definition ex_ops : list (fb_op RScalar) :=
  [OpSetUseDyn true; OpProcess (ex_meas 1000000000 3); OpPredict 1500000000 500000000;
   OpProcess (ex_meas 2000000000 4); OpCorrect (ex_meas 2000000000 4)].

(** ** C01 *)

(** After any history of API calls, the estimate covariance is symmetric PSD,
    whatever Eigen's inverse() and llt() return. *)
Theorem C01_ekf_covariance_psd : forall eig g (dyn : Prop) ops,
  run_ok dyn (ekf_vtbl eig) (fb_init g tt) ops ->
  psd 15 (fb_P (fb_run (ekf_vtbl eig) (fb_init g tt) ops)).
Proof. exact (fun eig g dyn ops H => proj1 (inv_run eig dyn ops _ H (inv_init g dyn))). Qed.
Print Assumptions C01_ekf_covariance_psd.

(** The same from any state with a PSD covariance and admissible noise. *)
Theorem C01_ekf_covariance_psd_from : forall eig (dyn : Prop) ops (s : ekf RScalar),
  inv dyn s -> run_ok dyn (ekf_vtbl eig) s ops ->
  psd 15 (fb_P (fb_run (ekf_vtbl eig) s ops)).
Proof. exact (fun eig dyn ops s Hi H => proj1 (inv_run eig dyn ops s H Hi)). Qed.
Print Assumptions C01_ekf_covariance_psd_from.

Example C01_case eig : run_ok True (ekf_vtbl eig) ex_init ex_ops.
Proof.
  cbn [run_ok ex_ops op_ok]. repeat split; auto; try apply ex_meas_good; try lia; try discriminate.
  intros _ i j Hi Hj Hne.
    change (fb_P ex_init i j = 0). rewrite ex_init_P.
    destruct (Nat.eqb_spec i j); [subst; congruence|reflexivity].
Qed.

(** ** C02 *)

(** Two measurements agreeing on every usable entry (selected and finite) and on
    the covariance cells between usable entries give the same result. *)
Theorem C02_unusable_entries_ignored_ekf : forall (K : Scalar) eig (s : ekf K) (m1 m2 : meas K),
  same_usable m1 m2 -> ekf_correct eig s m1 = ekf_correct eig s m2.
Proof. exact (@ekf_correct_same_usable). Qed.
Print Assumptions C02_unusable_entries_ignored_ekf.

Theorem C02_unusable_entries_ignored_ukf : forall (K : Scalar) eig (s : ukf K) (m1 m2 : meas K),
  same_usable m1 m2 -> ukf_correct eig s m1 = ukf_correct eig s m2.
Proof. exact (@ukf_correct_same_usable). Qed.
Print Assumptions C02_unusable_entries_ignored_ukf.

Theorem C02_nothing_selected : forall eig (s : ekf RScalar) m,
  (forall i, nth i (m_upd m) false = false) ->
  meq 15 15 (fb_P (ekf_correct eig s m)) (fb_P s) /\
  forall k, (k < 15)%nat ->
    (angular k -> exists n : Z, fb_state (ekf_correct eig s m) k = fb_state s k + IZR n * (2 * PI)) /\
    (~ angular k -> fb_state (ekf_correct eig s m) k = fb_state s k).
Proof. exact ekf_correct_nothing. Qed.
Print Assumptions C02_nothing_selected.

(** Two IEEE measurements that differ in a NaN entry's covariance and in an
    unselected entry. *)
Definition nan_meas (lm : LibM) (junk : PrimFloat.float) : meas (FScalar lm) :=
  @mkMeas (FScalar lm) "imu0" 0
    (fun i => match i with 0%nat => PrimFloat.one | 1%nat => PrimFloat.nan | _ => junk end)
    (fun i j => match i, j with 0%nat, 0%nat => PrimFloat.one | _, _ => junk end)
    (true :: true :: repeat false 13) PrimFloat.one (fun _ => PrimFloat.zero) 0.
Example C02_case lm a b : same_usable (nan_meas lm a) (nan_meas lm b).
Proof.
  assert (U : forall j, usable (nan_meas lm j) 1%nat -> False)
    by (intros j (_ & H & _); vm_compute in H; discriminate).
  assert (U2 : forall j i, usable (nan_meas lm j) (S (S i)) -> False).
  { intros j i (H & _). cbn in H. do 14 (destruct i as [|i]; [discriminate|]). discriminate. }
  split; [reflexivity|]. split; [reflexivity|]. split; [|split].
  - intros [|[|i]]; [reflexivity| |]; split; intros H; exfalso; eauto.
  - intros [|[|i]] H; [reflexivity| |]; exfalso; eauto.
  - intros [|[|i]] [|[|j]] H1 H2; try reflexivity; exfalso; eauto.
Qed.

(** ** C03 *)

Theorem C03_gate_reject : forall eig, eigen_inverse_ok eig ->
  forall m : meas RScalar, length (m_upd m) = 15%nat -> forall s : ekf RScalar,
  invertible (length (selected m)) (innovation_cov (fb_P s) m) ->
  forall nu w, innovation_of (fb_state s) m nu ->
  veq (length (selected m)) (rmv (length (selected m)) (innovation_cov (fb_P s) m) w) nu ->
  m_thresh m * m_thresh m <= rdot (length (selected m)) nu w ->
  ekf_correct eig s m = s.
Proof. exact ekf_reject. Qed.
Print Assumptions C03_gate_reject.

Theorem C03_gate_accept : forall eig, eigen_inverse_ok eig ->
  forall m : meas RScalar, length (m_upd m) = 15%nat -> forall s : ekf RScalar,
  invertible (length (selected m)) (innovation_cov (fb_P s) m) ->
  forall nu w, innovation_of (fb_state s) m nu ->
  veq (length (selected m)) (rmv (length (selected m)) (innovation_cov (fb_P s) m) w) nu ->
  rdot (length (selected m)) nu w < m_thresh m * m_thresh m ->
  corrected_state (fb_state s) (fb_P s) m w (fb_state (ekf_correct eig s m)) /\
  corrected_cov (fb_P s) m (fb_P (ekf_correct eig s m)).
Proof. exact ekf_accept. Qed.
Print Assumptions C03_gate_accept.

Theorem C03_gate_monotone : forall eig (s : ekf RScalar) (m : meas RScalar) (t t' : R),
  t * t <= t' * t' ->
  ekf_correct eig s (with_threshold m t) = s \/
  ekf_correct eig s (with_threshold m t') = ekf_correct eig s (with_threshold m t).
Proof. exact ekf_gate_monotone. Qed.
Print Assumptions C03_gate_monotone.

(** IEEE: a NaN distance is never rejected. *)
Theorem C03_nan_distance_accepted : forall lm n (nu : vec (FScalar lm)) S t,
  PrimFloat.is_nan (dot n nu (mvmul n S nu)) = true ->
  @checkMahalanobisThreshold (FScalar lm) n nu S t = true.
Proof. exact nan_passes_gate. Qed.
Print Assumptions C03_nan_distance_accepted.

(** Prior P = I, state 0, fix x = 3 with variance 4: S = 5, innovation 3,
    w = 3/5, distance 9/5 < 25. *)
Definition ex_filter : ekf RScalar := set_P ex_init rI.
Example ex_selected t v : selected (ex_meas t v) = [0%nat].
Proof. reflexivity. Qed.
Example ex_S t v : is_inverse 1 (innovation_cov rI (ex_meas t v)) (fun _ _ => / 5).
Proof.
  intros i j Hi Hj. assert (i = 0%nat) by lia. assert (j = 0%nat) by lia. subst.
  unfold rmul, innovation_cov, repaired_cov. rewrite ex_selected. cbn.
  unfold ex_cov. cbn. rewrite (Rabs_pos_eq 4) by lra. rewrite Rmax_left by lra. unfold rI. cbn. split; field.
Qed.
Example C03_case t :
  invertible 1 (innovation_cov (fb_P ex_filter) (ex_meas t 3)) /\
  innovation_of (fb_state ex_filter) (ex_meas t 3) (fun _ => 3) /\
  veq 1 (rmv 1 (innovation_cov (fb_P ex_filter) (ex_meas t 3)) (fun _ => 3 / 5)) (fun _ => 3) /\
  rdot 1 (fun _ => 3) (fun _ => 3 / 5) < 5 * 5.
Proof.
  split; [exists (fun _ _ => / 5); apply ex_S|]. split; [|split].
  - intros a Ha. rewrite ex_selected in *. cbn in Ha. assert (a = 0%nat) by lia. subst. cbn.
    unfold angular. split; [intros H; exfalso; lia|intros _; lra].
  - intros i Hi. assert (i = 0%nat) by lia. subst.
    unfold rmv, innovation_cov, repaired_cov. rewrite ex_selected. cbn.
    unfold ex_cov. cbn. rewrite (Rabs_pos_eq 4) by lra. rewrite Rmax_left by lra. unfold rI. cbn. field.
  - cbn. lra.
Qed.

(** ** C04 *)

(** Normalising brings an angle into (-pi, pi] by whole turns, and is idempotent. *)
Theorem C04_normalize : forall a,
  wrapped a (@normalize_angle RScalar a) /\
  @normalize_angle RScalar (@normalize_angle RScalar a) = @normalize_angle RScalar a.
Proof. exact (fun a => conj (normalize_angle_spec a) (normalize_angle_id _ (proj1 (normalize_angle_spec a)))). Qed.
Print Assumptions C04_normalize.

Theorem C04_predict_normalised : forall eig (s : ekf RScalar) (u : ukf RScalar) r d,
  angles_normalised (fb_state (ekf_predict s r d)) /\
  angles_normalised (fb_state (ukf_predict eig u r d)).
Proof. exact (fun eig s u r d => conj (ekf_predict_angles s r d) (ukf_predict_angles eig u r d)). Qed.
Print Assumptions C04_predict_normalised.

(** Over histories, as long as nothing sets a raw angle from outside. *)
Theorem C04_ekf_history : forall eig ops (s : ekf RScalar),
  angles_normalised (fb_state s) -> run_angles_ok (ekf_vtbl eig) s ops ->
  angles_normalised (fb_state (fb_run (ekf_vtbl eig) s ops)).
Proof. exact (fun eig => run_angles (ekf_vtbl eig) ekf_predict_angles (ekf_correct_angles eig)). Qed.
Print Assumptions C04_ekf_history.

Theorem C04_ukf_history : forall eig ops (s : ukf RScalar),
  angles_normalised (fb_state s) -> run_angles_ok (ukf_vtbl eig) s ops ->
  angles_normalised (fb_state (fb_run (ukf_vtbl eig) s ops)).
Proof. exact (fun eig => run_angles (ukf_vtbl eig) (ukf_predict_angles eig) (ukf_correct_angles eig)). Qed.
Print Assumptions C04_ukf_history.

Example C04_case eig : run_angles_ok (ekf_vtbl eig) ex_init
  [OpProcess (ex_meas 0 3); OpPredict 1000000000 1000000000; OpCorrect (ex_meas 0 2)].
Proof.
  cbn [run_angles_ok op_angles_ok]. repeat split; auto;
  destruct H0 as [->|[->| ->]]; cbn in H1; discriminate.
Qed.

(** ** C05 *)

(** processMeasurement on an initialised filter, any scalar type, any subclass. *)
Theorem C05_process_measurement : forall (K : Scalar) (E : Type) (vt : vtbl K E) (s : fb K E) (m : meas K),
  fb_initialized s = true ->
  let predicted :=
    if Z_lt_dec (fb_last_time s) (m_time m)
    then let p := v_predict vt s (m_time m) (m_time m - fb_last_time s) in set_predicted p (fb_state p)
    else s in
  let corrected := v_correct vt predicted m in
  processMeasurement vt s m =
  if Z_le_dec (fb_last_time s) (m_time m) then set_last_time corrected (m_time m) else corrected.
Proof. exact (@process_cases). Qed.
Print Assumptions C05_process_measurement.

Theorem C05_last_time_ekf : forall (K : Scalar) eig (ms : list (meas K)) (s : ekf K),
  fb_initialized s = true ->
  fb_last_time (fold_left (processMeasurement (ekf_vtbl eig)) ms s) =
  fold_left Z.max (map m_time ms) (fb_last_time s).
Proof. exact (@ekf_list_last_time). Qed.
Print Assumptions C05_last_time_ekf.

Theorem C05_last_time_ukf : forall (K : Scalar) eig (ms : list (meas K)) (s : ukf K),
  fb_initialized s = true ->
  fb_last_time (fold_left (processMeasurement (ukf_vtbl eig)) ms s) =
  fold_left Z.max (map m_time ms) (fb_last_time s).
Proof. exact (@ukf_list_last_time). Qed.
Print Assumptions C05_last_time_ukf.

Example C05_case eig :
  fb_last_time (fold_left (processMeasurement (ekf_vtbl eig)) [ex_meas 5 1; ex_meas 2 1; ex_meas 7 1]
    (set_initialized ex_init true)) = 7%Z.
Proof. rewrite C05_last_time_ekf; reflexivity. Qed.

(** ** C06 *)

Theorem C06_first_measurement : forall (K : Scalar) (E : Type) (vt : vtbl K E) (s : fb K E) (m : meas K),
  fb_initialized s = false ->
  let s' := processMeasurement vt s m in
  fb_initialized s' = true /\ fb_last_time s' = m_time m /\
  (forall i, fb_state s' i = if nth i (m_upd m) false then m_value m i else fb_state s i) /\
  (forall i j, fb_P s' i j =
     if (nth i (m_upd m) false && nth j (m_upd m) false)%bool then m_cov m i j else fb_P s i j) /\
  fb_Q s' = fb_Q s /\ fb_control s' = fb_control s /\ fb_ext s' = fb_ext s.
Proof. exact (@first_measurement). Qed.
Print Assumptions C06_first_measurement.

(** So NaN values enter the state (refutes that non-finite entries never do). *)
Theorem C06_first_nan_refuted : forall lm eig g junk,
  PrimFloat.is_nan (fb_state (processMeasurement (@ekf_vtbl (FScalar lm) eig)
     (@fb_init (FScalar lm) unit g tt) (nan_meas lm junk)) 1%nat) = true.
Proof. exact (fun lm eig g junk => eq_refl). Qed.
Print Assumptions C06_first_nan_refuted.

(** A negative variance is copied as is. *)
Example C06_negative_variance eig :
  fb_P (processMeasurement (ekf_vtbl eig) ex_init neg_meas) 0%nat 0%nat = -1.
Proof. reflexivity. Qed.

(** ** C07 *)

(** The EKF prediction, control accelerations included; [controlled_state] is
    the identity for unselected axes. *)
Theorem C07_ekf_predict_motion : forall eig g ops r d,
  let s := fb_run (ekf_vtbl eig) (@fb_init RScalar unit g tt) ops in
  motion_step
    (controlled_state (fun i => nth i (fb_control_upd s) false)
       (fb_control_acc (ekf_predict s r d)) (fb_state s) (IZR d / 1000000000))
    (IZR d / 1000000000) (fb_state (ekf_predict s r d)).
Proof. exact ekf_reachable_motion. Qed.
Print Assumptions C07_ekf_predict_motion.

Theorem C07_ekf_predict_uncontrolled : forall eig g ops r d,
  let s := fb_run (ekf_vtbl eig) (@fb_init RScalar unit g tt) ops in
  fb_use_control s = false ->
  motion_step (fb_state s) (IZR d / 1000000000) (fb_state (ekf_predict s r d)).
Proof. exact ekf_reachable_motion_free. Qed.
Print Assumptions C07_ekf_predict_uncontrolled.

Theorem C07_zero_interval : forall eig g ops r,
  let s := fb_run (ekf_vtbl eig) (@fb_init RScalar unit g tt) ops in
  fb_use_control s = false ->
  forall k, (k < 15)%nat ->
    (angular k -> wrapped (fb_state s k) (fb_state (ekf_predict s r 0) k)) /\
    (~ angular k -> fb_state (ekf_predict s r 0) k = fb_state s k).
Proof. exact ekf_reachable_zero. Qed.
Print Assumptions C07_zero_interval.

(** One second at yaw = pi/2 with vx = 2 moves y by 2 and x by 0. *)
Example C07_case :
  let x := fun i : nat => match i with 5%nat => PI / 2 | 6%nat => 2 | _ => 0 end in
  next_position x 1 0 = 0 /\ next_position x 1 1 = 2.
Proof.
  cbv zeta. unfold next_position, Rrpy, rmul, Rz, Ry, Rx, mat3. cbn.
  rewrite sin_0, cos_0, sin_PI2, cos_PI2. split; lra.
Qed.

(** ** C08 *)

Theorem C08_jacobian : forall eig g ops r d i j,
  let s := fb_run (ekf_vtbl eig) (@fb_init RScalar unit g tt) ops in
  cos (fb_state s 4%nat) <> 0 -> (i < 15)%nat -> (j < 15)%nat ->
  derivable_pt_lim (fun t => motion_fun (IZR d / 1000000000) (with_var (fb_state s) j t) i)
    (fb_state s j) (fb_J (ekf_predict s r d) i j).
Proof. exact ekf_reachable_jacobian. Qed.
Print Assumptions C08_jacobian.

(** That matrix is the one used to propagate the covariance. *)
Theorem C08_covariance_propagation : forall (s : ekf RScalar) r d i j,
  fb_P (ekf_predict s r d) i j =
  rmul 15 (rmul 15 (fb_J (ekf_predict s r d)) (fb_P s)) (rT (fb_J (ekf_predict s r d))) i j +
  IZR d / 1000000000 * (if fb_use_dyn s then fb_dynQ (ekf_predict s r d) i j else fb_Q s i j).
Proof. exact ekf_predict_P_explicit. Qed.
Print Assumptions C08_covariance_propagation.

Example C08_case : cos (fb_state ex_init 4%nat) <> 0.
Proof. cbn. rewrite cos_0. lra. Qed.

(** ** C09 *)

(** The acceleration of a selected axis is the clamped proportional command; a
    timed-out command counts as zero. *)
Theorem C09_commanded : forall (s : ekf RScalar) r d i,
  fb_use_control s = true -> (i < 6)%nat -> nth i (fb_control_upd s) false = true ->
  commanded_accel (fb_state s (6 + i)%nat)
    (if Z_le_dec (fb_control_timeout s) (r - fb_control_time s) then 0 else fb_control s i)
    (nth i (fb_acc_limits s) 0) (nth i (fb_acc_gains s) 0)
    (nth i (fb_dec_limits s) 0) (nth i (fb_dec_gains s) 0)
    (fb_control_acc (ekf_predict s r d) i).
Proof. exact predict_acc_selected. Qed.
Print Assumptions C09_commanded.

Theorem C09_bounded : forall v c al ag dl dg a,
  0 <= al -> 0 <= dl -> commanded_accel v c al ag dl dg a ->
  Rabs a <= Rmax al dl /\ (al = dl -> Rabs a <= al).
Proof. exact commanded_accel_bounded. Qed.
Print Assumptions C09_bounded.

Theorem C09_direction : forall v c al ag dl dg a,
  0 <= al -> 0 <= dl -> 0 <= ag -> 0 <= dg ->
  commanded_accel v c al ag dl dg a -> 0 <= a * (c - v) /\ (v = c -> a = 0).
Proof. exact commanded_accel_direction. Qed.
Print Assumptions C09_direction.

(** It never overshoots when gain * dt <= 1. *)
Theorem C09_no_overshoot : forall v c al ag dl dg a dt,
  0 <= al -> 0 <= dl -> 0 <= ag -> 0 <= dg -> 0 <= dt -> ag * dt <= 1 -> dg * dt <= 1 ->
  commanded_accel v c al ag dl dg a -> Rabs (c - (v + a * dt)) <= Rabs (c - v).
Proof. exact commanded_accel_converges. Qed.
Print Assumptions C09_no_overshoot.

(** Braking from 2 to 1, limits 1 (acc) / 3 (dec), gains 1 / 2: -2. *)
Example C09_case : commanded_accel 2 1 1 1 3 2 (-2).
Proof.
  unfold commanded_accel. cbv zeta.
  assert (A1 : Rabs (1 - 2) = 1) by (rewrite Rabs_left; lra).
  assert (A2 : Rabs 1 = 1) by apply Rabs_R1. assert (A3 : Rabs 2 = 2) by (apply Rabs_pos_eq; lra).
  rewrite A1, A2. destruct (Rle_dec 1 (1 + / 100)); [|lra]. rewrite A2, A3. split.
  - intros _. rewrite Rmax_left, Rmin_left; lra.
  - intros H. exfalso. apply H. lra.
Qed.

(** ** C10 *)

Theorem C10_unselected_axis : forall (s : ekf RScalar) r d i,
  fb_use_control s = false \/ (6 <= i)%nat \/ nth i (fb_control_upd s) false = false ->
  fb_control_acc (ekf_predict s r d) i = 0.
Proof. exact predict_acc_unselected. Qed.
Print Assumptions C10_unselected_axis.

Theorem C10_default_timeout : forall (K : Scalar) E (s : fb K E) c r,
  fb_control_timeout s = 0%Z -> (fb_control_time s <= r)%Z ->
  control_timed_out s r = true /\
  fb_control_acc (prepareControl (set_control s c) r) = fb_control_acc (prepareControl s r).
Proof. exact (fun K E s c r H1 H2 => let H := default_timeout_always s r H1 H2 in
               conj H (timed_out_ignores_command s c r H)). Qed.
Print Assumptions C10_default_timeout.

Example C10_case : fb_control_timeout ex_init = 0%Z /\ (fb_control_time ex_init <= 5)%Z.
Proof. split; [reflexivity|cbn; lia]. Qed.

(** ** C11 *)

Theorem C11_dynamic_noise : forall E (s : fb RScalar E) (x : rvec) i j,
  fb_dynQ (computeDynamicProcessNoiseCovariance s x) i j =
  if (Nat.ltb i 6 && Nat.ltb j 6)%bool
  then rsum 6 (fun k => x (6 + k)%nat * x (6 + k)%nat) * fb_Q s i j
  else fb_dynQ s i j.
Proof. exact (@dyn_noise_entries). Qed.
Print Assumptions C11_dynamic_noise.

(** Block-diagonal PSD noise stays PSD (noise used by any prediction of a
    history satisfying [inv]). *)
Theorem C11_dynamic_noise_psd : forall dyn (s : ekf RScalar) r d,
  inv dyn s -> psd 15 (fun i j => if fb_use_dyn s then fb_dynQ (ekf_predict s r d) i j else fb_Q s i j).
Proof. exact predict_noise_psd. Qed.
Print Assumptions C11_dynamic_noise_psd.

Theorem C11_dynamic_noise_psd_refuted : exists (Q : rmat) (x : rvec), psd 15 Q /\
  forall E (s : fb RScalar E),
  ~ psd 15 (fb_dynQ (computeDynamicProcessNoiseCovariance (setProcessNoiseCovariance s Q) x)).
Proof. exact (ex_intro _ dyn_witness_Q (ex_intro _ dyn_witness_x (conj dyn_witness_psd (@dyn_noise_indefinite)))). Qed.
Print Assumptions C11_dynamic_noise_psd_refuted.

Example C11_case : inv True (set_use_dyn ex_init true).
Proof.
  apply (inv_exec ideal_eigen True ex_init (OpSetUseDyn true)); [cbn; auto|apply inv_init].
Qed.

(** ** C12 *)

(** No direction's variance grows in a correction, for every history. *)
Theorem C12_no_variance_growth : forall eig, eigen_inverse_ok eig ->
  forall g (dyn : Prop) ops m,
  run_ok dyn (ekf_vtbl eig) (fb_init g tt) ops -> good_meas m ->
  let s := fb_run (ekf_vtbl eig) (fb_init g tt) ops in
  invertible (length (selected m)) (innovation_cov (fb_P s) m) ->
  loewner_le 15 (fb_P (ekf_correct eig s m)) (fb_P s).
Proof. exact ekf_reachable_shrinks. Qed.
Print Assumptions C12_no_variance_growth.

(** The hypothesis on S holds whenever the selected noise is positive definite. *)
Theorem C12_innovation_invertible : forall (P : rmat) m,
  psd 15 P -> length (m_upd m) = 15%nat ->
  pdef (length (selected m))
    (fun a b => repaired_cov m (nth a (selected m) 0%nat) (nth b (selected m) 0%nat)) ->
  invertible (length (selected m)) (innovation_cov P m).
Proof. exact innovation_invertible. Qed.
Print Assumptions C12_innovation_invertible.

Example C12_case : eigen_inverse_ok ideal_eigen /\ good_meas (ex_meas 0 3) /\
  invertible (length (selected (ex_meas 0 3))) (innovation_cov (fb_P ex_filter) (ex_meas 0 3)).
Proof.
  split; [exact ideal_inverse|]. split; [apply ex_meas_good|]. exists (fun _ _ => / 5). apply ex_S.
Qed.

(** ** C13 *)

Theorem C13_variance_repair : forall (m : meas RScalar) i j,
  (i < length (update_indices m))%nat -> (j < length (update_indices m))%nat ->
  cov_subset (update_indices m) m i j =
  repaired_cov m (nth i (update_indices m) 0%nat) (nth j (update_indices m) 0%nat).
Proof. exact cov_subset_repaired. Qed.
Print Assumptions C13_variance_repair.

Theorem C13_variance_repair_psd : forall m : meas RScalar,
  good_meas m -> psd (length (update_indices m)) (cov_subset (update_indices m) m).
Proof. exact psd_cov_subset. Qed.
Print Assumptions C13_variance_repair_psd.

(** Good input variances are used unchanged. *)
Theorem C13_good_variance_kept : forall (m : meas RScalar) i j,
  (i < length (update_indices m))%nat -> (j < length (update_indices m))%nat ->
  (forall k, In k (update_indices m) -> / 1000000000 <= m_cov m k k) ->
  cov_subset (update_indices m) m i j =
  m_cov m (nth i (update_indices m) 0%nat) (nth j (update_indices m) 0%nat).
Proof. exact cov_subset_kept. Qed.
Print Assumptions C13_good_variance_kept.

Theorem C13_negative_variance_refuted :
  ~ psd (length (update_indices neg_meas)) (cov_subset (update_indices neg_meas) neg_meas).
Proof. exact neg_meas_indefinite. Qed.
Print Assumptions C13_negative_variance_refuted.

Example C13_case : good_meas (ex_meas 0 3) /\
  forall k, In k (update_indices (ex_meas 0 3)) -> / 1000000000 <= m_cov (ex_meas 0 3) k k.
Proof.
  split; [apply ex_meas_good|]. intros k [<-|[]]. cbn. unfold ex_cov. cbn. lra.
Qed.

(** ** C20 *)

(** Two-D mode: with decoupled measurements the state stays in the plane and
    uncorrelated with the out-of-plane variables, over every history. *)
Theorem C20_two_d_planar : forall eig, eigen_inverse_ok eig ->
  forall g (dyn : Prop) ops,
  run_ok dyn (ekf_vtbl eig) (fb_init g tt) ops -> Forall op_planar ops ->
  let s := fb_run (ekf_vtbl eig) (fb_init g tt) ops in
  planar_state (fb_state s) /\ decoupled 15 vertical (fb_P s).
Proof. exact planar_history. Qed.
Print Assumptions C20_two_d_planar.

(** Measurements with diagonal covariance become planar by forceTwoD. *)
Theorem C20_force_planar : forall m : meas RScalar,
  diagonal_meas m -> good_meas (force_meas m) /\ planar_meas (force_meas m).
Proof. exact (fun m H => conj (force_good m H) (force_planar m H)). Qed.
Print Assumptions C20_force_planar.

Example C20_case : diagonal_meas (ex_meas 0 3).
Proof.
  split; [reflexivity|]. split; intros i; cbn; unfold ex_cov.
  - intros j Hne. destruct (Nat.eqb_spec i 0), (Nat.eqb_spec j 0); cbn; auto; congruence.
  - destruct (Nat.eqb i 0); cbn; lra.
Qed.

(** A PSD measurement covariance with an x/z cross term: forceTwoD makes it
    indefinite and a planar EKF leaves the plane. *)
Theorem C20_two_d_refuted :
  psd 15 (m_cov tilt_meas) /\ ~ psd 15 (m_cov (force_meas tilt_meas)) /\
  planar_state (fb_state level_filter) /\
  forall eig, eigen_inverse_ok eig ->
    fb_state (ekf_correct eig level_filter (force_meas tilt_meas)) 2%nat <> 0.
Proof. exact (conj tilt_psd (conj tilt_forced_not_psd (conj (fun i _ => eq_refl) two_d_leaves_plane))). Qed.
Print Assumptions C20_two_d_refuted.
