(** * UKF cross covariance (C16) and ignored measurements (C15) *)

From Coq Require Import Reals ZArith String List Bool Arith Lra Lia FunctionalExtensionality.
From Verif Require Import Scalar Mat FilterBase FilterOps Ekf EkfFacts Ukf SpecLin SpecFilter SpecMotion
  RLin RBridge EkfPsd Angles EkfUpdate Motion Trig UkfProofs UkfUpdate.
Import ListNotations.
Local Open Scope R_scope.

Section Cross.
Variable eig : Eigen RScalar.
Variables (e : ukf_ext RScalar) (x : rvec) (m : meas RScalar).
Hypothesis Hlen : length (m_upd m) = 15%nat.
Let n := length (selected m).
Let sel a := nth a (selected m) 0%nat.
Let u := ukf_compute_update eig e x m.

Lemma zs_sel i a : (a < n)%nat ->
  @sigma_meas RScalar (update_indices m) (u_sigma e) i a = u_sigma e i (sel a).
Proof.
  intros Ha. unfold sigma_meas. toR.
  unfold rmv. rewrite (rsum_single 15 (sel a)).
  - rewrite (H_row m Hlen a _ Ha). unfold sel. rewrite Nat.eqb_refl. ring.
  - apply selected_lt. assumption.
  - intros l Hl Hne. rewrite (H_row m Hlen a _ Ha). apply Nat.eqb_neq in Hne. fold (sel a). rewrite Hne. ring.
Qed.

(** The cross covariance is the intended one at every state variable whose
    subset position is treated like the variable itself, and at every variable
    for which no difference needs wrapping. *)
Lemma cross_cov_ok (X Z : nat -> rvec) k a :
  (k < 15)%nat -> (a < n)%nat ->
  ((angular k <-> (k < n)%nat /\ angular (sel k)) \/
   (forall i, (i < 31)%nat -> - PI < u_sigma e i k - x k <= PI)) ->
  (forall i, (i < 31)%nat -> var_diff k (u_sigma e i k - x k) (X i k)) ->
  (forall i, (i < 31)%nat -> var_diff (sel a) (u_sigma e i (sel a) - uu_zhat u a) (Z i a)) ->
  uu_Pxz u k a = rsum 31 (fun i => u_cw e i * (X i k * Z i a)).
Proof.
  intros Hk Ha Hcase HX HZ.
  assert (EZ : forall i, (i < 31)%nat -> @wrap_subset RScalar (update_indices m)
     (vsub (sigma_meas (update_indices m) (u_sigma e) i) (uu_zhat u)) a = Z i a).
  { intros i Hi. unfold wrap_subset, vsub. rewrite zs_sel by assumption.
    rewrite (selected_update_indices m Hlen). fold (sel a). destruct (HZ i Hi) as [Z1 Z2].
    destruct (is_angle (sel a)) eqn:E.
    - eapply wrapped_unique; [apply normalize_angle_spec|]. apply Z1. apply is_angle_true. assumption.
    - symmetry. apply Z2. apply is_angle_false. assumption. }
  assert (EX : forall i, (i < 31)%nat ->
     @sigma_state_diff RScalar (update_indices m) (u_sigma e i) x k = X i k).
  { intros i Hi. unfold sigma_state_diff. rewrite (selected_update_indices m Hlen). fold n.
    fold (sel k). destruct (HX i Hi) as [X1 X2].
    assert (Eplain : - PI < u_sigma e i k - x k <= PI -> X i k = u_sigma e i k - x k).
    { intros Hb. destruct (is_angle k) eqn:E.
      - symmetry. eapply wrapped_unique; [apply wrapped_id; assumption|]. apply X1, is_angle_true. assumption.
      - apply X2, is_angle_false. assumption. }
    destruct (Nat.ltb k n && is_angle (sel k))%bool eqn:E.
    - apply andb_prop in E. destruct E as [E1 E2]. apply Nat.ltb_lt in E1. apply is_angle_true in E2.
      destruct Hcase as [Hiff|Hb].
      + eapply wrapped_unique; [apply normalize_angle_spec|]. apply X1. apply Hiff. split; assumption.
      + rewrite Eplain by (apply Hb; assumption). apply normalize_angle_id. apply Hb. assumption.
    - destruct Hcase as [Hiff|Hb].
      + symmetry. apply X2. intros Hang. apply Hiff in Hang. destruct Hang as [H1 H2].
        apply Nat.ltb_lt in H1. apply is_angle_true in H2. rewrite H1, H2 in E. discriminate.
      + symmetry. apply Eplain, Hb. assumption. }
  unfold u, ukf_compute_update. cbn [uu_Pxz]. toR. apply rsum_ext. intros i Hi. f_equal.
  unfold outer. toR. rewrite <- (EX i Hi), <- (EZ i Hi). reflexivity.
Qed.
End Cross.

(** ** Witness: a yaw measurement whose correlation with x has the wrong sign *)

Definition witness_L : rmat := fun i j =>
  if (Nat.eqb i 0 && Nat.eqb j 0)%bool then 3 * (PI / 2)
  else if (Nat.eqb i 5 && Nat.eqb j 0)%bool then / 10
  else if Nat.eqb i j then 1 else 0.

Definition yaw_flags : list bool :=
  [false; false; false; false; false; true; false; false; false; false; false; false; false; false; false].

Definition witness_meas : meas RScalar :=
  @mkMeas RScalar "yaw" 0%Z (fun _ => 0 : RScalar) (fun i j => if Nat.eqb i j then 1 else 0 : RScalar) yaw_flags 5
    (fun _ => 0 : RScalar) 0%Z.

(** alpha = 1, kappa = 0, beta = 2: lambda = 0. *)
Definition witness_ext : ukf_ext RScalar :=
  @mkUkfExt RScalar (@sigma_points_of RScalar (fun _ => 0) witness_L) witness_L
    (@ukf_sw RScalar (@ukf_lambda RScalar 1 0)) (@ukf_cw RScalar 1 2 (@ukf_lambda RScalar 1 0))
    (@ukf_lambda RScalar 1 0) true.

Lemma witness_selected : selected witness_meas = [5%nat].
Proof. reflexivity. Qed.

Lemma witness_zhat eig : uu_zhat (ukf_compute_update eig witness_ext (fun _ => 0) witness_meas) 0%nat = 0.
Proof.
  unfold ukf_compute_update. cbn [uu_zhat]. unfold predicted_meas.
  rewrite (selected_update_indices witness_meas eq_refl), witness_selected.
  cbn [nth is_angle Nat.eqb orb].
  symmetry. eapply wrapped_unique; [apply wrapped_id; pose proof PI_RGT_0; lra|].
  assert (E : @angle_avg RScalar (u_sw witness_ext) (fun i => sigma_meas [5%nat] (u_sigma witness_ext) i 0%nat)
    = @angle_avg RScalar (@ukf_sw RScalar (@ukf_lambda RScalar 1 0))
        (fun i => @sigma_points_of RScalar (fun _ => 0) witness_L i 5%nat)).
  { f_equal. extensionality i.
    pose proof (zs_sel witness_ext witness_meas eq_refl i 0%nat) as H.
    rewrite (selected_update_indices witness_meas eq_refl), witness_selected in H.
    apply H. cbn. lia. }
  rewrite E.
  apply (circular_mean (@ukf_lambda RScalar 1 0) (fun _ => 0) witness_L 5%nat).
  - rewrite lambda_c. lra.
  - assert (El : @ukf_lambda RScalar 1 0 = 0) by (pose proof (lambda_c 1 0); lra). rewrite El.
    unfold witness_L. cbn [rsum Nat.eqb andb]. rewrite cos_0.
    pose proof (COS_bound (/ 10)). pose proof (COS_bound 1).
    unfold Rdiv. rewrite Rmult_0_l, Rplus_0_l. apply Rmult_lt_0_compat; [lra|]. lra.
Qed.

Lemma witness_lambda : @ukf_lambda RScalar 1 0 = 0.
Proof. pose proof (lambda_c 1 0). lra. Qed.

Lemma witness_cross eig :
  uu_Pxz (ukf_compute_update eig witness_ext (fun _ => 0) witness_meas) 0%nat 0%nat
    = - (/ 15 * (PI / 2) * / 10).
Proof.
  pose proof (witness_zhat eig) as Hz.
  pose proof PI_RGT_0 as Hpi.
  assert (Hzd : forall i, @wrap_subset RScalar (update_indices witness_meas)
     (vsub (sigma_meas (update_indices witness_meas) (u_sigma witness_ext) i)
       (uu_zhat (ukf_compute_update eig witness_ext (fun _ => 0) witness_meas))) 0%nat
     = @normalize_angle RScalar (@sigma_points_of RScalar (fun _ => 0) witness_L i 5%nat)).
  { intros i. unfold wrap_subset, vsub. rewrite Hz.
    rewrite (zs_sel witness_ext witness_meas eq_refl i 0%nat) by (cbn; lia).
    rewrite (selected_update_indices witness_meas eq_refl), witness_selected.
    cbn [nth is_angle Nat.eqb orb]. toR. rewrite Rminus_0_r. reflexivity. }
  assert (Hxd : forall i, @sigma_state_diff RScalar (update_indices witness_meas) (u_sigma witness_ext i) (fun _ => 0) 0%nat
     = @normalize_angle RScalar (@sigma_points_of RScalar (fun _ => 0) witness_L i 0%nat)).
  { intros i. unfold sigma_state_diff.
    rewrite (selected_update_indices witness_meas eq_refl), witness_selected.
    cbn [nth length Nat.ltb Nat.leb is_angle Nat.eqb orb andb]. toR. rewrite Rminus_0_r. reflexivity. }
  assert (N0 : @normalize_angle RScalar 0 = 0) by (apply normalize_angle_id; lra).
  transitivity (rsum 31 (fun i => @ukf_cw RScalar 1 2 (@ukf_lambda RScalar 1 0) i *
     (fun v : rvec => @normalize_angle RScalar (v 0%nat) * @normalize_angle RScalar (v 5%nat))
        (@sigma_points_of RScalar (fun _ => 0) witness_L i))).
  { unfold ukf_compute_update. cbn [uu_Pxz]. toR. apply rsum_ext. intros i Hi.
    change (u_cw witness_ext) with (@ukf_cw RScalar 1 2 (@ukf_lambda RScalar 1 0)). f_equal.
    unfold outer. toR. rewrite <- (Hxd i), <- (Hzd i). reflexivity. }
  rewrite (wsum_sigma (@ukf_cw RScalar 1 2 (@ukf_lambda RScalar 1 0))
    (fun v : rvec => @normalize_angle RScalar (v 0%nat) * @normalize_angle RScalar (v 5%nat))
    (fun _ => 0) witness_L (/ 30)).
  2:{ intros i Hi. destruct i; [lia|]. rewrite cw_S, witness_lambda. lra. }
  rewrite N0, Rmult_0_l, Rmult_0_r, Rplus_0_l.
  assert (E : forall j, (j < 15)%nat -> (0 < j)%nat ->
    @sigma_points_of RScalar (fun _ => 0) witness_L (1 + j)%nat 0%nat = 0 /\
    @sigma_points_of RScalar (fun _ => 0) witness_L (16 + j)%nat 0%nat = 0).
  { intros j Hj Hj0. rewrite sigma_plus, sigma_minus by assumption. unfold witness_L.
    destruct j; [lia|]. cbn [Nat.eqb andb]. lra. }
  rewrite (rsum_single 15 0%nat); [|lia|].
  2:{ intros j Hj Hne. destruct (E j Hj) as [E1 E2]; [lia|]. rewrite E1, E2, N0. ring. }
  rewrite !sigma_plus, !sigma_minus by lia. unfold witness_L. cbn [Nat.eqb andb].
  rewrite !Rplus_0_l, !Rminus_0_l.
  assert (N1 : @normalize_angle RScalar (3 * (PI / 2)) = - (PI / 2)).
  { eapply wrapped_unique; [apply normalize_angle_spec|]. split; [lra|]. exists (-1)%Z. lra. }
  assert (N2 : @normalize_angle RScalar (- (3 * (PI / 2))) = PI / 2).
  { eapply wrapped_unique; [apply normalize_angle_spec|]. split; [lra|]. exists 1%Z. lra. }
  assert (H10 : / 10 < PI) by (pose proof PI2_3_2; lra).
  assert (N3 : @normalize_angle RScalar (/ 10) = / 10) by (apply normalize_angle_id; lra).
  assert (N4 : @normalize_angle RScalar (- / 10) = - / 10) by (apply normalize_angle_id; lra).
  rewrite N1, N2, N3, N4. lra.
Qed.

(** The prior covariance behind the witness correlates x and yaw positively. *)
Lemma witness_prior : rmul 15 witness_L (rT witness_L) 0%nat 5%nat = 15 * (/ 15 * (3 * (PI / 2)) * / 10).
Proof.
  unfold rmul, rT, witness_L. rewrite (rsum_single 15 0%nat); [|lia|].
  - cbn [Nat.eqb andb]. lra.
  - intros i Hi Hne. destruct i; [lia|]. cbn [Nat.eqb andb]. ring.
Qed.

(** ** C15 through the API *)

Lemma process_uninit {K E} (vt : vtbl K E) s m : fb_initialized s = false ->
  processMeasurement vt s m = set_last_time (init_from s m) (m_time m).
Proof. intros H. unfold processMeasurement. rewrite H. reflexivity. Qed.

Lemma process_no_advance {K E} (vt : vtbl K E) s m : fb_initialized s = true ->
  m_time m = fb_last_time s ->
  processMeasurement vt s m = set_last_time (v_correct vt s m) (m_time m).
Proof.
  intros H Ht. unfold processMeasurement. rewrite H. rewrite Ht, Z.sub_diag. reflexivity.
Qed.

Lemma second_measurement_ignored eig alpha kappa beta g gs gq gl (m1 m2 : meas RScalar) :
  0 < alpha * alpha * (15 + kappa) -> m_time m2 = m_time m1 ->
  let s0 := setConstants (@ukf_init RScalar g gs gq gl) alpha kappa beta in
  let s1 := processMeasurement (ukf_vtbl eig) s0 m1 in
  let s2 := processMeasurement (ukf_vtbl eig) s1 m2 in
  (forall i j, fb_P s2 i j = fb_P s1 i j) /\
  ((forall k, fb_state s2 k = @wrap_angles RScalar (fb_state s1) k) \/
   (forall k, fb_state s2 k = fb_state s1 k)).
Proof.
  intros Hc Ht s0 s1.
  assert (E1 : s1 = set_last_time (init_from s0 m1) (m_time m1)) by (apply process_uninit; reflexivity).
  cbv zeta. rewrite (process_no_advance _ s1 m2) by (rewrite E1; first [reflexivity|exact Ht]).
  cbn [v_correct ukf_vtbl].
  assert (Eext : fb_ext s1 = fb_ext s0) by (rewrite E1; reflexivity).
  pose proof (stale_zero_correct eig s1 m2) as H. rewrite Eext in H.
  apply H.
  - reflexivity.
  - reflexivity.
  - change (u_sw (fb_ext s0)) with (@ukf_sw RScalar (@ukf_lambda RScalar alpha kappa)).
    rewrite sw_sum; [lra|]. rewrite lambda_c. lra.
Qed.
