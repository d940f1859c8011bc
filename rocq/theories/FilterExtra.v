(** * Remaining facts about the filter core (C02, C03, C06, C07, C10, C11, C13, C20) *)

From Coq Require Import Reals ZArith String List Bool Arith Lra Lia FunctionalExtensionality.
From Verif Require Import Scalar Mat FilterBase FilterOps Ekf Ukf EkfFacts ForceTwoD SpecLin SpecFilter SpecMotion
  RLin RBridge EkfPsd Angles EkfUpdate Motion Jacobian TwoD UkfProofs UkfUpdate UkfCross.
Import ListNotations.
Local Open Scope R_scope.

(** ** C02: nothing selected *)

Lemma update_indices_nil (m : meas RScalar) :
  (forall i, nth i (m_upd m) false = false) -> update_indices m = [].
Proof.
  intros H. unfold update_indices. generalize (seq 0 (length (m_upd m))). intros l.
  induction l as [|a l IH]; [reflexivity|]. cbn [filter]. unfold flag at 1. rewrite H. exact IH.
Qed.

Lemma joseph_zero (G H R P : rmat) i j :
  (i < 15)%nat -> (j < 15)%nat -> @joseph RScalar 0 G H R P i j = P i j.
Proof.
  intros Hi Hj. unfold joseph, madd, msub. toR.
  change (rmul 0 (rmul 0 G R) (rT G) i j) with 0.
  rewrite Rplus_0_r.
  transitivity (rmul 15 (rmul 15 rI P) (rT rI) i j).
  - apply rmul_ext; intros; [apply rmul_ext; intros|]; auto.
    + unfold rmul. cbn. apply Rminus_0_r.
    + unfold rT, rmul. cbn. apply Rminus_0_r.
  - transitivity (rmul 15 rI P i j).
    + unfold rmul at 1. unfold rT. rewrite (rsum_single 15 j); [|assumption|].
      * unfold rI. rewrite Nat.eqb_refl. ring.
      * intros l Hl Hne. unfold rI. destruct (Nat.eqb_spec j l); [congruence|]. ring.
    + unfold rmul. rewrite (rsum_single 15 i); [|assumption|].
      * unfold rI. rewrite Nat.eqb_refl. ring.
      * intros l Hl Hne. unfold rI. destruct (Nat.eqb_spec i l); [congruence|]. ring.
Qed.

Lemma ekf_correct_nothing eig (s : ekf RScalar) m :
  (forall i, nth i (m_upd m) false = false) ->
  meq 15 15 (fb_P (ekf_correct eig s m)) (fb_P s) /\
  forall k, (k < 15)%nat ->
    (angular k -> exists n : Z, fb_state (ekf_correct eig s m) k = fb_state s k + IZR n * (2 * PI)) /\
    (~ angular k -> fb_state (ekf_correct eig s m) k = fb_state s k).
Proof.
  intros H. apply update_indices_nil in H. unfold ekf_correct, ekf_compute_update. cbv zeta.
  cbn [u_n u_innov u_Sinv u_K u_H u_R]. rewrite H. cbn [length].
  destruct (checkMahalanobisThreshold _ _ _ _).
  - cbn [fb_P fb_state wrapStateAngles set_state set_P]. split.
    + intros i j Hi Hj. apply joseph_zero; assumption.
    + intros k Hk. rewrite wrap_angles_entry.
      assert (E : vadd (fb_state s) (@mvmul RScalar 0
          (mmul 0 (mmul STATE_SIZE (fb_P s) (mT (state_to_meas [])))
             (e_inv eig 0
                (madd (mmul STATE_SIZE (state_to_meas []) (mmul STATE_SIZE (fb_P s) (mT (state_to_meas []))))
                   (cov_subset [] m)))) (wrap_subset [] (vsub (meas_subset [] m) (state_subset [] (fb_state s))))) k
        = fb_state s k).
      { unfold vadd. toR. cbn. apply Rplus_0_r. }
      rewrite E. split; intros Hang.
      * apply is_angle_true in Hang; rewrite Hang. destruct (normalize_angle_spec (fb_state s k)) as [_ [n Hn]].
        exists n. exact Hn.
      * apply is_angle_false in Hang; rewrite Hang. reflexivity.
  - split; [intros i j _ _; reflexivity|]. intros k Hk. split; [|reflexivity].
    intros _. exists 0%Z. lra.
Qed.

(** ** C03: the gate is monotone in the threshold *)

Lemma ekf_gate_monotone eig (s : ekf RScalar) (m : meas RScalar) (t t' : R) :
  t * t <= t' * t' ->
  ekf_correct eig s (with_threshold m t) = s \/
  ekf_correct eig s (with_threshold m t') = ekf_correct eig s (with_threshold m t).
Proof.
  intros Ht. unfold ekf_correct.
  change (ekf_compute_update eig (fb_state s) (fb_P s) (with_threshold m t))
    with (ekf_compute_update eig (fb_state s) (fb_P s) m).
  change (ekf_compute_update eig (fb_state s) (fb_P s) (with_threshold m t'))
    with (ekf_compute_update eig (fb_state s) (fb_P s) m).
  cbv zeta. cbn [m_thresh with_threshold].
  generalize (ekf_compute_update eig (fb_state s) (fb_P s) m). intros u.
  unfold checkMahalanobisThreshold. cbv zeta. toR.
  generalize (rdot (u_n u) (u_innov u) (rmv (u_n u) (u_Sinv u) (u_innov u))). intros q.
  unfold Rleb. destruct (Rle_dec (t * t) q); cbn [negb]; [left; reflexivity|right].
  destruct (Rle_dec (t' * t') q); cbn [negb]; [exfalso; lra|reflexivity].
Qed.

(** ** C06: the first measurement, any scalar type *)

Lemma first_measurement {K : Scalar} {E} (vt : vtbl K E) (s : fb K E) m :
  fb_initialized s = false ->
  let s' := processMeasurement vt s m in
  fb_initialized s' = true /\ fb_last_time s' = m_time m /\
  (forall i, fb_state s' i = if nth i (m_upd m) false then m_value m i else fb_state s i) /\
  (forall i j, fb_P s' i j =
     if (nth i (m_upd m) false && nth j (m_upd m) false)%bool then m_cov m i j else fb_P s i j) /\
  fb_Q s' = fb_Q s /\ fb_control s' = fb_control s /\ fb_ext s' = fb_ext s.
Proof.
  intros Hi. cbv zeta. unfold processMeasurement. rewrite Hi.
  assert (L : forall i, (Nat.ltb i (length (m_upd m)) && nth i (m_upd m) false)%bool = nth i (m_upd m) false).
  { intros i. destruct (Nat.ltb_spec i (length (m_upd m))); [reflexivity|].
    rewrite nth_overflow by assumption. reflexivity. }
  repeat split; try (destruct s; reflexivity).
  - intros i. cbn [fb_state set_last_time init_from set_initialized set_P set_state]. unfold flag.
    rewrite L. reflexivity.
  - intros i j. cbn [fb_P set_last_time init_from set_initialized set_P set_state]. unfold flag.
    rewrite <- (L i), <- (L j) at 1.
    destruct (Nat.ltb_spec i (length (m_upd m))) as [h1|h1].
    2:{ rewrite (nth_overflow _ _ h1). reflexivity. }
    destruct (Nat.ltb_spec j (length (m_upd m))) as [h2|h2]; [reflexivity|].
    rewrite (nth_overflow _ _ h2). cbn [andb]. rewrite andb_false_r. reflexivity.
Qed.

(** ** C07: a zero interval changes nothing but normalises the angles *)

Lemma motion_step_zero x x' : motion_step x 0 x' ->
  forall k, (k < 15)%nat ->
    (angular k -> wrapped (x k) (x' k)) /\ (~ angular k -> x' k = x k).
Proof.
  intros (M0 & M3 & M4 & M5 & M6 & M9 & M12) k Hk.
  rewrite Rmult_0_r, Rplus_0_r in M3, M4, M5.
  assert (P0 : forall i, (i < 3)%nat -> x' i = x i).
  { intros i Hi. rewrite M0 by assumption. unfold next_position.
    rewrite rsum_zero; [ring|]. intros. ring. }
  assert (P6 : forall i, (i < 3)%nat -> x' (6 + i)%nat = x (6 + i)%nat).
  { intros i Hi. rewrite M6 by assumption. ring. }
  unfold angular.
  destruct k as [|[|[|[|[|[|k]]]]]];
    try (split; [intros Ha; exfalso; lia|intros _; apply P0; lia]);
    try (split; [intros _; assumption|intros Ha; exfalso; apply Ha; lia]).
  split; [intros Ha; exfalso; lia|intros _].
  destruct k as [|[|[|k]]]; [apply (P6 0%nat)|apply (P6 1%nat)|apply (P6 2%nat)|]; try lia.
  destruct k as [|[|[|k]]]; [apply (M9 0%nat)|apply (M9 1%nat)|apply (M9 2%nat)|]; try lia.
  destruct k as [|[|[|k]]]; [apply (M12 0%nat)|apply (M12 1%nat)|apply (M12 2%nat)|]; lia.
Qed.

Lemma ekf_zero_interval (s : ekf RScalar) r :
  tf_inv s -> fb_use_control s = false ->
  forall k, (k < 15)%nat ->
    (angular k -> wrapped (fb_state s k) (fb_state (ekf_predict s r 0) k)) /\
    (~ angular k -> fb_state (ekf_predict s r 0) k = fb_state s k).
Proof.
  intros HF Hu. apply motion_step_zero.
  pose proof (ekf_predict_motion_free s r 0%Z HF Hu) as M.
  replace (IZR 0 / 1000000000) with 0 in M by lra. exact M.
Qed.

(** ** C10: with the default timeout of zero every command has timed out *)

Lemma default_timeout_always {K E} (s : fb K E) r :
  fb_control_timeout s = 0%Z -> (fb_control_time s <= r)%Z -> control_timed_out s r = true.
Proof. intros H1 H2. unfold control_timed_out. rewrite H1, Z.geb_leb. apply Z.leb_le. lia. Qed.

(** A timed-out command is not read, by any scalar type. *)
Lemma timed_out_ignores_command {K E} (s : fb K E) c r :
  control_timed_out s r = true ->
  fb_control_acc (prepareControl (set_control s c) r) = fb_control_acc (prepareControl s r).
Proof.
  intros H. unfold prepareControl. cbn [fb_control_acc set_control_acc].
  extensionality i.
  assert (H2 : control_timed_out (set_control s c) r = true) by (destruct s; exact H).
  rewrite H, H2. destruct s; reflexivity.
Qed.

(** ** C11: dynamic process noise, entry by entry, and its loss of PSD *)

Definition dyn_witness_Q : rmat :=
  fun i j => if (Nat.eqb i 0 || Nat.eqb i 6)%bool then
             if (Nat.eqb j 0 || Nat.eqb j 6)%bool then 1 else 0 else 0.
Definition dyn_witness_x : rvec := fun i => if Nat.eqb i 6 then / 2 else 0.

Lemma dyn_witness_psd : psd 15 dyn_witness_Q.
Proof.
  split.
  - intros i j Hi Hj. unfold dyn_witness_Q.
    destruct (_ || _)%bool; destruct (_ || _)%bool; reflexivity.
  - intros v. unfold quad, dyn_witness_Q. cbn.
    match goal with |- 0 <= ?e => replace e with ((v 0%nat + v 6%nat) * (v 0%nat + v 6%nat)) by ring end.
    apply Rle_0_sqr.
Qed.

Lemma dyn_noise_entries {E} (s : fb RScalar E) (x : rvec) i j :
  fb_dynQ (computeDynamicProcessNoiseCovariance s x) i j =
  if (Nat.ltb i 6 && Nat.ltb j 6)%bool
  then rsum 6 (fun k => x (6 + k)%nat * x (6 + k)%nat) * fb_Q s i j
  else fb_dynQ s i j.
Proof.
  unfold computeDynamicProcessNoiseCovariance. cbn [fb_dynQ set_dynQ].
  destruct (Nat.ltb_spec i 6) as [Hi|Hi]; [|reflexivity].
  destruct (Nat.ltb_spec j 6) as [Hj|Hj]; [|reflexivity].
  apply (dyn_block x (fb_Q s) i j Hi Hj).
Qed.

Lemma dyn_noise_indefinite {E} (s : fb RScalar E) :
  ~ psd 15 (fb_dynQ (computeDynamicProcessNoiseCovariance
                       (setProcessNoiseCovariance s dyn_witness_Q) dyn_witness_x)).
Proof.
  intros [_ H].
  specialize (H (fun k => if Nat.eqb k 0 then 2 else if Nat.eqb k 6 then -1 else 0)).
  assert (E0 : quad 15 (fb_dynQ (computeDynamicProcessNoiseCovariance
                       (setProcessNoiseCovariance s dyn_witness_Q) dyn_witness_x))
     (fun k => if Nat.eqb k 0 then 2 else if Nat.eqb k 6 then -1 else 0) = -2).
  { unfold quad.
    transitivity (rsum 15 (fun i => rsum 15 (fun j =>
      (if Nat.eqb i 0 then 2 else if Nat.eqb i 6 then -1 else 0) *
      (if (Nat.ltb i 6 && Nat.ltb j 6)%bool
       then rsum 6 (fun k => dyn_witness_x (6 + k)%nat * dyn_witness_x (6 + k)%nat) * dyn_witness_Q i j
       else dyn_witness_Q i j) *
      (if Nat.eqb j 0 then 2 else if Nat.eqb j 6 then -1 else 0)))).
    - apply rsum_ext. intros i Hi. apply rsum_ext. intros j Hj. rewrite dyn_noise_entries.
      destruct s. reflexivity.
    - unfold dyn_witness_Q, dyn_witness_x. cbn. lra. }
  rewrite E0 in H. lra.
Qed.

(** ** C13: variance repair; off-diagonal entries are kept, so the repaired
    matrix need not be PSD *)

Definition neg_cov : rmat := fun i j =>
  match i, j with
  | 0%nat, 0%nat => -1 | 1%nat, 1%nat => 1
  | 0%nat, 1%nat | 1%nat, 0%nat => 10 | _, _ => 0 end.
Definition neg_meas : meas RScalar :=
  @mkMeas RScalar EmptyString 0 (fun _ => 0) neg_cov (true :: true :: repeat false 13) 1 (fun _ => 0) 0.

Lemma neg_meas_indices : update_indices neg_meas = [0%nat; 1%nat].
Proof. reflexivity. Qed.

Lemma neg_meas_indefinite :
  ~ psd (length (update_indices neg_meas)) (cov_subset (update_indices neg_meas) neg_meas).
Proof.
  intros [_ H]. specialize (H (fun k => if Nat.eqb k 0 then 1 else -1)).
  rewrite neg_meas_indices in H. cbn [length] in H. unfold quad in H. cbn [rsum] in H.
  rewrite !cov_subset_entry in H by (cbn; lia). cbn in H.
  rewrite Rabs_R1, (Rabs_left (-1)) in H by lra. rewrite !Rmax_left in H by lra. lra.
Qed.

(** ** C20: measurements after forceTwoD, and histories *)

(** Diagonal noise with non-negative variances, 15 flags. *)
Definition diagonal_meas (m : meas RScalar) : Prop :=
  length (m_upd m) = 15%nat /\ (forall i j : nat, i <> j -> m_cov m i j = 0) /\ (forall i : nat, 0 <= m_cov m i i).

Lemma lit_1_6_R : @lit RScalar 1 6 = / 1000000.
Proof. unfold lit. toR. change (10 ^ 6)%Z with 1000000%Z. lra. Qed.

Lemma force_good m : diagonal_meas m -> good_meas (force_meas m).
Proof.
  intros (Hl & Hoff & Hd). split; [rewrite force_length; exact Hl|].
  eapply psd_ext; [|apply (psd_diag 15 (fun i => m_cov (force_meas m) i i))].
  - intros i j Hi Hj. cbn beta. destruct (Nat.eqb_spec i j) as [->|Hne]; [reflexivity|].
    rewrite force_cov. destruct (Nat.eqb_spec i j) as [|_]; [contradiction|].
    rewrite andb_false_r. symmetry; apply Hoff, Hne.
  - intros i Hi. cbn beta. rewrite force_cov, Nat.eqb_refl, andb_true_r.
    destruct (vertical i); [rewrite lit_1_6_R; lra|apply Hd].
Qed.

Lemma pdef_ext n (A B : rmat) : (forall i j, (i < n)%nat -> (j < n)%nat -> A i j = B i j) -> pdef n B -> pdef n A.
Proof.
  intros H [Hs Hp]. split.
  - intros i j Hi Hj. rewrite !H by assumption. apply Hs; assumption.
  - intros v Hv. replace (quad n A v) with (quad n B v); [apply Hp, Hv|].
    unfold quad. apply rsum_ext. intros i Hi. apply rsum_ext. intros j Hj. rewrite H by assumption. reflexivity.
Qed.

Lemma force_planar m : diagonal_meas m -> planar_meas (force_meas m).
Proof.
  intros (Hl & Hoff & Hd). split; [rewrite force_length; exact Hl|]. split; [|split].
  - intros i Hi. rewrite force_value, Hi. reflexivity.
  - intros i j Hi Hj Hne. rewrite force_cov.
    destruct (Nat.eqb_spec i j) as [->|Hd']; [congruence|]. rewrite andb_false_r. apply Hoff, Hd'.
  - set (f := fun a : nat => Rmax (Rabs (m_cov (force_meas m) (nth a (selected (force_meas m)) 0%nat)
       (nth a (selected (force_meas m)) 0%nat))) (/ 1000000000)).
    eapply pdef_ext; [|apply (Pdef.pdef_diag _ f)].
    + intros a b Ha Hb. unfold repaired_cov, f.
      destruct (Nat.eqb_spec a b) as [->|Hne].
      * rewrite Nat.eqb_refl. reflexivity.
      * assert (Hn : nth a (selected (force_meas m)) 0%nat <> nth b (selected (force_meas m)) 0%nat).
        { intros E. apply Hne. eapply NoDup_nth; [| | |exact E]; auto. apply nodup_selected. }
        destruct (Nat.eqb_spec (nth a (selected (force_meas m)) 0%nat) (nth b (selected (force_meas m)) 0%nat)) as [|_];
          [contradiction|].
        rewrite force_cov. destruct (Nat.eqb_spec (nth a (selected (force_meas m)) 0%nat) (nth b (selected (force_meas m)) 0%nat)) as [|_];
          [contradiction|]. rewrite andb_false_r. apply Hoff, Hn.
    + intros a Ha. unfold f. eapply Rlt_le_trans; [|apply Rmax_r]. lra.
Qed.

Lemma planar_init g : planar (@fb_init RScalar unit g tt).
Proof. apply planar_reset. unfold no_vertical_control. cbn. auto. Qed.

Lemma planar_history eig : eigen_inverse_ok eig -> forall g (dyn : Prop) ops,
  run_ok dyn (ekf_vtbl eig) (fb_init g tt) ops -> Forall op_planar ops ->
  let s := fb_run (ekf_vtbl eig) (fb_init g tt) ops in
  planar_state (fb_state s) /\ decoupled 15 vertical (fb_P s).
Proof.
  intros He g dyn ops Hok Hpl s.
  destruct (planar_run eig He dyn ops (fb_init g tt) (inv_init g dyn) Hok Hpl (planar_init g)) as (H1 & H2 & _).
  split; assumption.
Qed.

(** ** C05 *)

Lemma process_cases {K : Scalar} {E} (vt : vtbl K E) (s : fb K E) (m : meas K) :
  fb_initialized s = true ->
  let predicted :=
    if Z_lt_dec (fb_last_time s) (m_time m)
    then let p := v_predict vt s (m_time m) (m_time m - fb_last_time s) in set_predicted p (fb_state p)
    else s in
  let corrected := v_correct vt predicted m in
  processMeasurement vt s m =
  if Z_le_dec (fb_last_time s) (m_time m) then set_last_time corrected (m_time m) else corrected.
Proof.
  intros Hi. cbv zeta. unfold processMeasurement. rewrite Hi. cbv zeta.
  rewrite Z.gtb_ltb, Z.geb_leb.
  destruct (Z.ltb_spec 0 (m_time m - fb_last_time s)); destruct (Z.leb_spec 0 (m_time m - fb_last_time s));
  destruct (Z_lt_dec (fb_last_time s) (m_time m)); destruct (Z_le_dec (fb_last_time s) (m_time m));
  try lia; reflexivity.
Qed.

Lemma ekf_keeps {K} eig (s : ekf K) r d m :
  fb_initialized (ekf_predict s r d) = fb_initialized s /\
  fb_initialized (ekf_correct eig s m) = fb_initialized s /\
  fb_last_time (ekf_predict s r d) = fb_last_time s /\
  fb_last_time (ekf_correct eig s m) = fb_last_time s.
Proof.
  repeat split; try (unfold ekf_correct; cbv zeta; destruct (checkMahalanobisThreshold _ _ _ _); reflexivity);
  unfold ekf_predict; destruct s as [i u dy a b c e f g h k l m' n o p q r' s' t v w]; destruct dy; reflexivity.
Qed.

Lemma ekf_list_last_time {K} eig (ms : list (meas K)) (s : ekf K) :
  fb_initialized s = true ->
  fb_last_time (fold_left (processMeasurement (ekf_vtbl eig)) ms s) =
  fold_left Z.max (map m_time ms) (fb_last_time s).
Proof.
  apply process_list_last_time; intros; cbn [v_predict v_correct ekf_vtbl].
  - apply (ekf_keeps eig s0 0 0 m).
  - apply (ekf_keeps eig s0 r d (mkMeas EmptyString 0 vzero mzero [] (s_ofZ 0) vzero 0)).
  - apply (ekf_keeps eig s0 0 0 m).
Qed.
Lemma ukf_list_last_time {K} eig (ms : list (meas K)) (s : ukf K) :
  fb_initialized s = true ->
  fb_last_time (fold_left (processMeasurement (ukf_vtbl eig)) ms s) =
  fold_left Z.max (map m_time ms) (fb_last_time s).
Proof.
  apply process_list_last_time; intros; cbn [v_predict v_correct ukf_vtbl].
  - apply ukf_correct_keeps.
  - apply ukf_predict_keeps.
  - apply ukf_correct_keeps.
Qed.

(** ** Reachable filters *)

Lemma ekf_reachable_tf {K} eig g ops :
  tf_inv (fb_run (ekf_vtbl eig) (@fb_init K unit g tt) ops).
Proof.
  apply tf_inv_run; [intros; apply ekf_tf_pred; assumption|intros; apply ekf_tf_corr; assumption|apply tf_inv_init].
Qed.

Lemma ekf_reachable_motion eig g ops r d :
  let s := fb_run (ekf_vtbl eig) (@fb_init RScalar unit g tt) ops in
  motion_step
    (controlled_state (fun i => nth i (fb_control_upd s) false)
       (fb_control_acc (ekf_predict s r d)) (fb_state s) (IZR d / 1000000000))
    (IZR d / 1000000000) (fb_state (ekf_predict s r d)).
Proof.
  pose proof (ekf_reachable_tf eig g ops) as H.
  generalize dependent (fb_run (ekf_vtbl eig) (@fb_init RScalar unit g tt) ops). intros s H.
  apply ekf_predict_motion, H.
Qed.

Lemma ekf_reachable_motion_free eig g ops r d :
  let s := fb_run (ekf_vtbl eig) (@fb_init RScalar unit g tt) ops in
  fb_use_control s = false ->
  motion_step (fb_state s) (IZR d / 1000000000) (fb_state (ekf_predict s r d)).
Proof.
  pose proof (ekf_reachable_tf eig g ops) as H.
  generalize dependent (fb_run (ekf_vtbl eig) (@fb_init RScalar unit g tt) ops). intros s H.
  apply ekf_predict_motion_free, H.
Qed.

Lemma ekf_reachable_zero eig g ops r :
  let s := fb_run (ekf_vtbl eig) (@fb_init RScalar unit g tt) ops in
  fb_use_control s = false ->
  forall k, (k < 15)%nat ->
    (angular k -> wrapped (fb_state s k) (fb_state (ekf_predict s r 0) k)) /\
    (~ angular k -> fb_state (ekf_predict s r 0) k = fb_state s k).
Proof.
  pose proof (ekf_reachable_tf eig g ops) as H.
  generalize dependent (fb_run (ekf_vtbl eig) (@fb_init RScalar unit g tt) ops). intros s H.
  apply ekf_zero_interval, H.
Qed.

Lemma predict_J_stored {K} (s : ekf K) r d : fb_J (ekf_predict s r d) = predict_J s d.
Proof.
  unfold ekf_predict, predict_J, predict_F. destruct s as [i u dy a b c e f g h k l m' n o p q r' s' t v w].
  destruct dy; reflexivity.
Qed.

Lemma ekf_reachable_jacobian eig g ops r d i j :
  let s := fb_run (ekf_vtbl eig) (@fb_init RScalar unit g tt) ops in
  cos (fb_state s 4%nat) <> 0 -> (i < 15)%nat -> (j < 15)%nat ->
  derivable_pt_lim (fun t => motion_fun (IZR d / 1000000000) (with_var (fb_state s) j t) i)
    (fb_state s j) (fb_J (ekf_predict s r d) i j).
Proof.
  pose proof (ekf_reachable_tf eig g ops) as H.
  generalize dependent (fb_run (ekf_vtbl eig) (@fb_init RScalar unit g tt) ops). intros s [H _].
  cbv zeta. intros. rewrite predict_J_stored. apply predict_J_derivative; assumption.
Qed.

Lemma ekf_predict_P_explicit (s : ekf RScalar) r d i j :
  fb_P (ekf_predict s r d) i j =
  rmul 15 (rmul 15 (fb_J (ekf_predict s r d)) (fb_P s)) (rT (fb_J (ekf_predict s r d))) i j +
  IZR d / 1000000000 * (if fb_use_dyn s then fb_dynQ (ekf_predict s r d) i j else fb_Q s i j).
Proof.
  rewrite predict_P, predict_J_stored, predict_dynQ. unfold noise_used, madd, mscale. rewrite toSec_R.
  destruct (fb_use_dyn s); reflexivity.
Qed.

Lemma predict_noise_psd dyn (s : ekf RScalar) r d :
  inv dyn s -> psd 15 (fun i j => if fb_use_dyn s then fb_dynQ (ekf_predict s r d) i j else fb_Q s i j).
Proof.
  intros (HP & (HQ & Hdec) & Hdyn & Hu).
  destruct (fb_use_dyn s) eqn:Eu; [|exact HQ].
  assert (E : forall i j, (i < 15)%nat -> (j < 15)%nat -> fb_dynQ (ekf_predict s r d) i j =
     if (pose_index i && pose_index j)%bool
     then rsum 6 (fun k => fb_state s (6 + k)%nat * fb_state s (6 + k)%nat) * fb_Q s i j else fb_Q s i j).
  { intros i j Hi Hj. rewrite predict_dynQ, Eu, dyn_noise_entries. unfold pose_index.
    destruct (Nat.ltb i 6 && Nat.ltb j 6)%bool eqn:Eb; [reflexivity|]. apply Hdyn; assumption. }
  eapply psd_scale_block; [|exact HQ|apply Hdec; auto|exact E].
  apply rsum_nonneg. intros. apply Rle_0_sqr.
Qed.

Lemma ekf_reachable_shrinks eig : eigen_inverse_ok eig ->
  forall g (dyn : Prop) ops m,
  run_ok dyn (ekf_vtbl eig) (fb_init g tt) ops -> good_meas m ->
  let s := fb_run (ekf_vtbl eig) (fb_init g tt) ops in
  invertible (length (selected m)) (innovation_cov (fb_P s) m) ->
  loewner_le 15 (fb_P (ekf_correct eig s m)) (fb_P s).
Proof.
  intros He g dyn ops m Hok [Hl Hm] s HS. apply ekf_correct_shrinks; auto.
  apply (inv_run eig dyn ops _ Hok (inv_init g dyn)).
Qed.

Lemma innovation_invertible (P : rmat) m :
  psd 15 P -> length (m_upd m) = 15%nat ->
  pdef (length (selected m))
    (fun a b => repaired_cov m (nth a (selected m) 0%nat) (nth b (selected m) 0%nat)) ->
  invertible (length (selected m)) (innovation_cov P m).
Proof.
  intros HP Hl HR. apply Pdef.pdef_invertible. unfold innovation_cov.
  apply (Pdef.pdef_psd_plus _ (fun a b => P (nth a (selected m) 0%nat) (nth b (selected m) 0%nat))); [|exact HR].
  apply (psd_sub (selected m) P 15); [|exact HP].
  intros a Ha. unfold selected in Ha. apply filter_In in Ha. destruct Ha as [Ha _]. apply in_seq in Ha. lia.
Qed.

Lemma cov_subset_repaired (m : meas RScalar) i j :
  (i < length (update_indices m))%nat -> (j < length (update_indices m))%nat ->
  cov_subset (update_indices m) m i j =
  repaired_cov m (nth i (update_indices m) 0%nat) (nth j (update_indices m) 0%nat).
Proof.
  intros Hi Hj. rewrite cov_subset_entry by assumption. unfold repaired_cov.
  destruct (Nat.eqb_spec i j) as [->|Hne]; [rewrite Nat.eqb_refl; reflexivity|].
  destruct (Nat.eqb_spec (nth i (update_indices m) 0%nat) (nth j (update_indices m) 0%nat)) as [E|_]; [|reflexivity].
  exfalso. apply Hne. eapply NoDup_nth; [| | |exact E]; auto.
  unfold update_indices. apply NoDup_filter, seq_NoDup.
Qed.

Lemma cov_subset_kept (m : meas RScalar) i j :
  (i < length (update_indices m))%nat -> (j < length (update_indices m))%nat ->
  (forall k, In k (update_indices m) -> / 1000000000 <= m_cov m k k) ->
  cov_subset (update_indices m) m i j =
  m_cov m (nth i (update_indices m) 0%nat) (nth j (update_indices m) 0%nat).
Proof.
  intros Hi Hj Hk. rewrite cov_subset_repaired by assumption. unfold repaired_cov.
  destruct (Nat.eqb_spec (nth i (update_indices m) 0%nat) (nth j (update_indices m) 0%nat)) as [E|_]; [|reflexivity].
  rewrite <- E. specialize (Hk _ (nth_In _ 0%nat Hi)).
  rewrite Rabs_pos_eq by lra. apply Rmax_left. exact Hk.
Qed.

(** ** UKF statements over histories *)

Lemma weights_sum_one (alpha kappa : R) : alpha * alpha * (15 + kappa) <> 0 ->
  rsum 31 (@ukf_sw RScalar (@ukf_lambda RScalar alpha kappa)) = 1.
Proof. intros H. apply sw_sum. rewrite lambda_c. exact H. Qed.

Lemma generated_moments_run eig (alpha kappa beta : R) g gs gq gl ops :
  eigen_llt_ok eig -> 0 < alpha * alpha * (15 + kappa) ->
  let s := fb_run (ukf_vtbl eig) (setConstants (@ukf_init RScalar g gs gq gl) alpha kappa beta) ops in
  pdef 15 (fb_P s) ->
  let e := fb_ext (generateSigmaPoints eig s) in
  (forall k, rsum 31 (fun i => u_sw e i * u_sigma e i k) = fb_state s k) /\
  (forall a b, (a < 15)%nat -> (b < 15)%nat ->
     rsum 31 (fun i => u_cw e i * ((u_sigma e i a - fb_state s a) * (u_sigma e i b - fb_state s b)))
     = fb_P s a b).
Proof.
  intros H1 H2 s HP.
  apply (generated_moments eig alpha kappa beta s H1 H2 HP).
  apply consts_run, consts_set.
Qed.

Lemma witness_sign eig :
  0 < rmul 15 witness_L (rT witness_L) 0%nat 5%nat /\
  uu_Pxz (ukf_compute_update eig witness_ext (fun _ => 0) witness_meas) 0%nat 0%nat < 0.
Proof.
  rewrite witness_prior, witness_cross. pose proof PI_RGT_0. split; lra.
Qed.

Lemma ukf_reachable_tf eig g gs gq gl alpha kappa beta ops :
  tf_inv (fb_run (ukf_vtbl eig) (setConstants (@ukf_init RScalar g gs gq gl) alpha kappa beta) ops).
Proof.
  apply tf_inv_run; [intros; apply ukf_tf_pred; assumption|intros; apply ukf_tf_corr; assumption|].
  apply (tf_inv_congr (@ukf_init RScalar g gs gq gl)); try reflexivity. apply tf_inv_init.
Qed.

Lemma motion_step_fun x dt x' : motion_step x dt x' -> forall k, (k < 15)%nat ->
  (angular k -> wrapped (motion_fun dt x k) (x' k)) /\ (~ angular k -> x' k = motion_fun dt x k).
Proof.
  intros (M0 & M3 & M4 & M5 & M6 & M9 & M12) k Hk. unfold angular.
  destruct k as [|[|[|[|[|[|k]]]]]];
    try (split; [intros Ha; exfalso; lia|intros _; apply M0; lia]);
    try (split; [intros _; assumption|intros Ha; exfalso; apply Ha; lia]).
  split; [intros Ha; exfalso; lia|intros _].
  destruct k as [|[|[|k]]]; [apply (M6 0%nat)|apply (M6 1%nat)|apply (M6 2%nat)|]; try lia.
  destruct k as [|[|[|k]]]; [apply (M9 0%nat)|apply (M9 1%nat)|apply (M9 2%nat)|]; try lia.
  destruct k as [|[|[|k]]]; [apply (M12 0%nat)|apply (M12 1%nat)|apply (M12 2%nat)|]; lia.
Qed.

Lemma sigma_vs_ekf (s : ekf RScalar) (F : rmat) (pt : rvec) r d k :
  tf_inv s -> fb_use_control s = false -> @F_ok RScalar F -> (k < 15)%nat ->
  (forall i, fb_state s i = pt i) ->
  let sigma := snd (@projectSigmaPoint RScalar F pt d) in
  (angular k -> wrapped (sigma k) (fb_state (ekf_predict s r d) k)) /\
  (~ angular k -> fb_state (ekf_predict s r d) k = sigma k).
Proof.
  intros Hs Hu HF Hk E. cbv zeta. rewrite projectSigmaPoint_motion by assumption.
  assert (Ex : fb_state s = pt) by (extensionality i; apply E).
  rewrite <- Ex. apply motion_step_fun; [|assumption]. apply ekf_predict_motion_free; assumption.
Qed.
