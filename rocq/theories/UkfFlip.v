(** * Angles of a UKF prediction (C82) *)

From Coq Require Import Reals ZArith List Bool Arith Lra Lia Psatz.
From Verif Require Import Scalar Mat FilterBase FilterOps Ekf EkfFacts Ukf SpecLin SpecFilter SpecMotion SpecUkf
  RLin RBridge EkfPsd Angles EkfUpdate Motion Trig UkfProofs Pdef FilterExtra.
Import ListNotations.
Local Open Scope R_scope.

(** ** Cholesky factor of a diagonal matrix *)

Lemma diag_factor n (L A : rmat) :
  meq n n (rmul n L (rT L)) A ->
  (forall i j, (i < j)%nat -> (j < n)%nat -> L i j = 0) ->
  (forall i j, (i < n)%nat -> (j < n)%nat -> i <> j -> A i j = 0) ->
  (forall i, (i < n)%nat -> 0 < A i i) ->
  forall j, (j < n)%nat -> (forall i, (i < n)%nat -> i <> j -> L i j = 0) /\ L j j * L j j = A j j.
Proof.
  intros HL Hlow Hoff Hpos j. induction j as [j IH] using lt_wf_ind. intros Hj.
  assert (E : forall i, (i < n)%nat -> rsum n (fun l => L i l * L j l) = L i j * L j j).
  { intros i Hi. apply (rsum_single n j (fun l => L i l * L j l) Hj). intros l Hl Hne.
    destruct (Nat.lt_ge_cases l j).
    - rewrite (proj1 (IH l H Hl) j Hj) by lia. ring.
    - rewrite (Hlow j l) by lia. ring. }
  assert (Ejj : L j j * L j j = A j j).
  { rewrite <- (E j Hj). exact (HL j j Hj Hj). }
  split; [|exact Ejj]. intros i Hi Hij.
  destruct (Nat.lt_ge_cases i j); [apply Hlow; assumption|].
  pose proof (E i Hi) as Ei. change (rsum n (fun l => L i l * L j l)) with (rmul n L (rT L) i j) in Ei.
  rewrite (HL i j Hi Hj), (Hoff i j Hi Hj Hij) in Ei. specialize (Hpos j Hj).
  assert (L j j <> 0) by nra. nra.
Qed.

(** ** The motion of one perturbed coordinate *)

Definition bump (x : rvec) (j : nat) (h : R) : rvec := fun i => x i + (if Nat.eqb i j then h else 0).
Definition moved (k j : nat) (h dt : R) : R :=
  (if Nat.eqb j k then h else 0) + (if Nat.eqb j (k + 6) then h * dt else 0).

Lemma bump_motion x j h dt k : level_unturning x -> angular k ->
  motion_fun dt (bump x j h) k = x k + moved k j h dt.
Proof.
  intros (H3 & H4 & H9 & H10 & H11) Hk. unfold moved.
  destruct Hk as [->|[->| ->]]; cbn [Nat.add motion_fun]; unfold roll_rate, pitch_rate, yaw_rate, bump;
    rewrite ?H3, ?H4, ?H9, ?H10, ?H11;
    (do 12 (destruct j as [|j]; [cbn [Nat.eqb]; rewrite ?Rplus_0_r, ?Rplus_0_l, ?sin_0, ?cos_0; unfold Rdiv; rewrite ?Rinv_1; ring|
       cbn [Nat.eqb]])); rewrite ?Rplus_0_r, ?sin_0, ?cos_0; unfold Rdiv; rewrite ?Rinv_1; ring.
Qed.

Lemma moved_opp k j h dt : moved k j (- h) dt = - moved k j h dt.
Proof. unfold moved. destruct (Nat.eqb j k), (Nat.eqb j (k + 6)); ring. Qed.

Lemma motion_angle_ext x y dt k : angular k -> (forall i, (i < 15)%nat -> x i = y i) ->
  motion_fun dt x k = motion_fun dt y k.
Proof.
  intros Hk H. destruct Hk as [->|[->| ->]]; cbn [motion_fun]; unfold roll_rate, pitch_rate, yaw_rate;
    rewrite ?(H 3%nat), ?(H 4%nat), ?(H 5%nat), ?(H 9%nat), ?(H 10%nat), ?(H 11%nat) by lia; reflexivity.
Qed.

Lemma circular_mean_opposite lambda (x : rvec) (L : rmat) k :
  15 + lambda <> 0 ->
  lambda / (15 + lambda) + rsum 15 (fun i => cos (L k i)) / (15 + lambda) < 0 ->
  wrapped (x k + PI) (@angle_avg RScalar (@ukf_sw RScalar lambda) (fun i => @sigma_points_of RScalar x L i k)).
Proof.
  intros Hc Hneg. unfold angle_avg, wsum. toR.
  set (C := lambda / (15 + lambda) + rsum 15 (fun i => cos (L k i)) / (15 + lambda)) in *.
  assert (Hw : forall i, (1 <= i)%nat -> @ukf_sw RScalar lambda i = 1 / (2 * (15 + lambda)))
    by (intros i Hi; rewrite sw_R; destruct i; [lia|reflexivity]).
  rewrite (wsum_sigma _ (fun v => sin (v k)) x L _ Hw).
  rewrite (wsum_sigma _ (fun v => cos (v k)) x L _ Hw).
  rewrite sw_R. cbn [Nat.eqb].
  rewrite (rsum_ext 15 (fun i => 1 / (2 * (15 + lambda)) * (sin _ + sin _))
             (fun i => (sin (x k) / (15 + lambda)) * cos (L k i))).
  2:{ intros i Hi. rewrite sigma_plus, sigma_minus by assumption.
      rewrite sin_plus, sin_minus. field. assumption. }
  rewrite (rsum_ext 15 (fun i => 1 / (2 * (15 + lambda)) * (cos _ + cos _))
             (fun i => (cos (x k) / (15 + lambda)) * cos (L k i))).
  2:{ intros i Hi. rewrite sigma_plus, sigma_minus by assumption.
      rewrite cos_plus, cos_minus. field. assumption. }
  rewrite !rsum_scal_l.
  replace (lambda / (15 + lambda) * sin (x k) + sin (x k) / (15 + lambda) * rsum 15 (fun i => cos (L k i)))
    with (- C * sin (x k + PI)) by (rewrite neg_sin; unfold C; field; assumption).
  replace (lambda / (15 + lambda) * cos (x k) + cos (x k) / (15 + lambda) * rsum 15 (fun i => cos (L k i)))
    with (- C * cos (x k + PI)) by (rewrite neg_cos; unfold C; field; assumption).
  apply Ratan2_wrapped. lra.
Qed.

(** ** One prediction *)
Section Predict.
Variable eig : Eigen RScalar.
Hypothesis Hllt : eigen_llt_ok eig.
Hypothesis Hlow : eigen_llt_lower eig.
Variables (alpha kappa beta : R).
Let lambda : R := @ukf_lambda RScalar alpha kappa.
Let c := alpha * alpha * (15 + kappa).
Hypothesis Hc : 0 < c.
Variable s : ukf RScalar.
Hypothesis Hconst : @consts RScalar alpha kappa beta s.
Hypothesis HF : @F_ok RScalar (fb_F s).
Hypothesis Hx : level_unturning (fb_state s).
Hypothesis HP : independent (fb_P s).
Variables (r d : Z).
Let dt := IZR d / 1000000000.
Let x : rvec := fb_state s.
Let P : rmat := fb_P s.
Let L : rmat := e_llt eig 15 (@mscale RScalar (15 + lambda) P).
Let sg : nat -> rvec := snd (@project_all RScalar 31 (fb_F s) (@sigma_points_of RScalar x L) d).

Lemma pr_c : 15 + lambda = c.
Proof. apply lambda_c. Qed.

Lemma pr_pdef : pdef 15 (@mscale RScalar (15 + lambda) P).
Proof.
  destruct HP as [Hoff Hpos].
  apply (pdef_ext 15 _ (fun i j => if Nat.eqb i j then c * P i i else 0)).
  - intros i j Hi Hj. unfold mscale. toR. rewrite pr_c. destruct (Nat.eqb_spec i j) as [->|Hne]; [reflexivity|].
    unfold P. rewrite Hoff by assumption. ring.
  - apply (pdef_diag 15 (fun i => c * P i i)). intros i Hi. apply Rmult_lt_0_compat; [exact Hc|]. apply Hpos. exact Hi.
Qed.

Lemma pr_L j : (j < 15)%nat ->
  (forall i, (i < 15)%nat -> i <> j -> L i j = 0) /\ L j j * L j j = c * P j j.
Proof.
  intros Hj. destruct HP as [Hoff Hpos].
  apply (diag_factor 15 L (fun i j => c * P i j)); auto.
  - intros a b Ha Hb. transitivity (@mscale RScalar (15 + lambda) P a b); [exact (Hllt 15%nat _ pr_pdef a b Ha Hb)|].
    unfold mscale. toR. rewrite pr_c. reflexivity.
  - intros a b Hab Hb. apply Hlow; auto. exact pr_pdef.
  - intros a b Ha Hb Hne. unfold P. rewrite Hoff by assumption. ring.
  - intros a Ha. apply Rmult_lt_0_compat; [exact Hc|]. apply Hpos. exact Ha.
Qed.

Let A (k : nat) : rmat := fun _ j => moved k j (L j j) dt.

Lemma pr_sg k i : angular k -> (i < 31)%nat -> sg i k = @sigma_points_of RScalar x (A k) i k.
Proof.
  intros Hk Hi. assert (Hk15 : (k < 15)%nat) by (destruct Hk as [->|[->| ->]]; lia).
  unfold sg. rewrite project_all_spec by assumption. fold dt.
  assert (Hi' : i = 0%nat \/ (exists j, (j < 15)%nat /\ i = (1 + j)%nat) \/ (exists j, (j < 15)%nat /\ i = (16 + j)%nat)).
  { destruct i; [left; reflexivity|right]. destruct (Nat.lt_ge_cases i 15).
    - left. exists i. split; [assumption|reflexivity].
    - right. exists (i - 15)%nat. lia. }
  destruct Hi' as [->|[(j & Hj & ->)|(j & Hj & ->)]].
  - rewrite sigma_0. rewrite (motion_angle_ext _ (bump x 15 0) dt k Hk).
    + rewrite bump_motion by assumption. unfold moved. destruct Hk as [->|[->| ->]]; cbn; ring.
    + intros a Ha. unfold bump. rewrite sigma_0. change (sc RScalar) with R; destruct (Nat.eqb a 15); ring.
  - rewrite sigma_plus by assumption. rewrite (motion_angle_ext _ (bump x j (L j j)) dt k Hk).
    + rewrite bump_motion by assumption. reflexivity.
    + intros a Ha. rewrite sigma_plus by assumption. unfold bump. destruct (Nat.eqb_spec a j) as [->|Hne]; [reflexivity|].
      rewrite (proj1 (pr_L j Hj) a Ha Hne). reflexivity.
  - rewrite sigma_minus by assumption. rewrite (motion_angle_ext _ (bump x j (- L j j)) dt k Hk).
    + rewrite bump_motion by assumption. rewrite moved_opp. unfold A. ring.
    + intros a Ha. rewrite sigma_minus by assumption. unfold bump. destruct (Nat.eqb_spec a j) as [->|Hne]; [ring|].
      rewrite (proj1 (pr_L j Hj) a Ha Hne). ring.
Qed.

Lemma pr_cos j t : (j < 15)%nat -> cos (L j j * t) = cos (sqrt (c * P j j) * t).
Proof.
  intros Hj. destruct (pr_L j Hj) as [_ E]. rewrite <- E.
  change (L j j * L j j) with (Rsqr (L j j)). rewrite sqrt_Rsqr_abs. unfold Rabs.
  destruct (Rcase_abs (L j j)); [|reflexivity].
  replace (- L j j * t) with (- (L j j * t)) by ring. rewrite cos_neg. reflexivity.
Qed.

Lemma pr_mean_direction k : angular k ->
  lambda / (15 + lambda) + rsum 15 (fun i => cos (A k k i)) / (15 + lambda)
  = mean_direction c (P k k) (P (k + 6)%nat (k + 6)%nat) dt.
Proof.
  intros Hk. unfold mean_direction.
  assert (E : rsum 15 (fun i => cos (A k k i)) = 13 + cos (L k k * 1) + cos (L (k + 6)%nat (k + 6)%nat * dt)).
  { unfold A, moved. destruct Hk as [->|[->| ->]]; cbn [rsum Nat.eqb Nat.add];
      rewrite ?Rplus_0_r, ?Rplus_0_l, ?cos_0, ?Rmult_1_r; ring. }
  rewrite E, !pr_cos by (destruct Hk as [->|[->| ->]]; lia). rewrite Rmult_1_r.
  replace lambda with (c - 15) by (rewrite <- pr_c; ring).
  replace (15 + (c - 15)) with c by ring. field. lra.
Qed.

Lemma pr_predict :
  fb_state (ukf_predict eig s r d) = @wrap_angles RScalar (@sigma_mean RScalar (@ukf_sw RScalar lambda) sg) /\
  fb_P (ukf_predict eig s r d) =
    @madd RScalar (@sigma_cov RScalar (@ukf_cw RScalar alpha beta lambda) sg (@sigma_mean RScalar (@ukf_sw RScalar lambda) sg))
      (@mscale RScalar (dur_seconds d)
      (if fb_use_dyn s then fb_dynQ (computeDynamicProcessNoiseCovariance s (@sigma_mean RScalar (@ukf_sw RScalar lambda) sg)) else fb_Q s)).
Proof.
  pose proof (ukf_predict_state_P eig s r d) as H. cbv zeta in H.
  destruct Hconst as (Hl & Hs & Hcw).
  unfold generateSigmaPoints in H. cbn [fb_ext set_ext ext_set_sigma u_sigma u_sw u_cw] in H.
  rewrite Hl, Hs, Hcw in H. exact H.
Qed.

Lemma pr_avg k : angular k ->
  @sigma_mean RScalar (@ukf_sw RScalar lambda) sg k =
  @angle_avg RScalar (@ukf_sw RScalar lambda) (fun i => @sigma_points_of RScalar x (A k) i k).
Proof.
  intros Hk. unfold sigma_mean.
  replace (is_angle k) with true by (destruct Hk as [->|[->| ->]]; reflexivity).
  unfold angle_avg, wsum. toR.
  f_equal; apply rsum_ext; intros i Hi; rewrite (pr_sg k i Hk Hi); reflexivity.
Qed.

Lemma pr_state k : angular k ->
  fb_state (ukf_predict eig s r d) k = @normalize_angle RScalar (@sigma_mean RScalar (@ukf_sw RScalar lambda) sg k).
Proof.
  intros Hk. rewrite (proj1 pr_predict), wrap_angles_entry.
  replace (is_angle k) with true by (destruct Hk as [->|[->| ->]]; reflexivity). reflexivity.
Qed.

Lemma pr_kept k : angular k -> 0 < mean_direction c (P k k) (P (k + 6)%nat (k + 6)%nat) dt ->
  wrapped (x k) (@sigma_mean RScalar (@ukf_sw RScalar lambda) sg k) /\ wrapped (x k) (fb_state (ukf_predict eig s r d) k).
Proof.
  intros Hk Hm. rewrite pr_state by assumption.
  assert (W : wrapped (x k) (@sigma_mean RScalar (@ukf_sw RScalar lambda) sg k)).
  { rewrite pr_avg by assumption. apply circular_mean; [rewrite pr_c; lra|]. rewrite pr_mean_direction; assumption. }
  split; [exact W|]. rewrite normalize_angle_id by apply W. exact W.
Qed.

Lemma pr_turned k : angular k -> mean_direction c (P k k) (P (k + 6)%nat (k + 6)%nat) dt < 0 ->
  wrapped (x k + PI) (@sigma_mean RScalar (@ukf_sw RScalar lambda) sg k) /\
  wrapped (x k + PI) (fb_state (ukf_predict eig s r d) k).
Proof.
  intros Hk Hm. rewrite pr_state by assumption.
  assert (W : wrapped (x k + PI) (@sigma_mean RScalar (@ukf_sw RScalar lambda) sg k)).
  { rewrite pr_avg by assumption. apply circular_mean_opposite; [rewrite pr_c; lra|]. rewrite pr_mean_direction; assumption. }
  split; [exact W|]. rewrite normalize_angle_id by apply W. exact W.
Qed.

Definition pr_e (i k : nat) : R :=
  @normalize_angle RScalar (sg i k - @sigma_mean RScalar (@ukf_sw RScalar lambda) sg k).

Lemma pr_variance k : angular k ->
  fb_P (ukf_predict eig s r d) k k =
  @ukf_cw RScalar alpha beta lambda 0%nat * (pr_e 0 k * pr_e 0 k) +
  / (2 * c) * rsum 15 (fun j => pr_e (1 + j) k * pr_e (1 + j) k + pr_e (16 + j) k * pr_e (16 + j) k) +
  dt * (if fb_use_dyn s then fb_dynQ (computeDynamicProcessNoiseCovariance s (@sigma_mean RScalar (@ukf_sw RScalar lambda) sg))
        else fb_Q s) k k.
Proof.
  intros Hk. rewrite (proj2 pr_predict). unfold madd, mscale, sigma_cov. toR. rewrite dur_seconds_R. fold dt.
  f_equal.
  assert (E : forall i, @outer RScalar (@sigma_diff_full RScalar sg (@sigma_mean RScalar (@ukf_sw RScalar lambda) sg) i)
    (@sigma_diff_full RScalar sg (@sigma_mean RScalar (@ukf_sw RScalar lambda) sg) i) k k = pr_e i k * pr_e i k).
  { intros i. unfold outer, sigma_diff_full. rewrite !wrap_angles_entry.
    replace (is_angle k) with true by (destruct Hk as [->|[->| ->]]; reflexivity). reflexivity. }
  rewrite (rsum_ext 31 _ (fun i => @ukf_cw RScalar alpha beta lambda i * (pr_e i k * pr_e i k)))
    by (intros i Hi; rewrite E; reflexivity).
  rewrite rsum31. f_equal. rewrite <- rsum_scal_l, <- rsum_plus. apply rsum_ext. intros j Hj.
  cbn [Nat.add]. rewrite !cw_S, pr_c. field. lra.
Qed.

Lemma pr_kept_e k j : angular k -> 0 < mean_direction c (P k k) (P (k + 6)%nat (k + 6)%nat) dt ->
  (j < 15)%nat -> - PI < A k k j < PI ->
  pr_e 0 k = 0 /\ pr_e (1 + j) k = A k k j /\ pr_e (16 + j) k = - A k k j.
Proof.
  intros Hk Hm Hj HA. destruct (proj1 (pr_kept k Hk Hm)) as [_ [z Ez]]. pose proof PI_RGT_0.
  assert (N : forall a, - PI < a < PI -> @normalize_angle RScalar (x k + a - @sigma_mean RScalar (@ukf_sw RScalar lambda) sg k) = a).
  { intros a Ha. rewrite <- (normalize_angle_congr a _ (- z)); [apply normalize_angle_id; lra|].
    rewrite Ez, opp_IZR. change (sc RScalar) with R in *. ring. }
  unfold pr_e. repeat split.
  - rewrite pr_sg by (auto; lia). rewrite sigma_0. replace (x k) with (x k + 0) at 1 by ring. apply N. lra.
  - rewrite pr_sg by (auto; lia). rewrite sigma_plus by assumption. apply N. exact HA.
  - rewrite pr_sg by (auto; lia). rewrite sigma_minus by assumption.
    replace (x k - A k k j) with (x k + - A k k j) by ring. apply N. lra.
Qed.

Lemma pr_A_abs k j : angular k -> (j < 15)%nat -> 
  A k k j = (if Nat.eqb j k then L k k else 0) + (if Nat.eqb j (k + 6) then L (k + 6)%nat (k + 6)%nat * dt else 0).
Proof.
  intros Hk Hj. unfold A, moved.
  destruct (Nat.eqb_spec j k) as [->|].
  - destruct (Nat.eqb_spec k (k + 6)); [lia|reflexivity].
  - destruct (Nat.eqb_spec j (k + 6)) as [->|]; reflexivity.
Qed.

Lemma sq_small a b : 0 <= b -> a * a < b * b -> - b < a < b.
Proof. intros Hb H. split; nra. Qed.

Lemma pr_kept_variance k : angular k -> 0 < mean_direction c (P k k) (P (k + 6)%nat (k + 6)%nat) dt ->
  c * P k k < PI * PI -> c * P (k + 6)%nat (k + 6)%nat * (dt * dt) < PI * PI ->
  fb_P (ukf_predict eig s r d) k k = P k k + dt * dt * P (k + 6)%nat (k + 6)%nat +
  dt * (if fb_use_dyn s then fb_dynQ (computeDynamicProcessNoiseCovariance s (@sigma_mean RScalar (@ukf_sw RScalar lambda) sg))
        else fb_Q s) k k.
Proof.
  intros Hk Hm H1 H2. pose proof PI_RGT_0 as Hpi.
  assert (Hk15 : (k + 6 < 15)%nat) by (destruct Hk as [->|[->| ->]]; lia).
  assert (E1 : L k k * L k k = c * P k k) by (apply pr_L; lia).
  assert (E2 : L (k + 6)%nat (k + 6)%nat * L (k + 6)%nat (k + 6)%nat = c * P (k + 6)%nat (k + 6)%nat) by (apply pr_L; lia).
  assert (HA : forall j, (j < 15)%nat -> - PI < A k k j < PI).
  { intros j Hj. rewrite pr_A_abs by assumption. apply sq_small; [lra|].
    destruct (Nat.eqb_spec j k) as [->|]; [destruct (Nat.eqb_spec k (k + 6)); [lia|]|destruct (Nat.eqb_spec j (k + 6))].
    - rewrite Rplus_0_r. lra.
    - rewrite Rplus_0_l. nra.
    - nra. }
  rewrite pr_variance by assumption. f_equal.
  destruct (pr_kept_e k 0%nat Hk Hm) as (E0 & _); [lia|apply HA; lia|].
  rewrite E0. rewrite !Rmult_0_l, Rmult_0_r, Rplus_0_l.
  rewrite (rsum_ext 15 _ (fun j => 2 * (A k k j * A k k j))).
  2:{ intros j Hj. destruct (pr_kept_e k j Hk Hm Hj (HA j Hj)) as (_ & -> & ->). ring. }
  rewrite rsum_scal_l.
  assert (ES : rsum 15 (fun j => A k k j * A k k j) = L k k * L k k + L (k + 6)%nat (k + 6)%nat * L (k + 6)%nat (k + 6)%nat * (dt * dt)).
  { unfold A, moved. destruct Hk as [->|[->| ->]]; cbn [rsum Nat.eqb Nat.add]; ring. }
  rewrite ES, E1, E2. field. lra.
Qed.

Lemma normalize_sq a : @normalize_angle RScalar a * @normalize_angle RScalar a <= PI * PI.
Proof.
  destruct (normalize_angle_spec a) as [[H1 H2] _]. pose proof PI_RGT_0. change (sc RScalar) with R in *. nra.
Qed.

Lemma pr_turned_variance k : angular k -> mean_direction c (P k k) (P (k + 6)%nat (k + 6)%nat) dt < 0 ->
  c * P k k <= PI * PI ->
  fb_P (ukf_predict eig s r d) k k <= (2 - alpha * alpha + beta) * (PI * PI) + P k k - 2 * PI * sqrt (c * P k k) / c +
  dt * (if fb_use_dyn s then fb_dynQ (computeDynamicProcessNoiseCovariance s (@sigma_mean RScalar (@ukf_sw RScalar lambda) sg))
        else fb_Q s) k k.
Proof.
  intros Hk Hm H1. pose proof PI_RGT_0 as Hpi.
  assert (Hk15 : (k + 6 < 15)%nat) by (destruct Hk as [->|[->| ->]]; lia).
  destruct (proj1 (pr_turned k Hk Hm)) as [_ [z Ez]].
  set (mu := @sigma_mean RScalar (@ukf_sw RScalar lambda) sg k) in *.
  set (y := sqrt (c * P k k)).
  assert (Hcp : 0 < c * P k k) by (apply Rmult_lt_0_compat; [exact Hc|]; apply HP; lia).
  assert (Hy : y * y = c * P k k) by (apply sqrt_sqrt; lra).
  assert (Hy0 : 0 < y) by (apply sqrt_lt_R0; exact Hcp).
  assert (Hypi : y <= PI) by nra.
  assert (EL : L k k * L k k = y * y) by (rewrite Hy; apply pr_L; lia).
  assert (N : forall a b (q : Z), a - PI + IZR q * (2 * PI) = b -> - PI < b <= PI ->
            @normalize_angle RScalar (x k + a - mu) = b).
  { intros a b q Hb Hr. rewrite <- (normalize_angle_congr b _ (- z - q)); [apply normalize_angle_id; exact Hr|].
    rewrite Ez, minus_IZR, opp_IZR. change (sc RScalar) with R in *. rewrite <- Hb. ring. }
  assert (E0 : pr_e 0 k * pr_e 0 k = PI * PI).
  { unfold pr_e. rewrite pr_sg by (auto; lia). rewrite sigma_0. fold mu.
    assert (En : @normalize_angle RScalar (x k - mu) = PI).
    { rewrite <- (N 0 PI 1%Z) by (lra || (split; lra)). f_equal. change (sc RScalar) with R. ring. }
    change (sc RScalar) with R in *. rewrite En. reflexivity. }
  assert (Ep : forall a, a * a = y * y -> @normalize_angle RScalar (x k + a - mu) * @normalize_angle RScalar (x k + a - mu)
            = (PI - y) * (PI - y)).
  { intros a Ha. assert (Ha' : a = y \/ a = - y) by (destruct (Rle_dec 0 a); [left|right]; nra).
    destruct Ha' as [-> | ->].
    - rewrite (N y (y - PI) 0%Z); [ring|ring|]. lra.
    - rewrite (N (- y) (PI - y) 1%Z); [ring|ring|]. lra. }
  rewrite pr_variance by assumption. apply Rplus_le_compat_r. rewrite E0.
  assert (HS : rsum 15 (fun j => pr_e (1 + j) k * pr_e (1 + j) k + pr_e (16 + j) k * pr_e (16 + j) k)
               <= 30 * (PI * PI) - 2 * (PI * PI - (PI - y) * (PI - y))).
  { assert (H : 0 <= rsum 15 (fun j => (2 * (PI * PI) - (if Nat.eqb j k then 2 * (PI * PI - (PI - y) * (PI - y)) else 0))
        - (pr_e (1 + j) k * pr_e (1 + j) k + pr_e (16 + j) k * pr_e (16 + j) k))).
    { apply rsum_nonneg. intros j Hj. unfold pr_e. fold mu. rewrite !pr_sg by (auto; lia).
      rewrite sigma_plus, sigma_minus by assumption.
      destruct (Nat.eqb_spec j k) as [->|Hne].
      - rewrite pr_A_abs by (auto; lia). rewrite Nat.eqb_refl.
        destruct (Nat.eqb_spec k (k + 6)); [lia|]. rewrite Rplus_0_r.
        replace (x k - L k k) with (x k + - L k k) by ring.
        rewrite (Ep (L k k)), (Ep (- L k k)) by (rewrite <- EL; ring). lra.
      - pose proof (normalize_sq (x k + A k k j - mu)). pose proof (normalize_sq (x k - A k k j - mu)).
        change (sc RScalar) with R in *. lra. }
    rewrite rsum_minus, rsum_minus, rsum_const in H.
    rewrite (rsum_single 15 k (fun j => if Nat.eqb j k then _ else 0)) in H;
      [|lia|intros i Hi Hne; destruct (Nat.eqb_spec i k); [contradiction|reflexivity]].
    rewrite Nat.eqb_refl in H. replace (INR 15) with 15 in H by (simpl; lra). lra. }
  assert (Ecw : @ukf_cw RScalar alpha beta lambda 0%nat = (c - 15) / c + (1 - alpha * alpha + beta)).
  { unfold ukf_cw, ukf_sw. cbn [Nat.eqb]. toR. rewrite pr_c. replace lambda with (c - 15) by (rewrite <- pr_c; ring). reflexivity. }
  rewrite Ecw.
  apply Rle_trans with (((c - 15) / c + (1 - alpha * alpha + beta)) * (PI * PI) +
    / (2 * c) * (30 * (PI * PI) - 2 * (PI * PI - (PI - y) * (PI - y)))).
  { apply Rplus_le_compat_l. apply Rmult_le_compat_l; [left; apply Rinv_0_lt_compat; lra|exact HS]. }
  right. replace (P k k) with (y * y / c) by (rewrite Hy; field; lra). field. lra.
Qed.
(** The moved sigma points themselves. *)
Lemma pr_points k : angular k ->
  c * P k k < PI * PI -> c * P (k + 6)%nat (k + 6)%nat * (dt * dt) < PI * PI ->
  let e' := fb_ext (ukf_predict eig s r d) in
  u_sigma e' 0%nat k = x k /\
  forall j, (j < 15)%nat -> exists a : R, - PI < a < PI /\
    u_sigma e' (1 + j)%nat k = x k + a /\ u_sigma e' (16 + j)%nat k = x k - a.
Proof.
  intros Hk H1 H2. pose proof PI_RGT_0 as Hpi.
  assert (E : u_sigma (fb_ext (ukf_predict eig s r d)) = sg).
  { rewrite ukf_predict_ext. cbn [u_sigma]. unfold generateSigmaPoints.
    cbn [fb_ext set_ext ext_set_sigma u_sigma]. destruct Hconst as (Hl & _). rewrite Hl. reflexivity. }
  cbv zeta. rewrite E. split; [rewrite pr_sg by (auto; lia); apply sigma_0|].
  intros j Hj. assert (Hk15 : (k + 6 < 15)%nat) by (destruct Hk as [->|[->| ->]]; lia).
  assert (E1 : L k k * L k k = c * P k k) by (apply pr_L; lia).
  assert (E2 : L (k + 6)%nat (k + 6)%nat * L (k + 6)%nat (k + 6)%nat = c * P (k + 6)%nat (k + 6)%nat) by (apply pr_L; lia).
  exists (A k k j). split; [|split].
  - rewrite pr_A_abs by assumption. apply sq_small; [lra|].
    destruct (Nat.eqb_spec j k) as [->|]; [destruct (Nat.eqb_spec k (k + 6)); [lia|]|destruct (Nat.eqb_spec j (k + 6))].
    + rewrite Rplus_0_r. lra.
    + rewrite Rplus_0_l. nra.
    + nra.
  - rewrite pr_sg by (auto; lia). apply sigma_plus. exact Hj.
  - rewrite pr_sg by (auto; lia). apply sigma_minus. exact Hj.
Qed.
End Predict.

(** ** Thresholds *)

Lemma cos_lower y : 1 - cos y <= y * y / 2.
Proof.
  replace y with (2 * (y / 2)) at 1 by field. rewrite cos_2a_sin.
  assert (H : forall t, sin t * sin t <= t * t).
  { assert (Hp : forall t, 0 < t -> sin t * sin t <= t * t).
    { intros t Ht. pose proof (sin_lt_x t Ht). pose proof (SIN_bound t).
      assert (- t < sin t); [|nra].
      destruct (Rlt_dec t PI); [pose proof (sin_gt_0 t Ht r); lra|]. pose proof PI2_1. unfold PI in *.
      pose proof PI2_3_2. unfold PI in *. lra. }
    intros t. destruct (Rtotal_order t 0) as [Ht|[->|Ht]].
    - specialize (Hp (- t)). rewrite sin_neg in Hp. nra.
    - rewrite sin_0. lra.
    - apply Hp. exact Ht. }
  specialize (H (y / 2)). nra.
Qed.

Lemma cos_upper y : -2 <= y <= 2 -> cos y <= 1 - y * y / 2 + y * y * (y * y) / 24.
Proof.
  intros [H1 H2]. destruct (pre_cos_bound y 0 H1 H2) as [_ H]. cbn [Nat.mul Nat.add] in H.
  unfold cos_approx, cos_term in H. cbn [sum_f_R0] in H. simpl in H. lra.
Qed.

Lemma direction_kept c v w dt : 0 < c -> 0 < v -> 0 < w -> v + dt * dt * w < 2 -> 0 < mean_direction c v w dt.
Proof.
  intros Hc Hv Hw H. unfold mean_direction.
  assert (Hcv : 0 < c * v) by (apply Rmult_lt_0_compat; assumption).
  assert (Hcw : 0 < c * w) by (apply Rmult_lt_0_compat; assumption).
  pose proof (cos_lower (sqrt (c * v))) as H1. rewrite sqrt_sqrt in H1 by lra.
  pose proof (cos_lower (sqrt (c * w) * dt)) as H2.
  replace (sqrt (c * w) * dt * (sqrt (c * w) * dt)) with (sqrt (c * w) * sqrt (c * w) * (dt * dt)) in H2 by ring.
  rewrite sqrt_sqrt in H2 by lra.
  set (S := (1 - cos (sqrt (c * v))) + (1 - cos (sqrt (c * w) * dt))) in *.
  assert (S < c) by (apply Rle_lt_trans with (c * (v + dt * dt * w) / 2); unfold S; nra).
  assert (S / c < 1) by (apply Rmult_lt_reg_r with c; [lra|]; unfold Rdiv; rewrite Rmult_assoc, Rinv_l; lra). lra.
Qed.

Lemma direction_turned c v w dt : 0 < c -> 0 < v -> c * v <= 4 -> 2 < v * (1 - c * v / 12) -> mean_direction c v w dt < 0.
Proof.
  intros Hc Hv H4 H. unfold mean_direction.
  assert (Hcv : 0 < c * v) by (apply Rmult_lt_0_compat; assumption).
  assert (Hs : sqrt (c * v) * sqrt (c * v) = c * v) by (apply sqrt_sqrt; lra).
  pose proof (sqrt_pos (c * v)) as Hp.
  assert (H1 : cos (sqrt (c * v)) <= 1 - c * v / 2 + c * v * (c * v) / 24).
  { rewrite <- Hs at 2 3 4. apply cos_upper. nra. }
  pose proof (COS_bound (sqrt (c * w) * dt)) as [_ H2].
  set (S := (1 - cos (sqrt (c * v))) + (1 - cos (sqrt (c * w) * dt))) in *.
  assert (c < S) by (apply Rlt_le_trans with (c * (v * (1 - c * v / 12)) / 2); unfold S; nra).
  assert (1 < S / c) by (apply Rmult_lt_reg_r with c; [lra|]; unfold Rdiv; rewrite Rmult_assoc, Rinv_l; lra). lra.
Qed.

(** ** All histories *)
Section Run.
Variables (eig : Eigen RScalar) (alpha kappa beta : R) (g : rvec) (gs : nat -> rvec) (gq : rmat) (gl : R) (ops : list (fb_op RScalar)).
Let c := alpha * alpha * (15 + kappa).
Let s := fb_run (ukf_vtbl eig) (setConstants (@ukf_init RScalar g gs gq gl) alpha kappa beta) ops.
Hypothesis Hllt : eigen_llt_ok eig.
Hypothesis Hlow : eigen_llt_lower eig.
Hypothesis Hc : 0 < c.
Hypothesis Hx : level_unturning (fb_state s).
Hypothesis HP : independent (fb_P s).

Lemma run_consts : @consts RScalar alpha kappa beta s.
Proof. apply consts_run. apply consts_set. Qed.
Lemma run_F : @F_ok RScalar (fb_F s).
Proof. apply (ukf_reachable_tf eig g gs gq gl alpha kappa beta ops). Qed.

Lemma resting_kept r d k : angular k ->
  let dt := IZR d / 1000000000 in
  fb_P s k k + dt * dt * fb_P s (k + 6)%nat (k + 6)%nat < 2 ->
  wrapped (fb_state s k) (fb_state (ukf_predict eig s r d) k) /\
  (fb_use_dyn s = false -> c <= 4 ->
   fb_P (ukf_predict eig s r d) k k = fb_P s k k + dt * dt * fb_P s (k + 6)%nat (k + 6)%nat + dt * fb_Q s k k).
Proof.
  intros Hk dt Hv. assert (Hk15 : (k + 6 < 15)%nat) by (destruct Hk as [->|[->| ->]]; lia).
  assert (Hp1 : 0 < fb_P s k k) by (apply HP; lia).
  assert (Hp2 : 0 < fb_P s (k + 6)%nat (k + 6)%nat) by (apply HP; lia).
  pose proof (direction_kept c _ _ dt Hc Hp1 Hp2 Hv) as Hm.
  split.
  - apply (pr_kept eig Hllt Hlow alpha kappa beta Hc s run_consts run_F Hx HP r d k Hk Hm).
  - intros Hdyn Hc4.
    rewrite (pr_kept_variance eig Hllt Hlow alpha kappa beta Hc s run_consts run_F Hx HP r d k Hk Hm).
    + rewrite Hdyn. reflexivity.
    + fold c. pose proof PI2_3_2. assert (3 <= PI) by lra. nra.
    + fold c. fold dt. pose proof PI2_3_2. assert (3 <= PI) by lra.
      assert (0 <= dt * dt) by nra.
      apply Rle_lt_trans with (4 * (dt * dt * fb_P s (k + 6)%nat (k + 6)%nat)); [|nra].
      replace (c * fb_P s (k + 6)%nat (k + 6)%nat * (dt * dt)) with (c * (dt * dt * fb_P s (k + 6)%nat (k + 6)%nat)) by ring.
      apply Rmult_le_compat_r; [|exact Hc4]. apply Rmult_le_pos; lra.
Qed.

Lemma resting_points r d k : angular k -> c <= 4 ->
  let dt := IZR d / 1000000000 in
  fb_P s k k + dt * dt * fb_P s (k + 6)%nat (k + 6)%nat < 2 ->
  let e' := fb_ext (ukf_predict eig s r d) in
  u_sigma e' 0%nat k = fb_state s k /\
  forall j, (j < 15)%nat -> exists a : R, - PI < a < PI /\
    u_sigma e' (1 + j)%nat k = fb_state s k + a /\ u_sigma e' (16 + j)%nat k = fb_state s k - a.
Proof.
  intros Hk Hc4 dt Hv. assert (Hk15 : (k < 15)%nat /\ (k + 6 < 15)%nat) by (destruct Hk as [->|[->| ->]]; lia).
  pose proof (proj2 HP k (proj1 Hk15)) as Hp1. pose proof (proj2 HP (k + 6)%nat (proj2 Hk15)) as Hp2.
  pose proof PI2_3_2. assert (3 <= PI) by lra. assert (0 <= dt * dt) by nra.
  assert (0 <= dt * dt * fb_P s (k + 6)%nat (k + 6)%nat) by (apply Rmult_le_pos; lra).
  apply (pr_points eig Hllt Hlow alpha kappa beta Hc s run_consts run_F Hx HP r d k Hk); fold c; fold dt.
  - nra.
  - apply Rle_lt_trans with (4 * (dt * dt * fb_P s (k + 6)%nat (k + 6)%nat)); [|nra].
    replace (c * fb_P s (k + 6)%nat (k + 6)%nat * (dt * dt)) with (c * (dt * dt * fb_P s (k + 6)%nat (k + 6)%nat)) by ring.
    apply Rmult_le_compat_r; lra.
Qed.

Lemma resting_turned r d k : angular k ->
  let v := fb_P s k k in
  c * v <= 4 -> 2 < v * (1 - c * v / 12) ->
  wrapped (fb_state s k + PI) (fb_state (ukf_predict eig s r d) k) /\
  (fb_use_dyn s = false ->
   fb_P (ukf_predict eig s r d) k k <=
   (2 - alpha * alpha + beta) * (PI * PI) + v - 2 * PI * sqrt (c * v) / c + IZR d / 1000000000 * fb_Q s k k).
Proof.
  intros Hk v H4 Hv. assert (Hk15 : (k < 15)%nat) by (destruct Hk as [->|[->| ->]]; lia).
  assert (Hp1 : 0 < v) by (apply HP; lia).
  pose proof (direction_turned c v (fb_P s (k + 6)%nat (k + 6)%nat) (IZR d / 1000000000) Hc Hp1 H4 Hv) as Hm.
  split.
  - apply (pr_turned eig Hllt Hlow alpha kappa beta Hc s run_consts run_F Hx HP r d k Hk Hm).
  - intros Hdyn.
    eapply Rle_trans; [apply (pr_turned_variance eig Hllt Hlow alpha kappa beta Hc s run_consts run_F Hx HP r d k Hk Hm)|].
    + fold c. fold v. pose proof PI2_3_2. assert (3 <= PI) by lra. nra.
    + rewrite Hdyn. apply Rle_refl.
Qed.
End Run.

(** The constants ukf_node.cpp 45-48 declares as defaults. *)
Lemma default_turned eig g gs gq gl ops r d k :
  let s := fb_run (ukf_vtbl eig) (setConstants (@ukf_init RScalar g gs gq gl) (1 / 1000) 0 2) ops in
  eigen_llt_ok eig -> eigen_llt_lower eig -> level_unturning (fb_state s) -> independent (fb_P s) ->
  fb_use_dyn s = false -> angular k -> 2001 / 1000 <= fb_P s k k <= 100000 ->
  IZR d / 1000000000 * fb_Q s k k <= 1000 ->
  wrapped (fb_state s k + PI) (fb_state (ukf_predict eig s r d) k) /\ fb_P (ukf_predict eig s r d) k k < 0.
Proof.
  cbv zeta. intros Hllt Hlow Hx HP Hdyn Hk [Hv1 Hv2] HQ.
  set (s := fb_run _ _ ops) in *. set (v := fb_P s k k) in *.
  assert (Ec : 1 / 1000 * (1 / 1000) * (15 + 0) = 3 / 200000) by lra.
  destruct (resting_turned eig (1 / 1000) 0 2 g gs gq gl ops Hllt Hlow ltac:(lra) Hx HP r d k Hk) as [T V];
    fold s; fold v; rewrite ?Ec.
  - lra.
  - nra.
  - split; [exact T|]. specialize (V Hdyn). fold s in V. fold v in V. rewrite Ec in V.
    eapply Rle_lt_trans; [exact V|].
    set (y := sqrt (3 / 200000 * v)) in *.
    assert (Hy : y * y = 3 / 200000 * v) by (apply sqrt_sqrt; lra).
    assert (Hy0 : 0 <= y) by apply sqrt_pos.
    pose proof PI2_3_2 as P1. pose proof PI_4 as P2. assert (HP1 : 3 <= PI) by lra.
    replace (2 * PI * y / (3 / 200000)) with (400000 / 3 * (PI * y)) by field.
    assert (Hpp : PI * PI <= 16) by nra.
    assert (Hpy : 3 * y <= PI * y) by nra.
    apply Rle_lt_trans with (4 * 16 + v - 400000 * y + 1000); [nra|].
    replace v with (200000 / 3 * (y * y)) by (rewrite Hy; field).
    assert (Hlo : 1 / 200 <= y) by nra. assert (Hhi : y <= 2) by nra. nra.
Qed.
