(** * UKF: predicted covariance (C83) and the first correction after a prediction (C84) *)

From Coq Require Import Reals ZArith List Bool Arith Lra Lia Psatz.
From Verif Require Import Scalar Mat FilterBase FilterOps Ekf EkfFacts Ukf SpecLin SpecFilter SpecMotion SpecUkf
  RLin RBridge EkfPsd Angles EkfUpdate Motion Trig UkfProofs UkfUpdate Pdef FilterExtra UkfFlip.
Import ListNotations.
Local Open Scope R_scope.

(** ** Weighted scatter around a mean with the weights of the scaled transform *)
Section Scatter.
Variables (alpha beta lambda : R).
Let c := 15 + lambda.
Hypothesis Hc : 0 < c.
Variable e : nat -> rvec.
Let sw := @ukf_sw RScalar lambda.
Let cw := @ukf_cw RScalar alpha beta lambda.

Lemma quad_scatter n (w : rvec) N v :
  quad n (fun a b => rsum N (fun i => w i * (e i a * e i b))) v = rsum N (fun i => w i * (rdot n v (e i) * rdot n v (e i))).
Proof.
  unfold quad.
  transitivity (rsum n (fun a => rsum N (fun i => w i * (v a * e i a) * rdot n v (e i)))).
  - apply rsum_ext. intros a Ha.
    transitivity (rsum n (fun b => rsum N (fun i => w i * (v a * e i a) * (v b * e i b)))).
    + apply rsum_ext. intros b Hb.
      transitivity (rsum N (fun i => (v a * v b) * (w i * (e i a * e i b)))).
      * rewrite rsum_scal_l. ring.
      * apply rsum_ext. intros. ring.
    + rewrite rsum_swap. apply rsum_ext. intros i Hi. rewrite rsum_scal_l. reflexivity.
  - rewrite rsum_swap. apply rsum_ext. intros i Hi.
    rewrite (rsum_ext n _ (fun a => (w i * rdot n v (e i)) * (v a * e i a))) by (intros; ring).
    rewrite rsum_scal_l. unfold rdot at 2. unfold rdot. ring.
Qed.

(** For numbers: second moment with covariance weights, split at point 0. *)
Lemma scalar_split (t : nat -> R) :
  rsum 31 (fun i => cw i * (t i * t i)) =
  / (2 * c) * rsum 30 (fun i => (t (1 + i)%nat - t 0%nat) * (t (1 + i)%nat - t 0%nat)) +
  2 * t 0%nat * rsum 31 (fun i => sw i * t i) + (beta - alpha * alpha) * (t 0%nat * t 0%nat).
Proof.
  assert (E : forall f : nat -> R, rsum 31 f = f 0%nat + rsum 30 (fun i => f (1 + i)%nat)).
  { intros f. transitivity (rsum 1 f + rsum 30 (fun i => f (1 + i)%nat)); [apply (rsum_app 1 30 f)|simpl; ring]. }
  rewrite (E (fun i => cw i * (t i * t i))), (E (fun i => sw i * t i)). cbn [Nat.add].
  set (t0 := t 0%nat).
  rewrite (rsum_ext 30 (fun i => cw (S i) * (t (S i) * t (S i))) (fun i => / (2 * c) * (t (S i) * t (S i))))
    by (intros; unfold cw; rewrite cw_S; unfold Rdiv; fold c; ring).
  rewrite (rsum_ext 30 (fun i => sw (S i) * t (S i)) (fun i => / (2 * c) * t (S i)))
    by (intros; unfold sw; rewrite sw_R; cbn [Nat.eqb]; unfold Rdiv; fold c; ring).
  rewrite (rsum_ext 30 (fun i => (t (S i) - t0) * (t (S i) - t0)) (fun i => t (S i) * t (S i) - ((2 * t0) * t (S i) - t0 * t0)))
    by (intros; ring).
  rewrite rsum_minus, rsum_minus, rsum_const, !rsum_scal_l. replace (INR 30) with 30 by (simpl; lra).
  set (A := rsum 30 (fun i => t (S i) * t (S i))). set (B := rsum 30 (fun i => t (S i))).
  unfold cw, sw, ukf_cw, ukf_sw. cbn [Nat.eqb]. toR. fold c. replace lambda with (c - 15) by (unfold c; ring).
  field. lra.
Qed.

Lemma scaled_scatter_psd : alpha * alpha <= beta ->
  (forall k, (k < 15)%nat -> rsum 31 (fun i => sw i * e i k) = 0) ->
  psd 15 (fun a b => rsum 31 (fun i => cw i * (e i a * e i b))).
Proof.
  intros Hb Hm. split.
  - intros a b _ _. apply rsum_ext. intros. ring.
  - intros v. rewrite quad_scatter, (scalar_split (fun i => rdot 15 v (e i))).
    assert (Z : rsum 31 (fun i => sw i * rdot 15 v (e i)) = 0).
    { unfold rdot. rewrite (rsum_ext 31 _ (fun i => rsum 15 (fun k => v k * (sw i * e i k))))
        by (intros; rewrite <- rsum_scal_l; apply rsum_ext; intros; ring).
      rewrite rsum_swap. apply rsum_zero. intros k Hk. rewrite rsum_scal_l, Hm by assumption. ring. }
    rewrite Z. rewrite Rmult_0_r, Rplus_0_r.
    apply Rplus_le_le_0_compat.
    + apply Rmult_le_pos; [left; apply Rinv_0_lt_compat; lra|]. apply rsum_nonneg. intros. apply Rle_0_sqr.
    + apply Rmult_le_pos; [lra|apply Rle_0_sqr].
Qed.
End Scatter.

(** ** Parts of the state after a prediction *)
Lemma after_parts eig (alpha kappa beta : R) (s : ukf RScalar) r d :
  @consts RScalar alpha kappa beta s ->
  let s' := ukf_predict eig s r d in
  let e' := fb_ext s' in
  let mean := @sigma_mean RScalar (u_sw e') (u_sigma e') in
  u_uncorrected e' = true /\ u_sw e' = @ukf_sw RScalar (@ukf_lambda RScalar alpha kappa) /\
  u_cw e' = @ukf_cw RScalar alpha beta (@ukf_lambda RScalar alpha kappa) /\
  (forall k, fb_state s' k = @wrap_angles RScalar mean k) /\
  (forall a b, fb_P s' a b = @sigma_cov RScalar (u_cw e') (u_sigma e') mean a b +
     IZR d / 1000000000 * (if fb_use_dyn s' then fb_dynQ s' else fb_Q s') a b).
Proof.
  intros (Hl & Hs & Hw). rewrite <- dur_seconds_R. unfold ukf_predict.
  change (fb_F (generateSigmaPoints eig (prepareControl s r))) with (fb_F s).
  change (fb_ext (generateSigmaPoints eig (prepareControl s r))) with (fb_ext (generateSigmaPoints eig s)).
  cbv zeta. destruct (project_all _ _ _ _) as [F sg].
  change (u_sw (fb_ext (generateSigmaPoints eig s))) with (u_sw (fb_ext s)).
  change (u_cw (fb_ext (generateSigmaPoints eig s))) with (u_cw (fb_ext s)).
  destruct s as [i0 u0 dy a0 b0 c0 e0 f0 g0 h0 k0 l0 m0 n0 o0 p0 q0 r0 s0 t0 v0 w0]. cbn [fb_ext] in *.
  rewrite <- Hs, <- Hw. destruct dy; repeat split; reflexivity.
Qed.

(** ** The state after a prediction *)
Section After.
Variable eig : Eigen RScalar.
Variables (alpha kappa beta : R).
Let lambda : R := @ukf_lambda RScalar alpha kappa.
Let c := alpha * alpha * (15 + kappa).
Hypothesis Hc : 0 < c.
Variables (e' : ukf_ext RScalar) (x' : rvec) (P' noise : rmat) (dt : R).
Hypothesis Hsw : u_sw e' = @ukf_sw RScalar lambda.
Hypothesis Hcw : u_cw e' = @ukf_cw RScalar alpha beta lambda.
Hypothesis Hx : forall k, x' k = @wrap_angles RScalar (@sigma_mean RScalar (u_sw e') (u_sigma e')) k.
Hypothesis HP : forall a b, P' a b =
  @sigma_cov RScalar (u_cw e') (u_sigma e') (@sigma_mean RScalar (u_sw e') (u_sigma e')) a b + dt * noise a b.

Lemma af_c : 15 + lambda = c.
Proof. apply lambda_c. Qed.

(** Differences of the sigma points to the predicted state, as angles. *)
Definition af_diff (i k : nat) : R :=
  if is_angle k then @normalize_angle RScalar (u_sigma e' i k - x' k) else u_sigma e' i k - x' k.

Lemma af_diff_spec i k : var_diff k (u_sigma e' i k - x' k) (af_diff i k).
Proof.
  unfold af_diff. split; intros H.
  - apply is_angle_true in H. rewrite H. apply normalize_angle_spec.
  - apply is_angle_false in H. rewrite H. reflexivity.
Qed.

Lemma var_diff_unique k t a b : var_diff k t a -> var_diff k t b -> a = b.
Proof.
  intros [A1 A2] [B1 B2]. destruct (is_angle k) eqn:E.
  - apply is_angle_true in E. eapply wrapped_unique; [apply A1|apply B1]; assumption.
  - apply is_angle_false in E. rewrite A2, B2 by assumption. reflexivity.
Qed.

Lemma af_full i k : @sigma_diff_full RScalar (u_sigma e') (@sigma_mean RScalar (u_sw e') (u_sigma e')) i k = af_diff i k.
Proof.
  unfold sigma_diff_full. rewrite wrap_angles_entry. unfold af_diff.
  pose proof (Hx k) as Ex.
  rewrite wrap_angles_entry in Ex. destruct (is_angle k); unfold vsub; toR.
  - destruct (normalize_angle_spec (@sigma_mean RScalar (u_sw e') (u_sigma e') k)) as [_ [z Ez]].
    apply (normalize_angle_congr _ _ (- z)). rewrite Ex, Ez, opp_IZR. change (sc RScalar) with R. ring.
  - rewrite Ex. reflexivity.
Qed.

Lemma af_P a b : P' a b = rsum 31 (fun i => u_cw e' i * (af_diff i a * af_diff i b)) + dt * noise a b.
Proof.
  rewrite HP. unfold sigma_cov. toR. f_equal. apply rsum_ext. intros i Hi. unfold outer. rewrite !af_full. reflexivity.
Qed.

Lemma af_mean k : ~ angular k -> rsum 31 (fun i => u_sw e' i * u_sigma e' i k) = x' k.
Proof.
  intros Hk.
  pose proof (Hx k) as Ex.
  rewrite wrap_angles_entry in Ex. apply is_angle_false in Hk. rewrite Hk in Ex. unfold sigma_mean in Ex. rewrite Hk in Ex.
  rewrite Ex. reflexivity.
Qed.

Lemma af_sw_sum : rsum 31 (u_sw e') = 1.
Proof. rewrite Hsw. apply sw_sum. rewrite af_c. lra. Qed.

Lemma af_centred k : ~ angular k -> rsum 31 (fun i => u_sw e' i * af_diff i k) = 0.
Proof.
  intros Hk. rewrite (rsum_ext 31 _ (fun i => u_sw e' i * u_sigma e' i k - u_sw e' i * x' k)).
  - rewrite rsum_minus, rsum_scal_r, af_mean, af_sw_sum by assumption. ring.
  - intros i Hi. unfold af_diff. apply is_angle_false in Hk. rewrite Hk. change (sc RScalar) with R. ring.
Qed.

(** C83 *)
Lemma af_psd : alpha * alpha <= beta -> 0 <= dt -> psd 15 noise ->
  forall e : nat -> rvec,
  (forall i k, (i < 31)%nat -> (k < 15)%nat -> var_diff k (u_sigma e' i k - x' k) (e i k)) ->
  (forall k, angular k -> rsum 31 (fun i => u_sw e' i * e i k) = 0) ->
  psd 15 P'.
Proof.
  intros Hb Hd HN e He Hr.
  assert (Ee : forall i k, (i < 31)%nat -> (k < 15)%nat -> af_diff i k = e i k)
    by (intros i k Hi Hk; eapply var_diff_unique; [apply af_diff_spec|apply He; assumption]).
  apply (psd_ext 15 (fun a b => rsum 31 (fun i => @ukf_cw RScalar alpha beta lambda i * (af_diff i a * af_diff i b)) + dt * noise a b)).
  - intros a b Ha Hb'. rewrite af_P, Hcw. reflexivity.
  - apply psd_plus.
    + apply scaled_scatter_psd; [rewrite af_c; exact Hc|exact Hb|].
      intros k Hk. rewrite <- Hsw.
      destruct (is_angle k) eqn:E.
      * apply is_angle_true in E. rewrite <- (Hr k E). apply rsum_ext. intros i Hi. rewrite Ee by assumption. reflexivity.
      * apply is_angle_false in E. apply af_centred. exact E.
    + apply (psd_scale 15 dt noise Hd HN).
Qed.

(** C84 *)
Section First.
Hypothesis Heig : eigen_inverse_ok eig.
Variable m : meas RScalar.
Hypothesis Hlen : length (m_upd m) = 15%nat.
Hypothesis Hna : no_angle_selected m.
Hypothesis Hnear : forall i k, (i < 31)%nat -> angular k -> - PI < u_sigma e' i k - x' k <= PI.
Let M : rmat := fun a b => P' a b - dt * noise a b.
Let n := length (selected m).
Let u := ukf_compute_update eig e' x' m.

Lemma fi_scat a b : (a < 15)%nat -> (b < 15)%nat ->
  rsum 31 (fun i => u_cw e' i * ((u_sigma e' i a - x' a) * (u_sigma e' i b - x' b))) = M a b.
Proof.
  intros Ha Hb. unfold M. rewrite af_P.
  assert (E : forall i k, (i < 31)%nat -> af_diff i k = u_sigma e' i k - x' k).
  { intros i k Hi. unfold af_diff. destruct (is_angle k) eqn:Ek; [|reflexivity].
    apply normalize_angle_id. apply Hnear; [assumption|]. apply is_angle_true. exact Ek. }
  rewrite (rsum_ext 31 (fun i => u_cw e' i * (af_diff i a * af_diff i b))
    (fun i => u_cw e' i * ((u_sigma e' i a - x' a) * (u_sigma e' i b - x' b))))
    by (intros i Hi; rewrite !E by assumption; reflexivity).
  change (sc RScalar) with R. ring.
Qed.
Lemma fi_mean k : ~ angular k -> (k < 15)%nat -> rsum 31 (fun i => u_sw e' i * u_sigma e' i k) = x' k.
Proof. intros Hk _. apply af_mean. exact Hk. Qed.

Hypothesis HSi : invertible n (innovation_cov M m).

Variable s' : ukf RScalar.
Hypothesis Hun : u_uncorrected (fb_ext s') = true.
Hypothesis Hs1 : fb_ext s' = e'.
Hypothesis Hs2 : fb_state s' = x'.
Hypothesis Hs3 : fb_P s' = P'.

Lemma fi_correct : ukf_correct eig s' m =
  if checkMahalanobisThreshold (uu_n u) (uu_innov u) (uu_inv u) (m_thresh m) then
    set_ext (wrapStateAngles (set_P (set_state s'
      (@vadd RScalar x' (mvmul (uu_n u) (uu_K u) (uu_innov u))))
      (@msub RScalar (fb_P s') (mmul (uu_n u) (mmul (uu_n u) (uu_K u) (uu_Pzz u)) (mT (uu_K u))))))
      (ext_set_uncorrected e' false)
  else s'.
Proof.
  unfold ukf_correct. rewrite Hun. unfold u. rewrite <- Hs1, <- Hs2. reflexivity.
Qed.

Lemma fi_gate nu w :
  innovation_of x' m nu -> veq n (rmv n (innovation_cov M m) w) nu ->
  checkMahalanobisThreshold (uu_n u) (uu_innov u) (uu_inv u) (m_thresh m)
  = negb (Rleb (m_thresh m * m_thresh m) (rdot n nu w)).
Proof. apply (uu_gate eig Heig m Hlen Hna x' M e' fi_mean fi_scat HSi nu w). Qed.

Lemma first_reject nu w :
  innovation_of x' m nu -> veq n (rmv n (innovation_cov M m) w) nu ->
  m_thresh m * m_thresh m <= rdot n nu w -> ukf_correct eig s' m = s'.
Proof.
  intros Hnu Hw Ht. rewrite fi_correct, (fi_gate nu w Hnu Hw).
  unfold Rleb. destruct (Rle_dec _ _); [reflexivity|contradiction].
Qed.

Lemma first_accept nu w :
  innovation_of x' m nu -> veq n (rmv n (innovation_cov M m) w) nu ->
  rdot n nu w < m_thresh m * m_thresh m ->
  corrected_state x' M m w (fb_state (ukf_correct eig s' m)) /\
  (forall G, is_gain M m G -> forall i j, (i < 15)%nat -> (j < 15)%nat ->
     fb_P (ukf_correct eig s' m) i j =
     P' i j - rsum n (fun b => rsum n (fun a =>
        G i a * M (nth a (selected m) 0%nat) (nth b (selected m) 0%nat)) * G j b)) /\
  (psd 15 M -> psd 15 (fun a b => dt * noise a b) -> psd 15 (m_cov m) -> psd 15 (fb_P (ukf_correct eig s' m))).
Proof.
  intros Hnu Hw Ht. rewrite fi_correct. rewrite (fi_gate nu w Hnu Hw).
  unfold Rleb. destruct (Rle_dec _ _) as [Hle|_]; [exfalso; lra|]. cbn [negb].
  cbn [fb_state fb_P set_ext wrapStateAngles set_state set_P]. rewrite Hs3.
  pose proof (uu_inv_ok eig Heig m Hlen Hna x' M e' fi_mean fi_scat HSi) as HI. fold u in HI.
  assert (En : uu_n u = n) by (apply uu_n_eq; assumption).
  pose proof (uu_gain eig Heig m Hlen Hna x' M e' fi_mean fi_scat HSi) as HG0. fold u in HG0.
  rewrite En. split; [|split].
  - intros k Hk15 raw. rewrite wrap_angles_entry.
    assert (Eraw : @vadd RScalar x' (mvmul n (uu_K u) (uu_innov u)) k = raw).
    { unfold vadd, raw. toR. f_equal.
      apply (uu_gain_solve eig Heig m Hlen Hna x' M e' fi_mean fi_scat HSi w (uu_innov u) k Hk15).
      intros a Ha. transitivity (nu a); [exact (Hw a Ha)|]. symmetry.
      apply (innovation_unique m x' (uu_innov u) nu); [|assumption|assumption].
      apply (uu_innov_ok eig m Hlen Hna x' e' fi_mean). }
    rewrite Eraw. split; intros Hang.
    + apply is_angle_true in Hang. rewrite Hang. apply normalize_angle_spec.
    + apply is_angle_false in Hang. rewrite Hang. reflexivity.
  - intros G HG i j Hi Hj. unfold msub. toR.
    pose proof (uu_P_entry eig m Hlen Hna x' M e' fi_mean fi_scat i j Hi Hj) as EP. fold u n in EP.
    assert (E1 : forall t1 t2 : R, M i j - t1 = M i j - t2 -> P' i j - t1 = P' i j - t2) by (intros; lra).
    apply E1. etransitivity; [exact EP|]. f_equal.
    apply rsum_ext. intros b Hb.
    rewrite (gain_unique n M m (uu_inv u) (uu_K u) G eq_refl HI HG0 HG j b Hj Hb).
    f_equal. apply rsum_ext. intros a Ha.
    rewrite (gain_unique n M m (uu_inv u) (uu_K u) G eq_refl HI HG0 HG i a Hi Ha). reflexivity.
  - intros HM HN HR.
    apply (psd_ext 15 (fun i j => (M i j - rmul n (rmul n (uu_K u) (uu_Pzz u)) (rT (uu_K u)) i j) + dt * noise i j)).
    + intros i j Hi Hj. unfold msub, M. toR. change (sc RScalar) with R. 
      match goal with |- P' i j - ?t - ?a + ?b = P' i j - ?a' => change a' with a end. ring.
    + apply psd_plus; [|exact HN].
      apply (uu_P_psd eig Heig m Hlen Hna x' M e' fi_mean fi_scat HSi HM HR).
Qed.
End First.
End After.

(** ** All histories *)
Section Run.
Variables (eig : Eigen RScalar) (alpha kappa beta : R) (g : rvec) (gs : nat -> rvec) (gq : rmat) (gl : R) (ops : list (fb_op RScalar)).
Let c := alpha * alpha * (15 + kappa).
Let s := fb_run (ukf_vtbl eig) (setConstants (@ukf_init RScalar g gs gq gl) alpha kappa beta) ops.
Hypothesis Hc : 0 < c.

Lemma drop_noise (u v : R) : u + v - v = u + 0 * 0.
Proof. ring. Qed.

Lemma predicted_psd r d : alpha * alpha <= beta -> (0 <= d)%Z ->
  let s' := ukf_predict eig s r d in
  let N := if fb_use_dyn s' then fb_dynQ s' else fb_Q s' in
  forall e : nat -> rvec,
  (forall i k, (i < 31)%nat -> (k < 15)%nat -> var_diff k (u_sigma (fb_ext s') i k - fb_state s' k) (e i k)) ->
  (forall k, angular k -> rsum 31 (fun i => u_sw (fb_ext s') i * e i k) = 0) ->
  psd 15 (fun a b => fb_P s' a b - IZR d / 1000000000 * N a b) /\ (psd 15 N -> psd 15 (fb_P s')).
Proof.
  intros Hb Hd s' N e He Hr.
  destruct (after_parts eig alpha kappa beta s r d (run_consts eig alpha kappa beta g gs gq gl ops)) as (_ & E1 & E2 & E3 & E4).
  fold s' in E1, E2, E3, E4. fold N in E4.
  assert (Hdt : 0 <= IZR d / 1000000000) by (apply Rmult_le_pos; [apply IZR_le; exact Hd|lra]).
  split.
  - refine (af_psd alpha kappa beta Hc (fb_ext s') (fb_state s') _ (fun _ _ => 0) 0 E1 E2 E3 _ Hb _ _ e He Hr).
    + intros a b. rewrite E4. apply drop_noise.
    + lra.
    + apply (psd_ext 15 (fun i j => if Nat.eqb i j then 0 else 0)).
      * intros i j _ _. destruct (Nat.eqb i j); reflexivity.
      * apply (psd_diag 15 (fun _ => 0)). intros. lra.
  - intros HN. exact (af_psd alpha kappa beta Hc (fb_ext s') (fb_state s') (fb_P s') _ (IZR d / 1000000000) E1 E2 E3 E4 Hb Hdt HN e He Hr).
Qed.

Lemma first_correction r d m :
  eigen_inverse_ok eig -> length (m_upd m) = 15%nat -> no_angle_selected m ->
  let s' := ukf_predict eig s r d in
  let N := if fb_use_dyn s' then fb_dynQ s' else fb_Q s' in
  let M := fun a b => fb_P s' a b - IZR d / 1000000000 * N a b in
  let n := length (selected m) in
  (forall i k, (i < 31)%nat -> angular k -> - PI < u_sigma (fb_ext s') i k - fb_state s' k <= PI) ->
  invertible n (innovation_cov M m) ->
  forall nu w, innovation_of (fb_state s') m nu -> veq n (rmv n (innovation_cov M m) w) nu ->
  (m_thresh m * m_thresh m <= rdot n nu w -> ukf_correct eig s' m = s') /\
  (rdot n nu w < m_thresh m * m_thresh m ->
   corrected_state (fb_state s') M m w (fb_state (ukf_correct eig s' m)) /\
   (forall G, is_gain M m G -> forall i j, (i < 15)%nat -> (j < 15)%nat ->
     fb_P (ukf_correct eig s' m) i j =
     fb_P s' i j - rsum n (fun b => rsum n (fun a =>
        G i a * M (nth a (selected m) 0%nat) (nth b (selected m) 0%nat)) * G j b)) /\
   (psd 15 M -> psd 15 N -> (0 <= d)%Z -> psd 15 (m_cov m) -> psd 15 (fb_P (ukf_correct eig s' m)))).
Proof.
  intros Heig Hlen Hna s' N M n Hnear HSi nu w Hnu Hw.
  destruct (after_parts eig alpha kappa beta s r d (run_consts eig alpha kappa beta g gs gq gl ops)) as (E0 & E1 & E2 & E3 & E4).
  fold s' in E0, E1, E2, E3, E4. fold N in E4. split.
  - intros Ht. exact (first_reject eig (fb_ext s') (fb_state s') (fb_P s') N
      (IZR d / 1000000000) E3 E4 Heig m Hlen Hna Hnear HSi s' E0 eq_refl eq_refl nu w Hnu Hw Ht).
  - intros Ht. destruct (first_accept eig (fb_ext s') (fb_state s') (fb_P s') N
      (IZR d / 1000000000) E3 E4 Heig m Hlen Hna Hnear HSi s' E0 eq_refl eq_refl eq_refl nu w Hnu Hw Ht)
      as (R1 & R2 & R3).
    split; [exact R1|]. split; [exact R2|]. intros HM HN Hd HR. apply R3; [exact HM| |exact HR].
    apply psd_scale; [|exact HN]. apply Rmult_le_pos; [apply IZR_le; exact Hd|lra].
Qed.

Lemma invertible_1 (A : rmat) : A 0%nat 0%nat <> 0 -> invertible 1 A.
Proof.
  intros H. exists (fun _ _ => / A 0%nat 0%nat). intros a b Ha Hb.
  replace a with 0%nat by lia. replace b with 0%nat by lia. unfold rmul, rI. cbn [rsum Nat.eqb]. split; field; exact H.
Qed.
Lemma solve_1 (A : rmat) nu : A 0%nat 0%nat <> 0 ->
  veq 1 (rmv 1 A (fun _ => nu / A 0%nat 0%nat)) (fun _ => nu) /\
  rdot 1 (fun _ => nu) (fun _ => nu / A 0%nat 0%nat) = nu * nu / A 0%nat 0%nat.
Proof.
  intros H. split.
  - intros a Ha. replace a with 0%nat by lia. unfold rmv. cbn [rsum]. field. exact H.
  - unfold rdot. cbn [rsum]. field. exact H.
Qed.

Lemma gate_1 nu S t : 0 < S -> nu * nu < S * t -> nu * nu / S < t.
Proof.
  intros H0 H. apply (Rmult_lt_reg_l S); [lra|]. replace (S * (nu * nu / S)) with (nu * nu) by (field; lra). exact H.
Qed.
Lemma gain_less p q r : 0 < q -> q <= p -> 0 < r -> (p - q) / (p - q + r) < p / (p + r).
Proof.
  intros Hq Hp Hr. apply (Rmult_lt_reg_r ((p - q + r) * (p + r))); [apply Rmult_lt_0_compat; lra|].
  replace ((p - q) / (p - q + r) * ((p - q + r) * (p + r))) with ((p - q) * (p + r)) by (field; lra).
  replace (p / (p + r) * ((p - q + r) * (p + r))) with (p * (p - q + r)) by (field; lra). nra.
Qed.
Lemma step_1 x M nu S : x + (0 + M * (nu / S)) = x + M / S * nu.
Proof. unfold Rdiv. ring. Qed.

Lemma back (f : R -> R) x y : (forall a, - PI < a < PI -> f (x + a - y) = a) -> f (x - y) = 0 /\
  forall a, - PI < a < PI -> f (x - a - y) = - a.
Proof.
  intros N. pose proof PI_RGT_0. split.
  - replace (x - y) with (x + 0 - y) by ring. apply N. lra.
  - intros a Ha. replace (x - a - y) with (x + - a - y) by ring. apply N. lra.
Qed.
Lemma cancel_1 a b : a * b + a * - b = 0.
Proof. ring. Qed.

(** One variable corrected right after a prediction: the step is smaller than
    the Kalman step for the predicted covariance, by the ignored noise. *)
Lemma first_step_short r d m k0 :
  eigen_inverse_ok eig -> length (m_upd m) = 15%nat -> selected m = [k0] -> ~ angular k0 ->
  let s' := ukf_predict eig s r d in
  let N := if fb_use_dyn s' then fb_dynQ s' else fb_Q s' in
  let q := IZR d / 1000000000 * N k0 k0 in
  let p := fb_P s' k0 k0 in
  let rr := repaired_cov m k0 k0 in
  let nu := m_value m k0 - fb_state s' k0 in
  (forall i k, (i < 31)%nat -> angular k -> - PI < u_sigma (fb_ext s') i k - fb_state s' k <= PI) ->
  0 < q -> q <= p -> nu * nu < (p - q + rr) * (m_thresh m * m_thresh m) ->
  fb_state (ukf_correct eig s' m) k0 = fb_state s' k0 + (p - q) / (p - q + rr) * nu /\
  (p - q) / (p - q + rr) < p / (p + rr).
Proof.
  intros Heig Hlen Hsel Hk0 s' N q p rr nu Hnear Hq Hqp Hg.
  assert (Hrr : 0 < rr).
  { unfold rr, repaired_cov. rewrite Nat.eqb_refl. eapply Rlt_le_trans; [|apply Rmax_r]. lra. }
  assert (Hk15 : (k0 < 15)%nat).
  { assert (In k0 (selected m)) by (rewrite Hsel; left; reflexivity).
    unfold selected in H. apply filter_In in H. destruct H as [H _]. apply in_seq in H. lia. }
  set (M := fun a b => fb_P s' a b - IZR d / 1000000000 * N a b).
  assert (HM : M k0 k0 = p - q) by reflexivity.
  assert (Hna : no_angle_selected m).
  { intros a Ha. rewrite Hsel in *. cbn in Ha. assert (a = 0%nat) by lia. subst. exact Hk0. }
  assert (Hn : length (selected m) = 1%nat) by (rewrite Hsel; reflexivity).
  assert (HS : innovation_cov M m 0%nat 0%nat = p - q + rr).
  { unfold innovation_cov. rewrite Hsel. cbn [nth]. rewrite HM. reflexivity. }
  assert (HSi : invertible (length (selected m)) (innovation_cov M m)).
  { rewrite Hn. apply invertible_1. lra. }
  assert (HS0 : innovation_cov M m 0%nat 0%nat <> 0) by lra.
  destruct (solve_1 (innovation_cov M m) nu HS0) as [Hw Hdot]. rewrite <- Hn in Hw, Hdot.
  assert (Hnu : innovation_of (fb_state s') m (fun _ => nu)).
  { intros a Ha. rewrite Hsel in *. cbn in Ha. replace a with 0%nat by lia. cbn [nth].
    split; [intros; contradiction|reflexivity]. }
  destruct (first_correction r d m Heig Hlen Hna Hnear HSi _ _ Hnu Hw) as [_ A].
  destruct A as [A _].
  - rewrite Hdot, HS. apply gate_1; [lra|exact Hg].
  - split; [|apply gain_less; assumption].
    destruct (A k0 Hk15) as [_ A2]. specialize (A2 Hk0).
    etransitivity; [exact A2|]. rewrite Hsel. cbn [length rsum nth].
    rewrite <- HS, <- HM. apply step_1.
Qed.

(** Predictions of an unturning level vehicle with small angle variances. *)
Hypothesis Hllt : eigen_llt_ok eig.
Hypothesis Hlow : eigen_llt_lower eig.
Hypothesis Hx : level_unturning (fb_state s).
Hypothesis HP : independent (fb_P s).
Hypothesis Hc4 : c <= 4.

Let dt_of (d : Z) := IZR d / 1000000000.
Definition calm_at (d : Z) : Prop := forall k, angular k ->
  fb_P s k k + dt_of d * dt_of d * fb_P s (k + 6)%nat (k + 6)%nat < 2.

Lemma point_cases (Q : nat -> Prop) : Q 0%nat -> (forall j, (j < 15)%nat -> Q (1 + j)%nat /\ Q (16 + j)%nat) ->
  forall i, (i < 31)%nat -> Q i.
Proof.
  intros H0 Hj i Hi. destruct i as [|i]; [exact H0|]. destruct (Nat.lt_ge_cases i 15).
  - apply (Hj i H).
  - replace (S i) with (16 + (i - 15))%nat by lia. apply Hj. lia.
Qed.

Lemma resting_near r d : calm_at d -> (forall k, angular k -> - PI < fb_state s k <= PI) ->
  let s' := ukf_predict eig s r d in
  forall i k, (i < 31)%nat -> angular k -> - PI < u_sigma (fb_ext s') i k - fb_state s' k <= PI.
Proof.
  intros Hcalm Hr s' i k Hi Hk. pose proof PI_RGT_0.
  destruct (resting_kept eig alpha kappa beta g gs gq gl ops Hllt Hlow Hc Hx HP r d k Hk (Hcalm k Hk)) as [W _].
  destruct (resting_points eig alpha kappa beta g gs gq gl ops Hllt Hlow Hc Hx HP r d k Hk Hc4 (Hcalm k Hk)) as [E0 Ej].
  fold s in E0, Ej. fold s' in E0, Ej.
  assert (Ex : fb_state s' k = fb_state s k).
  { apply (wrapped_unique (fb_state s k)); [exact W|]. apply wrapped_id, Hr, Hk. }
  rewrite Ex. apply (point_cases (fun i => - PI < u_sigma (fb_ext s') i k - fb_state s k <= PI)); [| |exact Hi].
  - rewrite E0. lra.
  - intros j Hj. destruct (Ej j Hj) as (a & Ha & -> & ->). split; lra.
Qed.

Lemma resting_psd r d : calm_at d -> alpha * alpha <= beta -> (0 <= d)%Z ->
  let s' := ukf_predict eig s r d in
  let N := if fb_use_dyn s' then fb_dynQ s' else fb_Q s' in
  psd 15 (fun a b => fb_P s' a b - IZR d / 1000000000 * N a b) /\ (psd 15 N -> psd 15 (fb_P s')).
Proof.
  intros Hcalm Hb Hd s' noise. pose proof PI_RGT_0.
  destruct (after_parts eig alpha kappa beta s r d (run_consts eig alpha kappa beta g gs gq gl ops)) as (_ & Esw & _ & _ & _).
  fold s' in Esw.
  apply (predicted_psd r d Hb Hd (af_diff (fb_ext s') (fb_state s'))).
  { intros i k _ _. apply af_diff_spec. }
  intros k Hk. fold s'.
  destruct (resting_kept eig alpha kappa beta g gs gq gl ops Hllt Hlow Hc Hx HP r d k Hk (Hcalm k Hk)) as [[_ [z Ez]] _].
  destruct (resting_points eig alpha kappa beta g gs gq gl ops Hllt Hlow Hc Hx HP r d k Hk Hc4 (Hcalm k Hk)) as [E0 Ej].
  fold s in E0, Ej, Ez. fold s' in E0, Ej, Ez.
  assert (N : forall a, - PI < a < PI -> @normalize_angle RScalar (fb_state s k + a - fb_state s' k) = a).
  { intros a Ha. rewrite <- (normalize_angle_congr a _ (- z)); [apply normalize_angle_id; lra|].
    rewrite Ez, opp_IZR. change (sc RScalar) with R in *. ring. }
  destruct (back _ _ _ N) as [N0 Nm].
  assert (Hka : is_angle k = true) by (apply is_angle_true; exact Hk).
  rewrite rsum31. unfold af_diff. rewrite Hka. rewrite Esw.
  assert (Z0 : @normalize_angle RScalar (u_sigma (fb_ext s') 0%nat k - fb_state s' k) = 0).
  { rewrite E0. exact N0. }
  rewrite Z0, Rmult_0_r, Rplus_0_l. rewrite <- rsum_plus.
  apply rsum_zero. intros j Hj. destruct (Ej j Hj) as (a & Ha & A1 & A2).
  cbn [Nat.add] in A1, A2 |- *. rewrite A1, A2, N, Nm by lra.
  apply cancel_1.
Qed.
End Run.
