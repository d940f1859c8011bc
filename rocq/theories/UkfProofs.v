(** * UKF (C14 - C19) *)

From Coq Require Import Reals ZArith List Bool Arith Lra Lia FunctionalExtensionality.
From Verif Require Import Scalar Mat FilterBase FilterOps Ekf EkfFacts Ukf SpecLin SpecFilter SpecMotion
  RLin RBridge EkfPsd Angles EkfUpdate Motion Trig.
Import ListNotations.
Local Open Scope R_scope.

(** ** Weights *)

Lemma rsum31 f : rsum 31 f =
  f 0%nat + (rsum 15 (fun i => f (1 + i)%nat) + rsum 15 (fun i => f (16 + i)%nat)).
Proof.
  transitivity (rsum 1 f + rsum 30 (fun i => f (1 + i)%nat)); [apply (rsum_app 1 30 f)|].
  transitivity (f 0%nat + rsum (15 + 15) (fun i => f (1 + i)%nat)); [simpl; ring|].
  rewrite (rsum_app 15 15 (fun i => f (1 + i)%nat)). reflexivity.
Qed.

Lemma sw_R lambda i :
  @ukf_sw RScalar lambda i = if Nat.eqb i 0 then lambda / (15 + lambda) else 1 / (2 * (15 + lambda)).
Proof. reflexivity. Qed.
Lemma cw_S alpha beta lambda i :
  @ukf_cw RScalar alpha beta lambda (S i) = 1 / (2 * (15 + lambda)).
Proof. reflexivity. Qed.

Lemma lambda_c alpha kappa : 15 + @ukf_lambda RScalar alpha kappa = alpha * alpha * (15 + kappa).
Proof. unfold ukf_lambda. toR. ring. Qed.

Lemma sw_sum lambda : 15 + lambda <> 0 -> rsum 31 (@ukf_sw RScalar lambda) = 1.
Proof.
  intros Hc. rewrite rsum31. cbn [Nat.add]. rewrite !sw_R. cbn [Nat.eqb].
  rewrite (rsum_ext 15 _ (fun _ => 1 / (2 * (15 + lambda)))) by (intros; apply sw_R).
  rewrite (rsum_ext 15 (fun i => @ukf_sw RScalar lambda _) (fun _ => 1 / (2 * (15 + lambda)))) by (intros; apply sw_R).
  rewrite rsum_const. replace (INR 15) with 15 by (simpl; lra). field. assumption.
Qed.

Lemma sigma_0 (x : rvec) (L : rmat) k : @sigma_points_of RScalar x L 0%nat k = x k.
Proof. reflexivity. Qed.
Lemma sigma_plus (x : rvec) (L : rmat) i k : (i < 15)%nat ->
  @sigma_points_of RScalar x L (1 + i)%nat k = x k + L k i.
Proof.
  intros Hi. unfold sigma_points_of. cbn [Nat.add Nat.eqb].
  replace (Nat.leb (S i) 15) with true by (symmetry; apply Nat.leb_le; lia).
  replace (S i - 1)%nat with i by lia. reflexivity.
Qed.
Lemma sigma_minus (x : rvec) (L : rmat) i k : (i < 15)%nat ->
  @sigma_points_of RScalar x L (16 + i)%nat k = x k - L k i.
Proof.
  intros Hi. unfold sigma_points_of.
  replace (Nat.eqb (16 + i) 0) with false by reflexivity.
  replace (Nat.leb (16 + i) 15) with false by (symmetry; apply Nat.leb_nle; lia).
  replace (16 + i - 1 - 15)%nat with i by lia. reflexivity.
Qed.

(** Weighted sum of a function over the sigma points of (x, L). *)
Lemma wsum_sigma (w : rvec) (g : rvec -> R) (x : rvec) (L : rmat) c :
  (forall i, (1 <= i)%nat -> w i = c) ->
  rsum 31 (fun i => w i * g (@sigma_points_of RScalar x L i)) =
  w 0%nat * g x + rsum 15 (fun i => c * (g (@sigma_points_of RScalar x L (1 + i)) +
                                          g (@sigma_points_of RScalar x L (16 + i)))).
Proof.
  intros Hw. rewrite rsum31.
  assert (E : forall n, rsum n (fun i => c * (g (@sigma_points_of RScalar x L (1 + i)) +
                       g (@sigma_points_of RScalar x L (16 + i)))) =
     rsum n (fun i => w (1 + i)%nat * g (@sigma_points_of RScalar x L (1 + i))) +
     rsum n (fun i => w (16 + i)%nat * g (@sigma_points_of RScalar x L (16 + i)))).
  { intros n. rewrite <- rsum_plus. apply rsum_ext. intros. rewrite !Hw by lia. ring. }
  rewrite E. f_equal.
Qed.

Lemma sw_mean lambda (x : rvec) (L : rmat) k :
  15 + lambda <> 0 ->
  rsum 31 (fun i => @ukf_sw RScalar lambda i * @sigma_points_of RScalar x L i k) = x k.
Proof.
  intros Hc.
  rewrite (wsum_sigma (@ukf_sw RScalar lambda) (fun v => v k) x L (1 / (2 * (15 + lambda)))).
  - rewrite (rsum_ext 15 _ (fun _ => x k / (15 + lambda))).
    + rewrite rsum_const. replace (INR 15) with 15 by (simpl; lra). rewrite sw_R. cbn [Nat.eqb]. field. assumption.
    + intros i Hi. rewrite sigma_plus, sigma_minus by assumption. field. assumption.
  - intros i Hi. rewrite sw_R. destruct i; [lia|reflexivity].
Qed.

Lemma cw_scatter alpha beta lambda (x : rvec) (L P : rmat) a b :
  15 + lambda <> 0 ->
  rmul 15 L (rT L) a b = (15 + lambda) * P a b ->
  rsum 31 (fun i => @ukf_cw RScalar alpha beta lambda i *
     ((@sigma_points_of RScalar x L i a - x a) * (@sigma_points_of RScalar x L i b - x b))) = P a b.
Proof.
  intros Hc HL.
  rewrite (wsum_sigma (@ukf_cw RScalar alpha beta lambda) (fun v => (v a - x a) * (v b - x b)) x L
    (1 / (2 * (15 + lambda)))).
  - replace ((x a - x a) * (x b - x b)) with 0 by ring. rewrite Rmult_0_r, Rplus_0_l.
    rewrite (rsum_ext 15 _ (fun i => / (15 + lambda) * (L a i * rT L i b))).
    + rewrite rsum_scal_l. change (rsum 15 (fun i => L a i * rT L i b)) with (rmul 15 L (rT L) a b).
      rewrite HL. field. assumption.
    + intros i Hi. rewrite !sigma_plus, !sigma_minus by assumption. unfold rT. field. assumption.
  - intros i Hi. destruct i; [lia|]. apply cw_S.
Qed.

(** Circular mean of an angle over the sigma points. *)
Lemma circular_mean lambda (x : rvec) (L : rmat) k :
  15 + lambda <> 0 ->
  0 < lambda / (15 + lambda) + rsum 15 (fun i => cos (L k i)) / (15 + lambda) ->
  wrapped (x k) (@angle_avg RScalar (@ukf_sw RScalar lambda) (fun i => @sigma_points_of RScalar x L i k)).
Proof.
  intros Hc Hpos. unfold angle_avg, wsum. toR.
  set (C := lambda / (15 + lambda) + rsum 15 (fun i => cos (L k i)) / (15 + lambda)) in *.
  assert (Hw : forall i, (1 <= i)%nat -> @ukf_sw RScalar lambda i = 1 / (2 * (15 + lambda)))
    by (intros i Hi; rewrite sw_R; destruct i; [lia|reflexivity]).
  rewrite (wsum_sigma _ (fun v => sin (v k)) x L _ Hw).
  rewrite (wsum_sigma _ (fun v => cos (v k)) x L _ Hw).
  rewrite sw_R. cbn [Nat.eqb].
  rewrite (rsum_ext 15 (fun i => 1 / (2 * (15 + lambda)) * (sin _ + sin _))
             (fun i => (sin (x k) / (15 + lambda)) * cos (L k i))).
  2:{ intros i Hi. rewrite sigma_plus, sigma_minus by assumption.
      rewrite sin_plus, sin_minus. field. assumption. }
  rewrite (rsum_ext 15 (fun i => 1 / (2 * (15 + lambda)) * (cos _ + cos _))
             (fun i => (cos (x k) / (15 + lambda)) * cos (L k i))).
  2:{ intros i Hi. rewrite sigma_plus, sigma_minus by assumption.
      rewrite cos_plus, cos_minus. field. assumption. }
  rewrite !rsum_scal_l.
  replace (lambda / (15 + lambda) * sin (x k) + sin (x k) / (15 + lambda) * rsum 15 (fun i => cos (L k i)))
    with (C * sin (x k)) by (unfold C; field; assumption).
  replace (lambda / (15 + lambda) * cos (x k) + cos (x k) / (15 + lambda) * rsum 15 (fun i => cos (L k i)))
    with (C * cos (x k)) by (unfold C; field; assumption).
  apply Ratan2_wrapped. assumption.
Qed.

(** ** The constants survive every API call *)

Definition consts {K : Scalar} (alpha kappa beta : K) (s : ukf K) : Prop :=
  u_lambda (fb_ext s) = ukf_lambda alpha kappa /\
  u_sw (fb_ext s) = ukf_sw (ukf_lambda alpha kappa) /\
  u_cw (fb_ext s) = ukf_cw alpha beta (ukf_lambda alpha kappa).

Section Consts.
Context {K : Scalar} (eig : Eigen K) (alpha kappa beta : K).
Let C := consts alpha kappa beta.

Lemma consts_congr (s s' : ukf K) : fb_ext s' = fb_ext s -> C s -> C s'.
Proof. unfold C, consts. intros ->. auto. Qed.

Lemma consts_set_predicted s x : C s -> C (set_predicted s x).
Proof. apply consts_congr. reflexivity. Qed.
Lemma consts_set_last_time s x : C s -> C (set_last_time s x).
Proof. apply consts_congr. reflexivity. Qed.

Lemma consts_gen s : C s -> C (generateSigmaPoints eig s).
Proof. intros H. exact H. Qed.

Lemma ukf_predict_ext (s : ukf K) r d :
  let e := fb_ext (generateSigmaPoints eig s) in
  fb_ext (ukf_predict eig s r d) =
  mkUkfExt (snd (project_all 31 (fb_F s) (u_sigma e) d)) (u_sqrt e) (u_sw (fb_ext s)) (u_cw (fb_ext s))
    (u_lambda (fb_ext s)) true.
Proof.
  cbv zeta. unfold ukf_predict.
  change (fb_F (generateSigmaPoints eig (prepareControl s r))) with (fb_F s).
  change (fb_ext (generateSigmaPoints eig (prepareControl s r)))
    with (fb_ext (generateSigmaPoints eig s)).
  cbv zeta. destruct (project_all _ _ _ _) as [F sg].
  destruct s as [i u dy a b c e f g h k l m n o p q r' s t v w]. destruct dy; reflexivity.
Qed.

Lemma consts_predict s r d : C s -> C (ukf_predict eig s r d).
Proof. intros H. unfold C, consts. rewrite ukf_predict_ext. exact H. Qed.

Lemma consts_correct s m : C s -> C (ukf_correct eig s m).
Proof.
  intros H. unfold ukf_correct. cbv zeta.
  destruct (u_uncorrected (fb_ext s)), (checkMahalanobisThreshold _ _ _ _); exact H.
Qed.

Lemma consts_exec s o : C s -> C (fb_exec (ukf_vtbl eig) s o).
Proof.
  intros H. destruct o; cbn [fb_exec]; try (eapply consts_congr; [|exact H]; reflexivity).
  - apply consts_predict, H.
  - apply consts_correct, H.
  - unfold processMeasurement. destruct (fb_initialized s);
      [|eapply consts_congr; [|exact H]; reflexivity].
    cbv zeta. cbn [v_predict v_correct ukf_vtbl].
    match goal with |- context [ukf_correct eig ?x m] => set (s1 := x) end.
    assert (H1 : C s1).
    { unfold s1. destruct (Z.gtb _ _); [|assumption].
      apply consts_set_predicted, consts_predict, H. }
    pose proof (consts_correct s1 m H1) as H2.
    destruct (Z.geb _ _); [apply consts_set_last_time|]; exact H2.
Qed.

Lemma consts_run ops : forall s, C s -> C (fb_run (ukf_vtbl eig) s ops).
Proof. induction ops as [|o r IH]; intros s H; cbn; [assumption|]. apply IH, consts_exec, H. Qed.

Lemma consts_set s : C (setConstants s alpha kappa beta).
Proof. repeat split. Qed.
End Consts.

(** C14 as seen through the API. *)
Lemma generated_moments eig alpha kappa beta (s : ukf RScalar) :
  eigen_llt_ok eig -> 0 < alpha * alpha * (15 + kappa) -> pdef 15 (fb_P s) ->
  @consts RScalar alpha kappa beta s ->
  let e := fb_ext (generateSigmaPoints eig s) in
  (forall k, rsum 31 (fun i => u_sw e i * u_sigma e i k) = fb_state s k) /\
  (forall a b, (a < 15)%nat -> (b < 15)%nat ->
    rsum 31 (fun i => u_cw e i * ((u_sigma e i a - fb_state s a) * (u_sigma e i b - fb_state s b)))
    = fb_P s a b).
Proof.
  intros Hl Hc HP (El & Es & Ec). cbv zeta.
  assert (Hc' : 15 + @ukf_lambda RScalar alpha kappa <> 0) by (rewrite lambda_c; lra).
  split.
  - intros k. unfold generateSigmaPoints, set_ext, ext_set_sigma. cbn [fb_ext u_sw u_sigma].
    rewrite Es. apply sw_mean. assumption.
  - intros a b Ha Hb. unfold generateSigmaPoints, set_ext, ext_set_sigma. cbn [fb_ext u_cw u_sigma].
    rewrite Ec. apply cw_scatter; [assumption|].
    rewrite El. rewrite (Hl 15%nat _).
    + unfold mscale. toR. rewrite !lambda_c. reflexivity.
    + destruct HP as [Hs Hp]. split.
      * intros i j Hi Hj. unfold mscale. toR. rewrite (Hs i j) by assumption. reflexivity.
      * intros x Hx. unfold mscale. toR. rewrite quad_scale. apply Rmult_lt_0_compat; [|apply Hp; assumption].
        rewrite lambda_c. assumption.
    + assumption.
    + assumption.
Qed.

(** ** C15 *)

Section Stale.
Context {K : Scalar} (eig : Eigen K).

Lemma stale_state_ignores_P (s : ukf K) m P2 :
  u_uncorrected (fb_ext s) = true ->
  fb_state (ukf_correct eig (set_P s P2) m) = fb_state (ukf_correct eig s m).
Proof.
  intros Hu. unfold ukf_correct.
  change (fb_ext (set_P s P2)) with (fb_ext s). change (fb_state (set_P s P2)) with (fb_state s).
  rewrite Hu. cbv zeta. change (fb_ext (set_P s P2)) with (fb_ext s).
  change (fb_state (set_P s P2)) with (fb_state s).
  destruct (checkMahalanobisThreshold _ _ _ _); reflexivity.
Qed.

Lemma stale_innovation_ignores_state e x1 x2 (m : meas K) :
  uu_innov (ukf_compute_update eig e x1 m) = uu_innov (ukf_compute_update eig e x2 m).
Proof. reflexivity. Qed.

Lemma fresh_regenerates (s : ukf K) m :
  u_uncorrected (fb_ext s) = false ->
  fb_state (ukf_correct eig s m) =
    fb_state (ukf_correct eig (set_ext s (ext_set_uncorrected (fb_ext (generateSigmaPoints eig s)) true)) m) /\
  fb_P (ukf_correct eig s m) =
    fb_P (ukf_correct eig (set_ext s (ext_set_uncorrected (fb_ext (generateSigmaPoints eig s)) true)) m).
Proof.
  intros Hu. unfold ukf_correct. rewrite Hu. cbv zeta.
  cbn [fb_ext set_ext ext_set_uncorrected u_uncorrected].
  set (g := generateSigmaPoints eig s).
  assert (E : ukf_compute_update eig (fb_ext g) (fb_state g) m =
    ukf_compute_update eig (ext_set_uncorrected (fb_ext g) true) (fb_state s) m) by reflexivity.
  change (fb_state (set_ext s (ext_set_uncorrected (fb_ext g) true))) with (fb_state s).
  unfold ext_set_uncorrected in E. rewrite E.
  destruct (checkMahalanobisThreshold _ _ _ _); split; reflexivity.
Qed.

Lemma accepted_marks_corrected (s : ukf K) m :
  fb_state (ukf_correct eig s m) <> fb_state s -> u_uncorrected (fb_ext (ukf_correct eig s m)) = false.
Proof.
  unfold ukf_correct. cbv zeta. destruct (checkMahalanobisThreshold _ _ _ _); [reflexivity|].
  destruct (u_uncorrected (fb_ext s)); intros H; exfalso; apply H; reflexivity.
Qed.
End Stale.

(** With all-zero sigma points (as left by setConstants) a correction has no
    effect on the covariance and only normalises the state angles. *)
Lemma state_to_meas_mv (idx : list nat) (v : rvec) a : (forall k, v k = 0) ->
  rmv 15 (@state_to_meas RScalar idx) v a = 0.
Proof. intros H. unfold rmv. apply rsum_zero. intros. rewrite H. ring. Qed.

Lemma angle_avg_zero (w : rvec) : 0 < rsum 31 w ->
  forall f, (forall i, f i = 0) -> @angle_avg RScalar w f = 0.
Proof.
  intros Hw f Hf. unfold angle_avg, wsum. toR.
  rewrite (rsum_ext 31 (fun i => w i * sin (f i)) (fun _ => 0)) by (intros; rewrite Hf, sin_0; ring).
  rewrite (rsum_ext 31 (fun i => w i * cos (f i)) w) by (intros; rewrite Hf, cos_0; ring).
  rewrite rsum_const, Rmult_0_r. unfold Ratan2.
  destruct (Rlt_dec 0 (rsum 31 w)); [|contradiction].
  unfold Rdiv. rewrite Rmult_0_l. apply atan_0.
Qed.

Lemma stale_zero_correct eig (s : ukf RScalar) m :
  u_uncorrected (fb_ext s) = true -> (forall i k, u_sigma (fb_ext s) i k = 0) ->
  0 < rsum 31 (u_sw (fb_ext s)) ->
  (forall i j, fb_P (ukf_correct eig s m) i j = fb_P s i j) /\
  ((forall k, fb_state (ukf_correct eig s m) k = @wrap_angles RScalar (fb_state s) k) \/
   (forall k, fb_state (ukf_correct eig s m) k = fb_state s k)).
Proof.
  intros Hu Hz Hw.
  set (u := ukf_compute_update eig (fb_ext s) (fb_state s) m).
  assert (Hzd : forall i a, @wrap_subset RScalar (update_indices m)
     (vsub (sigma_meas (update_indices m) (u_sigma (fb_ext s)) i) (uu_zhat u)) a = 0).
  { intros i a.
    assert (E0 : forall i a, sigma_meas (update_indices m) (u_sigma (fb_ext s)) i a = 0).
    { intros i0 a0. apply (state_to_meas_mv (update_indices m)). intros k. apply Hz. }
    assert (Ezh : uu_zhat u a = 0).
    { unfold u, ukf_compute_update. cbn [uu_zhat]. unfold predicted_meas.
      destruct (is_angle _).
      - apply angle_avg_zero; [assumption|]. intros; apply E0.
      - unfold wsum. toR. apply rsum_zero. intros. rewrite E0. ring. }
    unfold wrap_subset, vsub. rewrite E0, Ezh. toR.
    replace (0 - 0) with 0 by ring. destruct (is_angle _); [|reflexivity].
    pose proof PI_RGT_0. apply normalize_angle_id. lra. }
  assert (HPxz : forall a b, uu_Pxz u a b = 0).
  { intros a b. unfold u, ukf_compute_update. cbn [uu_Pxz]. toR. apply rsum_zero. intros i Hi.
    unfold outer. toR. fold (uu_zhat u).
    change (predicted_meas (u_sw (fb_ext s)) (update_indices m)
      (sigma_meas (update_indices m) (u_sigma (fb_ext s)))) with (uu_zhat u).
    rewrite Hzd. ring. }
  assert (HK : forall a b, uu_K u a b = 0).
  { intros a b. change (uu_K u) with (@mmul RScalar (uu_n u) (uu_Pxz u) (uu_inv u)).
    toR. unfold rmul. apply rsum_zero. intros. rewrite HPxz. ring. }
  unfold ukf_correct. rewrite Hu. cbv zeta. fold u.
  destruct (checkMahalanobisThreshold _ _ _ _).
  - split.
    + intros i j. cbn [fb_P set_ext wrapStateAngles set_state set_P]. unfold msub. toR.
      replace (rmul (uu_n u) (rmul (uu_n u) (uu_K u) (uu_Pzz u)) (rT (uu_K u)) i j) with 0; [ring|].
      symmetry. unfold rmul at 1. apply rsum_zero. intros. unfold rT. rewrite HK. ring.
    + left. intros k. cbn [fb_state set_ext wrapStateAngles set_state set_P].
      apply wrap_angles_ext. unfold vadd. toR.
      replace (rmv (uu_n u) (uu_K u) (uu_innov u) k) with 0; [ring|].
      symmetry. unfold rmv. apply rsum_zero. intros. rewrite HK. ring.
  - split; [reflexivity|right; reflexivity].
Qed.

(** ** C18 *)
Section Control.
Context {K : Scalar} (eig : Eigen K).

Lemma ukf_predict_state_P (s : ukf K) r d :
  let e := fb_ext (generateSigmaPoints eig s) in
  let sg := snd (project_all 31 (fb_F s) (u_sigma e) d) in
  let x := sigma_mean (u_sw e) sg in
  fb_state (ukf_predict eig s r d) = wrap_angles x /\
  fb_P (ukf_predict eig s r d) =
    madd (sigma_cov (u_cw e) sg x) (mscale (dur_seconds d)
      (if fb_use_dyn s then fb_dynQ (computeDynamicProcessNoiseCovariance s x) else fb_Q s)).
Proof.
  cbv zeta. unfold ukf_predict.
  change (fb_F (generateSigmaPoints eig (prepareControl s r))) with (fb_F s).
  change (fb_ext (generateSigmaPoints eig (prepareControl s r)))
    with (fb_ext (generateSigmaPoints eig s)).
  cbv zeta. destruct (project_all _ _ _ _) as [F sg].
  destruct s as [i u dy a b c e f g h k l m n o p q r' s t v w]. destruct dy; split; reflexivity.
Qed.

(** Replacing every control-related member. *)
Definition with_control (s : ukf K) (uc : bool) (timeout ctime : Z) (ag al dg dl : list K)
    (cu : list bool) (ca c : vec K) : ukf K :=
  mkFb (fb_initialized s) uc (fb_use_dyn s) timeout (fb_last_time s) ctime (fb_sensor_timeout s)
    ag al dg dl cu ca c (fb_predicted s) (fb_state s) (fb_dynQ s) (fb_P s) (fb_Q s) (fb_F s) (fb_J s) (fb_ext s).

Lemma ukf_predict_no_control (s : ukf K) uc timeout ctime ag al dg dl cu ca c r r' d :
  fb_state (ukf_predict eig (with_control s uc timeout ctime ag al dg dl cu ca c) r d)
    = fb_state (ukf_predict eig s r' d) /\
  fb_P (ukf_predict eig (with_control s uc timeout ctime ag al dg dl cu ca c) r d)
    = fb_P (ukf_predict eig s r' d).
Proof.
  destruct (ukf_predict_state_P s r' d) as [E1 E2].
  destruct (ukf_predict_state_P (with_control s uc timeout ctime ag al dg dl cu ca c) r d) as [E3 E4].
  rewrite E1, E2, E3, E4. split; reflexivity.
Qed.
End Control.

(** ** C19 *)
Lemma projectSigmaPoint_motion (F : rmat) pt d i :
  F_ok (K := RScalar) F -> (i < 15)%nat ->
  snd (@projectSigmaPoint RScalar F pt d) i = motion_fun (IZR d / 1000000000) pt i.
Proof.
  intros HF Hi. unfold projectSigmaPoint. cbn [snd]. rewrite dur_seconds_R.
  rewrite <- (transfer_rows pt pt _ i) by auto.
  apply (rmv_ext 15); intros; [|reflexivity].
  rewrite transfer_same. apply F_ok_row; assumption.
Qed.

Lemma project_all_spec n : forall (F : rmat) (sg : nat -> rvec) d i k,
  F_ok (K := RScalar) F -> (i < n)%nat -> (k < 15)%nat ->
  snd (@project_all RScalar n F sg d) i k = motion_fun (IZR d / 1000000000) (sg i) k.
Proof.
  assert (Hge : forall q (F : rmat) sg d i, (q <= i)%nat -> snd (@project_all RScalar q F sg d) i = sg i).
  { induction q; intros F sg d i Hi; cbn [project_all]; [reflexivity|].
    specialize (IHq F sg d i). destruct (@project_all RScalar q F sg d) as [F1 sg1]. cbn [snd] in *.
    destruct (projectSigmaPoint F1 (sg1 q) d). cbn [snd].
    destruct (Nat.eqb_spec i q); [lia|]. apply IHq. lia. }
  induction n; intros F sg d i k HF Hi Hk; [lia|]. cbn [project_all].
  pose proof (project_all_F_ok (K := RScalar) n F sg d HF) as HF1.
  pose proof (Hge n F sg d n (le_n n)) as Hn.
  specialize (IHn F sg d i k HF).
  destruct (@project_all RScalar n F sg d) as [F1 sg1]. cbn [fst snd] in *.
  pose proof (projectSigmaPoint_motion F1 (sg1 n) d k HF1 Hk) as Hp.
  destruct (projectSigmaPoint F1 (sg1 n) d) as [F2 pt]. cbn [snd] in *.
  destruct (Nat.eqb_spec i n).
  - subst i. rewrite Hp, Hn. reflexivity.
  - apply IHn; [lia|assumption].
Qed.
