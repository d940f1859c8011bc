(** * The UKF correction step (C16, C17) *)

From Coq Require Import Reals ZArith List Bool Arith Lra Lia FunctionalExtensionality.
From Verif Require Import Scalar Mat FilterBase FilterOps Ekf EkfFacts Ukf SpecLin SpecFilter SpecMotion
  RLin RBridge EkfPsd Angles EkfUpdate Motion Trig UkfProofs.
Import ListNotations.
Local Open Scope R_scope.

(** ** C17: the covariance update for arbitrary sigma points *)

Section Cov.
Variables (n : nat) (P Pxz Pzz R Sinv : rmat).
Let S : rmat := fun i j => Pzz i j + R i j.
Let G := rmul n Pxz Sinv.
Let P' : rmat := fun i j => P i j - rmul n (rmul n G Pzz) (rT G) i j.

Lemma ukf_cov_split i j :
  P' i j = (P i j - rmul n (rmul n G S) (rT G) i j) + rmul n (rmul n G R) (rT G) i j.
Proof.
  unfold P', S. rewrite rmul_plus_r. rewrite rmul_plus_l. ring.
Qed.

Lemma ukf_cov_above_optimal : psd n R ->
  loewner_le 15 (fun i j => P i j - rmul n (rmul n G S) (rT G) i j) P'.
Proof.
  intros HR x.
  assert (E : quad 15 P' x = quad 15 (fun i j => P i j - rmul n (rmul n G S) (rT G) i j) x
     + quad 15 (rmul n (rmul n G R) (rT G)) x).
  { rewrite <- quad_plus. apply quad_ext. intros i j _ _. apply ukf_cov_split. }
  rewrite E. pose proof (proj2 (psd_sandwich 15 n G R HR) x). lra.
Qed.

Lemma ukf_cov_below_prior : psd n Pzz -> loewner_le 15 P' P.
Proof.
  intros HZ x. unfold P'. rewrite quad_minus.
  pose proof (proj2 (psd_sandwich 15 n G Pzz HZ) x). lra.
Qed.
End Cov.

(** Scatter matrices with non-negative weights are PSD. *)
Lemma scatter_psd n (w : rvec) (d : nat -> rvec) N :
  (forall i, (i < N)%nat -> 0 <= w i) ->
  psd n (fun a b => rsum N (fun i => w i * (d i a * d i b))).
Proof.
  intros Hw. split.
  - intros a b _ _. apply rsum_ext. intros. ring.
  - intros x.
    assert (E : quad n (fun a b => rsum N (fun i => w i * (d i a * d i b))) x
                = rsum N (fun i => w i * (rdot n x (d i) * rdot n x (d i)))).
    { unfold quad.
      transitivity (rsum n (fun a => rsum N (fun i => w i * (x a * d i a) * rdot n x (d i)))).
      - apply rsum_ext. intros a Ha.
        transitivity (rsum n (fun b => rsum N (fun i => w i * (x a * d i a) * (x b * d i b)))).
        + apply rsum_ext. intros b Hb.
          transitivity (rsum N (fun i => (x a * x b) * (w i * (d i a * d i b)))).
          * rewrite rsum_scal_l. ring.
          * apply rsum_ext. intros. ring.
        + rewrite rsum_swap. apply rsum_ext. intros i Hi. rewrite rsum_scal_l. reflexivity.
      - rewrite rsum_swap. apply rsum_ext. intros i Hi.
        rewrite (rsum_ext n _ (fun a => (w i * rdot n x (d i)) * (x a * d i a))) by (intros; ring).
        rewrite rsum_scal_l. unfold rdot at 2. unfold rdot. ring. }
    rewrite E. apply rsum_nonneg. intros i Hi. apply Rmult_le_pos; [auto|apply Rle_0_sqr].
Qed.

(** ** Sigma points with known moments and a measurement without orientation variables *)

Section Fresh.
Variable eig : Eigen RScalar.
Hypothesis Heig : eigen_inverse_ok eig.
Variable (m : meas RScalar).
Hypothesis Hlen : length (m_upd m) = 15%nat.
Hypothesis Hna : no_angle_selected m.
Variables (x : rvec) (P : rmat).
Variable e : ukf_ext RScalar.
Hypothesis Hmean : forall k, ~ angular k -> (k < 15)%nat -> rsum 31 (fun i => u_sw e i * u_sigma e i k) = x k.
Hypothesis Hscat : forall a b, (a < 15)%nat -> (b < 15)%nat ->
  rsum 31 (fun i => u_cw e i * ((u_sigma e i a - x a) * (u_sigma e i b - x b))) = P a b.
Let n := length (selected m).
Let sel a := nth a (selected m) 0%nat.
Let u := ukf_compute_update eig e x m.
Let zs := sigma_meas (update_indices m) (u_sigma e).

Lemma zs_entry i a : (a < n)%nat -> zs i a = u_sigma e i (sel a).
Proof.
  intros Ha. unfold zs, sigma_meas. toR.
  change (rmv 15 (@state_to_meas RScalar (update_indices m)) (u_sigma e i) a = u_sigma e i (sel a)).
  unfold rmv. rewrite (rsum_single 15 (sel a)).
  - rewrite (H_row m Hlen a _ Ha). unfold sel. rewrite Nat.eqb_refl. ring.
  - apply selected_lt. assumption.
  - intros l Hl Hne. rewrite (H_row m Hlen a _ Ha). apply Nat.eqb_neq in Hne. fold (sel a). rewrite Hne. ring.
Qed.

Lemma not_angle a : (a < n)%nat -> is_angle (nth a (update_indices m) 0%nat) = false.
Proof.
  intros Ha. rewrite (selected_update_indices m Hlen). apply is_angle_false. apply Hna. assumption.
Qed.

Lemma zhat_entry a : (a < n)%nat -> uu_zhat u a = x (sel a).
Proof.
  intros Ha. unfold u, ukf_compute_update. cbn [uu_zhat]. unfold predicted_meas.
  rewrite not_angle by assumption. unfold wsum. toR. fold zs.
  rewrite (rsum_ext 31 _ (fun i => u_sw e i * u_sigma e i (sel a))).
  - apply Hmean; [apply Hna; assumption|apply selected_lt; assumption].
  - intros i Hi. rewrite zs_entry by assumption. reflexivity.
Qed.

Lemma zd_entry i a : (a < n)%nat ->
  @wrap_subset RScalar (update_indices m) (vsub (zs i) (uu_zhat u)) a
  = u_sigma e i (sel a) - x (sel a).
Proof.
  intros Ha. unfold wrap_subset, vsub. rewrite not_angle by assumption.
  rewrite zs_entry, zhat_entry by assumption. reflexivity.
Qed.

Lemma xd_entry i k :
  @sigma_state_diff RScalar (update_indices m) (u_sigma e i) x k
  = u_sigma e i k - x k.
Proof.
  unfold sigma_state_diff.
  destruct (Nat.ltb_spec k (length (update_indices m))) as [Hk|Hk]; [|reflexivity].
  rewrite not_angle; [reflexivity|].
  rewrite (selected_update_indices m Hlen) in Hk. exact Hk.
Qed.

Lemma Pzz_entry a b : (a < n)%nat -> (b < n)%nat -> uu_Pzz u a b = P (sel a) (sel b).
Proof.
  intros Ha Hb.
  rewrite <- (Hscat (sel a) (sel b)) by (apply selected_lt; assumption).
  unfold u, ukf_compute_update. cbn [uu_Pzz]. toR.
  apply rsum_ext. intros i Hi. unfold outer. toR. f_equal.
  pose proof (zd_entry i a Ha) as Ea. pose proof (zd_entry i b Hb) as Eb.
  unfold zs, u, ukf_compute_update in Ea, Eb. cbn [uu_zhat] in Ea, Eb.
  rewrite <- Ea, <- Eb. reflexivity.
Qed.

Lemma Pxz_entry k b : (k < 15)%nat -> (b < n)%nat -> uu_Pxz u k b = P k (sel b).
Proof.
  intros Hk Hb.
  rewrite <- (Hscat k (sel b)) by (assumption || (apply selected_lt; assumption)).
  unfold u, ukf_compute_update. cbn [uu_Pxz]. toR.
  apply rsum_ext. intros i Hi. unfold outer. toR. f_equal.
  pose proof (zd_entry i b Hb) as Eb.
  unfold zs, u, ukf_compute_update in Eb. cbn [uu_zhat] in Eb.
  rewrite <- Eb, <- (xd_entry i k). reflexivity.
Qed.

Hypothesis HSi : invertible n (innovation_cov P m).

Lemma uu_n_eq : uu_n u = n.
Proof. unfold u, ukf_compute_update. cbn [uu_n]. rewrite (selected_update_indices m Hlen). reflexivity. Qed.

Lemma uu_R_entry a b : (a < n)%nat -> (b < n)%nat -> uu_R u a b = repaired_cov m (sel a) (sel b).
Proof.
  intros Ha Hb. unfold u, ukf_compute_update. cbn [uu_R].
  rewrite (selected_update_indices m Hlen).
  rewrite cov_subset_entry by assumption. unfold repaired_cov, sel.
  destruct (Nat.eqb_spec a b) as [->|Hne]; [rewrite Nat.eqb_refl; reflexivity|].
  destruct (Nat.eqb_spec (nth a (selected m) 0%nat) (nth b (selected m) 0%nat)) as [E|E]; [|reflexivity].
  exfalso. apply Hne. apply (proj1 (NoDup_nth (selected m) 0%nat) (nodup_selected m)); assumption.
Qed.

Lemma uu_S_entry : meq n n (fun i j => uu_Pzz u i j + uu_R u i j) (innovation_cov P m).
Proof.
  intros a b Ha Hb. rewrite Pzz_entry, uu_R_entry by assumption. reflexivity.
Qed.

Lemma uu_inv_ok : is_inverse n (innovation_cov P m) (uu_inv u).
Proof.
  apply (is_inverse_ext n (fun i j => uu_Pzz u i j + uu_R u i j)); [apply uu_S_entry|].
  change (uu_inv u) with (e_inv eig (uu_n u) (fun i j => uu_Pzz u i j + uu_R u i j)).
  rewrite uu_n_eq. apply Heig. eapply invertible_ext; [|exact HSi].
  intros i j Hi Hj. symmetry. apply uu_S_entry; assumption.
Qed.

Lemma uu_K_eq : uu_K u = rmul n (uu_Pxz u) (uu_inv u).
Proof. rewrite <- uu_n_eq. reflexivity. Qed.

Lemma uu_gain : is_gain P m (uu_K u).
Proof.
  intros k a Hk Ha. rewrite uu_K_eq.
  change (rmul n (rmul n (uu_Pxz u) (uu_inv u)) (innovation_cov P m) k a = P k (sel a)).
  rewrite rmul_assoc.
  rewrite (rmul_ext n _ (uu_Pxz u) _ rI) by (intros; auto; apply (uu_inv_ok l a); assumption).
  rewrite rmul_I_r by assumption. apply Pxz_entry; assumption.
Qed.

Lemma uu_innov_ok : innovation_of x m (uu_innov u).
Proof.
  intros a Ha i.
  assert (E : uu_innov u a = m_value m i - x i).
  { pose proof (zhat_entry a Ha) as Ez. unfold u, ukf_compute_update in *. cbn [uu_innov uu_zhat] in *.
    unfold wrap_subset. rewrite not_angle by assumption. unfold vsub. rewrite Ez.
    unfold meas_subset. rewrite (selected_update_indices m Hlen).
    apply Nat.ltb_lt in Ha as Ha'. fold n in Ha'. fold n. rewrite Ha'. reflexivity. }
  split; intros H; [exfalso; apply (Hna a Ha); assumption|exact E].
Qed.

Lemma uu_gain_solve w v k : (k < 15)%nat ->
  veq n (rmv n (innovation_cov P m) w) v ->
  rmv n (uu_K u) v k = rsum n (fun a => P k (sel a) * w a).
Proof.
  intros Hk Hw. rewrite uu_K_eq, rmv_mul.
  rewrite (rmv_ext n (uu_Pxz u) (uu_Pxz u) _ w).
  - unfold rmv. apply rsum_ext. intros a Ha. rewrite Pxz_entry by assumption. reflexivity.
  - reflexivity.
  - intros l Hl.
    rewrite (rmv_ext n _ (uu_inv u) v (rmv n (innovation_cov P m) w)) by
      (intros; auto; symmetry; apply Hw; assumption).
    rewrite <- rmv_mul.
    rewrite (rmv_ext n _ rI w w) by (intros; auto; apply (uu_inv_ok l l0); assumption).
    apply rmv_I. assumption.
Qed.

Lemma uu_gate nu w :
  innovation_of x m nu -> veq n (rmv n (innovation_cov P m) w) nu ->
  checkMahalanobisThreshold (uu_n u) (uu_innov u) (uu_inv u) (m_thresh m)
  = negb (Rleb (m_thresh m * m_thresh m) (rdot n nu w)).
Proof.
  intros Hnu Hw.
  assert (Ei : veq n (uu_innov u) nu) by (eapply innovation_unique; [apply uu_innov_ok|exact Hnu]).
  rewrite uu_n_eq. unfold checkMahalanobisThreshold. toR. do 2 f_equal.
  unfold rdot. apply rsum_ext. intros l Hl. rewrite (Ei l Hl). f_equal.
  transitivity (rmv n (uu_inv u) (rmv n (innovation_cov P m) w) l).
  - apply rmv_ext; auto. intros. rewrite (Ei l0 H). symmetry. apply Hw. assumption.
  - rewrite <- rmv_mul.
    rewrite (rmv_ext n _ rI w w) by (intros; auto; apply (uu_inv_ok l l0); assumption).
    apply rmv_I. assumption.
Qed.

(** Posterior covariance in terms of any gain satisfying the gain equation. *)
Lemma uu_P_entry : meq 15 15
  (fun i j => P i j - rmul n (rmul n (uu_K u) (uu_Pzz u)) (rT (uu_K u)) i j)
  (fun i j => P i j - rsum n (fun b => rsum n (fun a => uu_K u i a * P (sel a) (sel b)) * uu_K u j b)).
Proof.
  intros i j Hi Hj. f_equal. unfold rmul, rT. apply rsum_ext. intros b Hb. f_equal.
  apply rsum_ext. intros a Ha. rewrite Pzz_entry by assumption. reflexivity.
Qed.

Lemma uu_P_psd : psd 15 P -> psd 15 (m_cov m) ->
  psd 15 (fun i j => P i j - rmul n (rmul n (uu_K u) (uu_Pzz u)) (rT (uu_K u)) i j).
Proof.
  intros HP HR.
  set (H := @state_to_meas RScalar (update_indices m)).
  assert (HRs : psd n (uu_R u)).
  { assert (Hg : good_meas m) by (split; assumption).
    pose proof (psd_cov_subset m Hg) as HC. rewrite (selected_update_indices m Hlen) in HC.
    unfold u, ukf_compute_update. cbn [uu_R]. rewrite (selected_update_indices m Hlen). exact HC. }
  assert (HS' : is_inverse n (fun i j => rmul 15 H (rmul 15 P (rT H)) i j + uu_R u i j) (uu_inv u)).
  { eapply is_inverse_ext; [|apply uu_inv_ok]. intros i j Hi Hj. symmetry.
    rewrite <- (S_entry m Hlen P i j Hi Hj). reflexivity. }
  eapply psd_ext; [|apply psd_plus;
    [apply (joseph_psd n (rmul n (rmul 15 P (rT H)) (uu_inv u)) H (uu_R u) P HP HRs)
    |apply (psd_sandwich 15 n (rmul n (rmul 15 P (rT H)) (uu_inv u)) (uu_R u) HRs)]].
  intros i j Hi Hj.
  rewrite (joseph_short n P H (uu_R u) (uu_inv u) HS' i j Hi Hj).
  set (G := rmul n (rmul 15 P (rT H)) (uu_inv u)).
  assert (EG : forall k a, (k < 15)%nat -> uu_K u k a = G k a).
  { intros k a Hk. rewrite uu_K_eq. unfold G. apply rmul_ext; [|reflexivity].
    intros l Hl. rewrite Pxz_entry by assumption. unfold H.
    rewrite (pht_entry m Hlen P k l Hl). reflexivity. }
  assert (EGK : rmul n (rmul n (uu_K u) (uu_Pzz u)) (rT (uu_K u)) i j
              = rmul n (rmul n G (fun a b => rmul 15 H (rmul 15 P (rT H)) a b)) (rT G) i j).
  { apply rmul_ext.
    - intros b Hb. apply rmul_ext; intros a Ha; [apply EG; assumption|].
      rewrite Pzz_entry by assumption. unfold H. rewrite (HP_entry m Hlen _ a b Ha).
      rewrite (pht_entry m Hlen P _ b Hb). reflexivity.
    - intros b Hb. unfold rT. apply EG. assumption. }
  rewrite EGK.
  (* G H P Ht = G S - G R ; (G S) = P Ht *)
  assert (E1 : rmul n (rmul n G (fun a b => rmul 15 H (rmul 15 P (rT H)) a b)) (rT G) i j
     = rmul n (rmul 15 P (rT H)) (rT G) i j - rmul n (rmul n G (uu_R u)) (rT G) i j).
  { change (rmul n (rmul 15 P (rT H)) (rT G) i j - rmul n (rmul n G (uu_R u)) (rT G) i j)
      with ((fun a b => rmul n (rmul 15 P (rT H)) (rT G) a b - rmul n (rmul n G (uu_R u)) (rT G) a b) i j).
    rewrite <- rmul_minus_l. apply rmul_ext; [|reflexivity].
    intros b Hb.
    pose proof (gain_S n P H (uu_R u) (uu_inv u) HS' i b Hb) as EGS. fold G in EGS.
    rewrite rmul_plus_r in EGS. cbv beta in EGS. rewrite <- EGS.
    match goal with |- ?a = ?b + ?c - ?c => change a with b end. ring. }
  rewrite E1.
  assert (E2 : rmul n (rmul 15 P (rT H)) (rT G) i j = rmul n G (rmul 15 H P) i j).
  { (* both equal G S G^T *)
    transitivity (rmul n (rmul n G (fun a b => rmul 15 H (rmul 15 P (rT H)) a b + uu_R u a b)) (rT G) i j).
    - apply rmul_ext; [|reflexivity]. intros b Hb. symmetry.
      apply (gain_S n P H (uu_R u) (uu_inv u) HS' i b Hb).
    - rewrite rmul_assoc. apply rmul_ext; [reflexivity|]. intros a Ha.
      unfold H at 3. rewrite (HP_entry m Hlen P a j Ha).
      transitivity (rmul 15 P (rT H) j a).
      2:{ unfold H. rewrite (pht_entry m Hlen P j a Ha). apply HP; [assumption|apply selected_lt; assumption]. }
      pose proof (gain_S n P H (uu_R u) (uu_inv u) HS' j a Ha) as EGS. fold G in EGS.
      rewrite <- EGS. clear EGS.
      unfold rmul at 1 4. apply rsum_ext. intros b Hb. unfold rT at 2. rewrite Rmult_comm. f_equal.
      f_equal.
      + unfold H. rewrite !(HP_entry m Hlen _ _ _) by assumption.
        rewrite !(pht_entry m Hlen P) by assumption.
        apply HP; apply selected_lt; assumption.
      + apply HRs; assumption. }
  rewrite E2. ring.
Qed.
End Fresh.

(** ** State-level statements *)

Lemma veq_zero_dec n (x : rvec) : veq n x (fun _ => 0) \/ exists i, (i < n)%nat /\ x i <> 0.
Proof.
  induction n as [|k IH]; [left; intros i Hi; lia|].
  destruct IH as [H|(i & Hi & Hx)]; [|right; exists i; split; [lia|assumption]].
  destruct (Req_dec (x k) 0) as [E|E]; [left|right; exists k; split; [lia|assumption]].
  intros i Hi. destruct (Nat.eq_dec i k) as [->|Hne]; [assumption|apply H; lia].
Qed.

Lemma pdef_psd n A : pdef n A -> psd n A.
Proof.
  intros [Hs Hp]. split; [assumption|]. intros x.
  destruct (veq_zero_dec n x) as [Hz|Hnz]; [|apply Rlt_le, Hp; assumption].
  rewrite (quad_ext_vec n _ x (fun _ => 0)) by assumption.
  unfold quad. rewrite rsum_zero; [lra|]. intros. apply rsum_zero. intros. ring.
Qed.

Lemma gain_unique n (P : rmat) (m : meas RScalar) (Sinv G1 G2 : rmat) :
  n = length (selected m) -> is_inverse n (innovation_cov P m) Sinv ->
  is_gain P m G1 -> is_gain P m G2 ->
  forall k a, (k < 15)%nat -> (a < n)%nat -> G1 k a = G2 k a.
Proof.
  intros En HI H1 H2 k a Hk Ha.
  rewrite <- (rmul_I_r n G1 k a Ha), <- (rmul_I_r n G2 k a Ha).
  assert (E : forall G, rmul n G rI k a = rmul n (rmul n G (innovation_cov P m)) Sinv k a).
  { intros G. rewrite rmul_assoc. apply rmul_ext; [reflexivity|]. intros l Hl.
    symmetry. apply HI; assumption. }
  rewrite !E. apply rmul_ext; [|reflexivity]. intros l Hl. subst n.
  transitivity (P k (nth l (selected m) 0%nat)); [apply (H1 k l Hk Hl)|symmetry; apply (H2 k l Hk Hl)].
Qed.

Section FreshState.
Variable eig : Eigen RScalar.
Hypothesis Heig : eigen_inverse_ok eig.
Hypothesis Hllt : eigen_llt_ok eig.
Variables (alpha kappa beta : R).
Hypothesis Hc : 0 < alpha * alpha * (15 + kappa).
Variables (s : ukf RScalar) (m : meas RScalar).
Hypothesis Hk : @consts RScalar alpha kappa beta s.
Hypothesis HP : pdef 15 (fb_P s).
Hypothesis Hlen : length (m_upd m) = 15%nat.
Hypothesis Hna : no_angle_selected m.
Hypothesis Hun : u_uncorrected (fb_ext s) = false.
Hypothesis HSi : invertible (length (selected m)) (innovation_cov (fb_P s) m).
Let n := length (selected m).
Let lambda := @ukf_lambda RScalar alpha kappa.
Let L := e_llt eig 15 (@mscale RScalar (15 + lambda) (fb_P s)).
Let e := fb_ext (generateSigmaPoints eig s).
Let u := ukf_compute_update eig e (fb_state s) m.

Lemma fs_c : 15 + lambda <> 0.
Proof. unfold lambda. rewrite lambda_c. lra. Qed.

Lemma fs_L : meq 15 15 (rmul 15 L (rT L)) (fun i j => (15 + lambda) * fb_P s i j).
Proof.
  unfold L. apply Hllt. destruct HP as [Hs Hp]. split.
  - intros i j Hi Hj. unfold mscale. toR. rewrite (Hs i j) by assumption. reflexivity.
  - intros x Hx. unfold mscale. toR. rewrite quad_scale. apply Rmult_lt_0_compat; [|apply Hp; assumption].
    unfold lambda. rewrite lambda_c. assumption.
Qed.

Lemma fs_sig : u_sigma e = @sigma_points_of RScalar (fb_state s) L.
Proof.
  unfold e, L, lambda, generateSigmaPoints. cbn [fb_ext set_ext ext_set_sigma u_sigma].
  destruct Hk as (El & _). rewrite El. reflexivity.
Qed.
Lemma fs_sw : u_sw e = @ukf_sw RScalar lambda.
Proof. destruct Hk as (_ & Es & _). exact Es. Qed.
Lemma fs_cw : u_cw e = @ukf_cw RScalar alpha beta lambda.
Proof. destruct Hk as (_ & _ & Es). exact Es. Qed.

Lemma fs_mean k : ~ angular k -> (k < 15)%nat -> rsum 31 (fun i => u_sw e i * u_sigma e i k) = fb_state s k.
Proof. intros _ _. rewrite fs_sw, fs_sig. apply sw_mean. exact fs_c. Qed.
Lemma fs_scat a b : (a < 15)%nat -> (b < 15)%nat ->
  rsum 31 (fun i => u_cw e i * ((u_sigma e i a - fb_state s a) * (u_sigma e i b - fb_state s b))) = fb_P s a b.
Proof.
  intros Ha Hb. rewrite fs_cw, fs_sig. apply cw_scatter; [exact fs_c|]. apply fs_L; assumption.
Qed.

Lemma fs_correct : ukf_correct eig s m =
  if checkMahalanobisThreshold (uu_n u) (uu_innov u) (uu_inv u) (m_thresh m) then
    set_ext (wrapStateAngles (set_P (set_state (generateSigmaPoints eig s)
      (@vadd RScalar (fb_state s) (mvmul (uu_n u) (uu_K u) (uu_innov u))))
      (@msub RScalar (fb_P s) (mmul (uu_n u) (mmul (uu_n u) (uu_K u) (uu_Pzz u)) (mT (uu_K u))))))
      (ext_set_uncorrected e false)
  else generateSigmaPoints eig s.
Proof. unfold ukf_correct. rewrite Hun. reflexivity. Qed.

Lemma fs_gate nu w :
  innovation_of (fb_state s) m nu -> veq n (rmv n (innovation_cov (fb_P s) m) w) nu ->
  checkMahalanobisThreshold (uu_n u) (uu_innov u) (uu_inv u) (m_thresh m)
  = negb (Rleb (m_thresh m * m_thresh m) (rdot n nu w)).
Proof.
  apply (uu_gate eig Heig m Hlen Hna (fb_state s) (fb_P s) e fs_mean fs_scat HSi nu w).
Qed.

Lemma ukf_fresh_reject nu w :
  innovation_of (fb_state s) m nu -> veq n (rmv n (innovation_cov (fb_P s) m) w) nu ->
  m_thresh m * m_thresh m <= rdot n nu w ->
  fb_state (ukf_correct eig s m) = fb_state s /\ fb_P (ukf_correct eig s m) = fb_P s.
Proof.
  intros Hnu Hw Ht. rewrite fs_correct. rewrite (fs_gate nu w Hnu Hw).
  unfold Rleb. destruct (Rle_dec _ _); [split; reflexivity|contradiction].
Qed.

Lemma fs_gain : is_gain (fb_P s) m (uu_K u).
Proof.
  apply (uu_gain eig Heig m Hlen Hna (fb_state s) (fb_P s) e fs_mean fs_scat HSi).
Qed.

Lemma ukf_fresh_accept nu w :
  innovation_of (fb_state s) m nu -> veq n (rmv n (innovation_cov (fb_P s) m) w) nu ->
  rdot n nu w < m_thresh m * m_thresh m ->
  corrected_state (fb_state s) (fb_P s) m w (fb_state (ukf_correct eig s m)) /\
  (forall G, is_gain (fb_P s) m G -> forall i j, (i < 15)%nat -> (j < 15)%nat ->
     fb_P (ukf_correct eig s m) i j =
     fb_P s i j - rsum n (fun b => rsum n (fun a =>
        G i a * fb_P s (nth a (selected m) 0%nat) (nth b (selected m) 0%nat)) * G j b)) /\
  loewner_le 15 (fb_P (ukf_correct eig s m)) (fb_P s) /\
  (psd 15 (m_cov m) -> psd 15 (fb_P (ukf_correct eig s m))) /\
  (psd 15 (m_cov m) -> forall Pk, corrected_cov (fb_P s) m Pk ->
     loewner_le 15 Pk (fb_P (ukf_correct eig s m))).
Proof.
  intros Hnu Hw Ht. rewrite fs_correct. rewrite (fs_gate nu w Hnu Hw).
  unfold Rleb. destruct (Rle_dec _ _) as [Hle|_]; [exfalso; lra|]. cbn [negb].
  cbn [fb_state fb_P set_ext wrapStateAngles set_state set_P].
  pose proof (uu_inv_ok eig Heig m Hlen Hna (fb_state s) (fb_P s) e fs_mean fs_scat HSi) as HI. fold u in HI.
  assert (En : uu_n u = n) by (apply uu_n_eq; assumption).
  rewrite En.
  assert (HPsd : psd 15 (fb_P s)) by (apply pdef_psd; assumption).
  assert (HZ : psd n (uu_Pzz u)).
  { eapply psd_ext; [|apply (psd_sub (selected m) (fb_P s) 15)].
    - intros a b Ha Hb. symmetry.
      apply (Pzz_entry eig m Hlen Hna (fb_state s) (fb_P s) e fs_mean fs_scat a b Ha Hb).
    - intros i Hi. destruct (In_nth _ _ 0%nat Hi) as (q & Hq & <-). apply selected_lt. assumption.
    - assumption. }
  split; [|split; [|split; [|split]]].
  - intros k Hk15 raw. rewrite wrap_angles_entry.
    assert (Eraw : @vadd RScalar (fb_state s) (mvmul n (uu_K u) (uu_innov u)) k = raw).
    { unfold vadd, raw. toR. f_equal.
      apply (uu_gain_solve eig Heig m Hlen Hna (fb_state s) (fb_P s) e fs_mean fs_scat HSi w (uu_innov u) k Hk15).
      intros a Ha. transitivity (nu a); [exact (Hw a Ha)|]. symmetry.
      apply (innovation_unique m (fb_state s) (uu_innov u) nu); [|assumption|assumption].
      apply (uu_innov_ok eig m Hlen Hna (fb_state s) e fs_mean). }
    rewrite Eraw. split; intros Hang.
    + apply is_angle_true in Hang. rewrite Hang. apply normalize_angle_spec.
    + apply is_angle_false in Hang. rewrite Hang. reflexivity.
  - intros G HG i j Hi Hj. unfold msub. toR.
    pose proof (uu_P_entry eig m Hlen Hna (fb_state s) (fb_P s) e fs_mean fs_scat i j Hi Hj) as EP. fold u n in EP. rewrite EP. f_equal.
    apply rsum_ext. intros b Hb.
    rewrite (gain_unique n (fb_P s) m (uu_inv u) (uu_K u) G eq_refl HI fs_gain HG j b Hj Hb).
    f_equal. apply rsum_ext. intros a Ha.
    rewrite (gain_unique n (fb_P s) m (uu_inv u) (uu_K u) G eq_refl HI fs_gain HG i a Hi Ha). reflexivity.
  - unfold msub. toR. intros x. rewrite quad_minus.
    pose proof (proj2 (psd_sandwich 15 n (uu_K u) (uu_Pzz u) HZ) x). lra.
  - intros HR.
    apply (uu_P_psd eig Heig m Hlen Hna (fb_state s) (fb_P s) e fs_mean fs_scat HSi HPsd HR).
  - intros HR Pk HPk x.
    set (G := uu_K u).
    assert (EPk : meq 15 15 Pk (fun i j => fb_P s i j - rmul n (rmul n G (innovation_cov (fb_P s) m)) (rT G) i j)).
    { intros i j Hi Hj.
      rewrite (HPk j (fun a => G j a) Hj); [| |assumption].
      - f_equal. unfold rmul at 1, rT. apply rsum_ext. intros a Ha. f_equal.
        symmetry. apply (fs_gain i a Hi Ha).
      - intros a Ha. unfold rmv. fold n.
        transitivity (rsum n (fun b => G j b * innovation_cov (fb_P s) m b a)).
        + apply rsum_ext. intros b Hb. rewrite Rmult_comm. f_equal.
          unfold innovation_cov. f_equal.
          * apply HPsd; apply selected_lt; assumption.
          * unfold repaired_cov.
            rewrite Nat.eqb_sym. destruct (Nat.eqb_spec (nth b (selected m) 0%nat) (nth a (selected m) 0%nat)) as [E|E];
              [rewrite E; reflexivity|]. apply HR; apply selected_lt; assumption.
        + transitivity (fb_P s j (nth a (selected m) 0%nat)); [exact (fs_gain j a Hj Ha)|]. apply HPsd; [assumption|apply selected_lt; assumption]. }
    rewrite (quad_ext 15 _ _ x EPk). unfold msub. toR. rewrite !quad_minus.
    assert (HRs : psd n (uu_R u)).
    { pose proof (psd_cov_subset m (conj Hlen HR)) as HC. rewrite (selected_update_indices m Hlen) in HC.
      unfold u, ukf_compute_update. cbn [uu_R]. rewrite (selected_update_indices m Hlen). exact HC. }
    assert (ES : quad 15 (rmul n (rmul n G (innovation_cov (fb_P s) m)) (rT G)) x
       = quad 15 (rmul n (rmul n G (uu_Pzz u)) (rT G)) x + quad 15 (rmul n (rmul n G (uu_R u)) (rT G)) x).
    { rewrite !quad_sandwich, <- quad_plus. apply quad_ext. intros a b Ha Hb. symmetry.
      apply (uu_S_entry eig m Hlen Hna (fb_state s) (fb_P s) e fs_mean fs_scat a b Ha Hb). }
    rewrite ES. pose proof (proj2 (psd_sandwich 15 n G (uu_R u) HRs) x). fold G. lra.
Qed.
End FreshState.
