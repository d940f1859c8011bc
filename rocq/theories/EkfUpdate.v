(** * The EKF correction step (C02, C03, C12, C13) *)

From Coq Require Import Reals ZArith List Bool Arith Lra Lia FunctionalExtensionality.
From Verif Require Import Scalar Mat FilterBase FilterOps Ekf EkfFacts Ukf SpecLin SpecFilter RLin RBridge EkfPsd Angles.
Import ListNotations.
Local Open Scope R_scope.

(** ** C02: only usable entries matter, for every scalar type *)

Section Usable.
Context {K : Scalar}.

(** Entry [i] takes part in the correction: selected and finite. *)
Definition usable (m : meas K) (i : nat) : Prop :=
  nth i (m_upd m) false = true /\ s_isnan (m_value m i) = false /\ s_isinf (m_value m i) = false.

(** Two measurements that agree on everything a correction may look at. *)
Definition same_usable (m1 m2 : meas K) : Prop :=
  length (m_upd m1) = length (m_upd m2) /\
  m_thresh m1 = m_thresh m2 /\
  (forall i, usable m1 i <-> usable m2 i) /\
  (forall i, usable m1 i -> m_value m1 i = m_value m2 i) /\
  (forall i j, usable m1 i -> usable m1 j -> m_cov m1 i j = m_cov m2 i j).

Lemma in_update_indices m i : In i (update_indices m) <-> usable m i.
Proof.
  unfold update_indices, usable, flag. rewrite filter_In, in_seq, !andb_true_iff, !negb_true_iff.
  split; [tauto|]. intros (H & H1 & H2). repeat split; auto; try lia.
  destruct (Nat.lt_ge_cases i (length (m_upd m))); [lia|].
  rewrite nth_overflow in H by lia. discriminate.
Qed.

Lemma same_usable_indices m1 m2 : same_usable m1 m2 -> update_indices m1 = update_indices m2.
Proof.
  intros (Hl & _ & Hu & _). unfold update_indices. rewrite Hl. apply filter_ext. intros i.
  specialize (Hu i). unfold usable, flag in *.
  destruct (nth i (m_upd m1) false), (s_isnan (m_value m1 i)), (s_isinf (m_value m1 i)),
    (nth i (m_upd m2) false), (s_isnan (m_value m2 i)), (s_isinf (m_value m2 i)); cbn in *; auto;
  exfalso; destruct Hu as [h1 h2];
  (destruct h1 as (?&?&?); [auto|discriminate]) || (destruct h2 as (?&?&?); [auto|discriminate]).
Qed.

Lemma same_usable_meas_subset m1 m2 :
  same_usable m1 m2 -> meas_subset (update_indices m1) m1 = meas_subset (update_indices m1) m2.
Proof.
  intros (_ & _ & _ & Hv & _). extensionality a. unfold meas_subset.
  destruct (Nat.ltb_spec a (length (update_indices m1))); [|reflexivity].
  apply Hv, in_update_indices, nth_In. assumption.
Qed.

Lemma same_usable_cov_subset m1 m2 :
  same_usable m1 m2 -> cov_subset (update_indices m1) m1 = cov_subset (update_indices m1) m2.
Proof.
  intros (_ & _ & _ & _ & Hc). extensionality a. extensionality b. unfold cov_subset.
  destruct (Nat.ltb_spec a (length (update_indices m1))); [|reflexivity].
  destruct (Nat.ltb_spec b (length (update_indices m1))); [|reflexivity].
  cbn [andb]. rewrite Hc; [reflexivity| |]; apply in_update_indices, nth_In; assumption.
Qed.

Lemma ekf_correct_same_usable eig (s : ekf K) m1 m2 :
  same_usable m1 m2 -> ekf_correct eig s m1 = ekf_correct eig s m2.
Proof.
  intros H. unfold ekf_correct, ekf_compute_update. cbv zeta. cbn [u_n u_innov u_Sinv u_K u_H u_R].
  rewrite <- (same_usable_indices _ _ H), <- (same_usable_meas_subset _ _ H),
    <- (same_usable_cov_subset _ _ H).
  destruct H as (_ & Ht & _). rewrite Ht. reflexivity.
Qed.

Lemma ukf_correct_same_usable eig (s : ukf K) m1 m2 :
  same_usable m1 m2 -> ukf_correct eig s m1 = ukf_correct eig s m2.
Proof.
  intros H. unfold ukf_correct, ukf_compute_update. cbv zeta. cbn [uu_n uu_innov uu_inv uu_K uu_Pzz].
  rewrite <- (same_usable_indices _ _ H), <- (same_usable_meas_subset _ _ H),
    <- (same_usable_cov_subset _ _ H).
  destruct H as (_ & Ht & _). rewrite Ht. reflexivity.
Qed.
End Usable.

Lemma compute_update_K {K : Scalar} eig x P (m : meas K) :
  let u := ekf_compute_update eig x P m in
  u_K u = mmul (u_n u) (mmul 15 P (mT (u_H u))) (u_Sinv u).
Proof. reflexivity. Qed.

(** ** Selected indices over R *)

Lemma selected_update_indices (m : meas RScalar) :
  length (m_upd m) = 15%nat -> update_indices m = selected m.
Proof. intros H. rewrite update_indices_R, H. reflexivity. Qed.

Lemma selected_lt m a : (a < length (selected m))%nat -> (nth a (selected m) 0 < 15)%nat.
Proof.
  intros H. pose proof (nth_In (selected m) 0%nat H) as HI.
  unfold selected in HI at 2. apply filter_In in HI. destruct HI as [HI _].
  apply in_seq in HI. lia.
Qed.

Lemma is_angle_true i : is_angle i = true <-> angular i.
Proof.
  unfold is_angle, angular. rewrite !orb_true_iff, !Nat.eqb_eq. tauto.
Qed.
Lemma is_angle_false i : is_angle i = false <-> ~ angular i.
Proof. rewrite <- is_angle_true. destruct (is_angle i); split; congruence. Qed.

(** ** Abstract Kalman algebra: G = P H' Sinv *)

Section Kalman.
Variables (n : nat) (P H R Sinv : rmat).
Let pht := rmul 15 P (rT H).
Let S : rmat := fun i j => rmul 15 H pht i j + R i j.
Let G := rmul n pht Sinv.
Hypothesis HS : is_inverse n S Sinv.

Lemma gain_S i b : (b < n)%nat -> rmul n G S i b = pht i b.
Proof.
  intros Hb. unfold G. rewrite rmul_assoc.
  rewrite (rmul_ext n _ pht _ rI) by (intros; auto; apply (HS l b); assumption).
  apply rmul_I_r. assumption.
Qed.

Lemma joseph_short i j : (i < 15)%nat -> (j < 15)%nat ->
  @joseph RScalar n G H R P i j = P i j - rmul n G (rmul 15 H P) i j.
Proof.
  intros Hi Hj. unfold joseph, madd, msub. toR.
  set (A := rmul n G H).
  rewrite (rmul_minus_l 15 rI A P).
  assert (E1 : forall l, rmul 15 rI P i l = P i l) by (intros; apply rmul_I_l; assumption).
  assert (E : rmul 15 (fun i0 j0 => rmul 15 rI P i0 j0 - rmul 15 A P i0 j0)
                (rT (fun i0 j0 => rI i0 j0 - A i0 j0)) i j
     = (P i j - rmul 15 A P i j)
       - rmul 15 (fun i0 j0 => rmul 15 rI P i0 j0 - rmul 15 A P i0 j0) (rT A) i j).
  { change (rT (fun i0 j0 => rI i0 j0 - A i0 j0)) with (fun i0 j0 => rT rI i0 j0 - rT A i0 j0).
    rewrite rmul_minus_r.
    rewrite (rmul_ext 15 _ (fun i0 j0 => rmul 15 rI P i0 j0 - rmul 15 A P i0 j0) _ rI) by
      (intros; auto; unfold rT, rI; rewrite Nat.eqb_sym; reflexivity).
    rewrite rmul_I_r by assumption. rewrite E1. reflexivity. }
  rewrite E.
  assert (EA : rmul 15 A P i j = rmul n G (rmul 15 H P) i j)
    by (unfold A; rewrite rmul_assoc; reflexivity).
  rewrite EA.
  assert (F : rmul 15 (fun i0 j0 => rmul 15 rI P i0 j0 - rmul 15 A P i0 j0) (rT A) i j
              = rmul n (rmul n G R) (rT G) i j).
  { unfold A at 2. rewrite rT_mul. rewrite <- rmul_assoc.
    apply rmul_ext; [|reflexivity]. intros b Hb.
    rewrite rmul_minus_l.
    rewrite (rmul_ext 15 (rmul 15 rI P) P (rT H) (rT H)) by (intros; auto).
    change (rmul 15 P (rT H) i b) with (pht i b).
    rewrite <- (gain_S i b Hb). unfold A. rewrite !rmul_assoc.
    unfold S. rewrite rmul_plus_r. fold pht. ring. }
  rewrite F. ring.
Qed.

(** G v = P H' w whenever S w = v. *)
Lemma gain_solve w v i :
  veq n (rmv n S w) v -> rmv n G v i = rmv n pht w i.
Proof.
  intros Hw. unfold G. rewrite rmv_mul. apply rmv_ext; [reflexivity|].
  intros l Hl.
  rewrite (rmv_ext n Sinv Sinv v (rmv n S w)) by (intros; auto; symmetry; apply Hw; assumption).
  rewrite <- rmv_mul.
  rewrite (rmv_ext n _ rI w w) by (intros; auto; apply (HS l l0); assumption).
  apply rmv_I. assumption.
Qed.

Lemma Sinv_quad v : symmetric n S -> quad n Sinv v = quad n S (rmv n Sinv v).
Proof.
  intros Hsym. rewrite !quad_dot.
  rewrite (rdot_comm n v). unfold rdot. apply rsum_ext. intros l Hl. f_equal.
  rewrite <- rmv_mul. symmetry.
  rewrite (rmv_ext n _ rI v v) by (intros; auto; apply (HS l l0); assumption).
  apply rmv_I. assumption.
Qed.

Lemma reduction_quad x : symmetric 15 P -> symmetric n S ->
  quad 15 (rmul n G (rmul 15 H P)) x = quad n S (rmv n Sinv (rmv 15 (rmul 15 H P) x)).
Proof.
  intros HP Hsym. rewrite <- Sinv_quad by assumption. rewrite !quad_dot.
  unfold G. rewrite rmv_mul, rmv_mul. rewrite rdot_mv.
  unfold rdot. apply rsum_ext. intros l Hl. f_equal.
  apply rmv_ext; [|reflexivity]. intros k Hk. unfold pht, rT, rmul.
  apply rsum_ext. intros q Hq. rewrite (HP k q) by assumption. ring.
Qed.
End Kalman.

Lemma is_inverse_ext n A A' B : meq n n A A' -> is_inverse n A B -> is_inverse n A' B.
Proof.
  intros HA HB i j Hi Hj. destruct (HB i j Hi Hj) as [H1 H2]. split.
  - rewrite <- H1. apply rmul_ext; auto. intros. symmetry. apply HA; assumption.
  - rewrite <- H2. apply rmul_ext; auto. intros. symmetry. apply HA; assumption.
Qed.

(** ** The model's matrices against the specification's *)

Section Corr.
Variable (m : meas RScalar).
Hypothesis Hlen : length (m_upd m) = 15%nat.
Let idx := update_indices m.
Let n := length (selected m).
Let Hm : rmat := @state_to_meas RScalar idx.

Lemma H_row a k : (a < n)%nat -> Hm a k = if Nat.eqb k (nth a (selected m) 0%nat) then 1 else 0.
Proof.
  intros Ha. unfold Hm, state_to_meas, idx. rewrite (selected_update_indices m Hlen).
  apply Nat.ltb_lt in Ha. fold n. rewrite Ha. reflexivity.
Qed.

Lemma pht_entry (P : rmat) k a : (a < n)%nat ->
  rmul 15 P (rT Hm) k a = P k (nth a (selected m) 0%nat).
Proof.
  intros Ha. unfold rmul, rT.
  rewrite (rsum_single 15 (nth a (selected m) 0%nat)).
  - rewrite H_row by assumption. rewrite Nat.eqb_refl. ring.
  - apply selected_lt; assumption.
  - intros l Hl Hne. rewrite H_row by assumption. apply Nat.eqb_neq in Hne. rewrite Hne. ring.
Qed.

Lemma HP_entry (P : rmat) a j : (a < n)%nat ->
  rmul 15 Hm P a j = P (nth a (selected m) 0%nat) j.
Proof.
  intros Ha. unfold rmul.
  rewrite (rsum_single 15 (nth a (selected m) 0%nat)).
  - rewrite H_row by assumption. rewrite Nat.eqb_refl. ring.
  - apply selected_lt; assumption.
  - intros l Hl Hne. rewrite H_row by assumption. apply Nat.eqb_neq in Hne. rewrite Hne. ring.
Qed.

Lemma nodup_selected : NoDup (selected m).
Proof. unfold selected. apply NoDup_filter, seq_NoDup. Qed.

Lemma S_entry (P : rmat) : meq n n
  (fun i j => rmul 15 Hm (rmul 15 P (rT Hm)) i j + @cov_subset RScalar idx m i j)
  (innovation_cov P m).
Proof.
  intros a b Ha Hb. rewrite HP_entry by assumption. rewrite pht_entry by assumption.
  unfold innovation_cov, repaired_cov. f_equal.
  unfold idx. rewrite (selected_update_indices m Hlen).
  rewrite cov_subset_entry by assumption.
  destruct (Nat.eqb_spec a b) as [->|Hne]; [rewrite Nat.eqb_refl; reflexivity|].
  destruct (Nat.eqb_spec (nth a (selected m) 0%nat) (nth b (selected m) 0%nat)) as [E|E]; [|reflexivity].
  exfalso. apply Hne. apply (proj1 (NoDup_nth (selected m) 0%nat) nodup_selected); assumption.
Qed.

Lemma innov_model (x : rvec) :
  innovation_of x m (@wrap_subset RScalar idx (@vsub RScalar (@meas_subset RScalar idx m) (@state_subset RScalar idx x))).
Proof.
  intros a Ha i. unfold i, wrap_subset, vsub, meas_subset, state_subset, idx.
  rewrite (selected_update_indices m Hlen).
  apply Nat.ltb_lt in Ha as Ha'. rewrite Ha'. split; intros Hang.
  - apply is_angle_true in Hang. rewrite Hang. apply normalize_angle_spec.
  - apply is_angle_false in Hang. rewrite Hang. reflexivity.
Qed.

Lemma innovation_unique x nu nu' :
  innovation_of x m nu -> innovation_of x m nu' -> veq n nu nu'.
Proof.
  intros H H' a Ha. specialize (H a Ha). specialize (H' a Ha). cbv zeta in *.
  destruct (is_angle (nth a (selected m) 0%nat)) eqn:E.
  - apply is_angle_true in E. eapply wrapped_unique; [apply H, E|apply H', E].
  - apply is_angle_false in E. rewrite (proj2 H E), (proj2 H' E). reflexivity.
Qed.
End Corr.

Section Gate.
Variable eig : Eigen RScalar.
Hypothesis Heig : eigen_inverse_ok eig.
Variable (m : meas RScalar).
Hypothesis Hlen : length (m_upd m) = 15%nat.
Variable (s : ekf RScalar).
Hypothesis HSi : invertible (length (selected m)) (innovation_cov (fb_P s) m).
Let n := length (selected m).
Let u := ekf_compute_update eig (fb_state s) (fb_P s) m.

Lemma invertible_ext k A B : meq k k A B -> invertible k A -> invertible k B.
Proof. intros H [X HX]. exists X. eapply is_inverse_ext; eassumption. Qed.

Lemma u_n_eq : u_n u = n.
Proof. unfold u, ekf_compute_update. cbn [u_n]. rewrite (selected_update_indices m Hlen). reflexivity. Qed.

Lemma u_K_eq : u_K u = rmul n (rmul 15 (fb_P s) (rT (u_H u))) (u_Sinv u).
Proof.
  rewrite <- u_n_eq. unfold u at 1. rewrite compute_update_K. fold u. toR. reflexivity.
Qed.

Lemma Sinv_model : is_inverse n
  (fun i j => rmul 15 (u_H u) (rmul 15 (fb_P s) (rT (u_H u))) i j + u_R u i j) (u_Sinv u).
Proof.
  unfold u, ekf_compute_update. cbn [u_Sinv u_H u_R].
  replace (length (update_indices m)) with n by (rewrite (selected_update_indices m Hlen); reflexivity).
  apply Heig.
  eapply invertible_ext; [|exact HSi]. intros i j Hi Hj. symmetry.
  apply (S_entry m Hlen (fb_P s)); assumption.
Qed.

Lemma Sinv_solve w nu : veq n (rmv n (innovation_cov (fb_P s) m) w) nu ->
  veq n (rmv n (u_Sinv u) nu) w.
Proof.
  intros Hw l Hl.
  rewrite (rmv_ext n _ (u_Sinv u) nu (rmv n (innovation_cov (fb_P s) m) w))
    by (intros; auto; symmetry; apply Hw; assumption).
  rewrite <- rmv_mul.
  assert (Hinv : is_inverse n (innovation_cov (fb_P s) m) (u_Sinv u)).
  { eapply is_inverse_ext; [|apply Sinv_model].
    intros i j Hi Hj. apply (S_entry m Hlen (fb_P s)); assumption. }
  rewrite (rmv_ext n _ rI w w) by (intros; auto; apply (Hinv l l0); assumption).
  apply rmv_I. assumption.
Qed.

Lemma innov_u nu : innovation_of (fb_state s) m nu -> veq n (u_innov u) nu.
Proof.
  intros H. eapply innovation_unique; [|exact H]. apply (innov_model m Hlen).
Qed.

Lemma gate_model nu w :
  innovation_of (fb_state s) m nu -> veq n (rmv n (innovation_cov (fb_P s) m) w) nu ->
  checkMahalanobisThreshold (u_n u) (u_innov u) (u_Sinv u) (m_thresh m)
  = negb (Rleb (m_thresh m * m_thresh m) (rdot n nu w)).
Proof.
  intros Hnu Hw. rewrite u_n_eq. unfold checkMahalanobisThreshold. toR. do 2 f_equal.
  unfold rdot. apply rsum_ext. intros l Hl. rewrite (innov_u nu Hnu l Hl). f_equal.
  transitivity (rmv n (u_Sinv u) nu l); [|apply Sinv_solve; assumption].
  apply rmv_ext; auto. intros. apply (innov_u nu Hnu); assumption.
Qed.

Lemma ekf_reject nu w :
  innovation_of (fb_state s) m nu -> veq n (rmv n (innovation_cov (fb_P s) m) w) nu ->
  m_thresh m * m_thresh m <= rdot n nu w -> ekf_correct eig s m = s.
Proof.
  intros Hnu Hw Hle. unfold ekf_correct. fold u. cbv zeta. rewrite (gate_model nu w Hnu Hw).
  apply Rleb_true in Hle. rewrite Hle. reflexivity.
Qed.

Lemma ekf_accept nu w :
  innovation_of (fb_state s) m nu -> veq n (rmv n (innovation_cov (fb_P s) m) w) nu ->
  rdot n nu w < m_thresh m * m_thresh m ->
  corrected_state (fb_state s) (fb_P s) m w (fb_state (ekf_correct eig s m)) /\
  corrected_cov (fb_P s) m (fb_P (ekf_correct eig s m)).
Proof.
  intros Hnu Hw Hlt. unfold ekf_correct. fold u. cbv zeta. rewrite (gate_model nu w Hnu Hw).
  apply Rleb_false in Hlt. rewrite Hlt. cbn [negb].
  cbn [fb_state fb_P wrapStateAngles set_state set_P].
  rewrite u_n_eq. split.
  - intros k Hk raw. unfold raw.
    assert (E : forall k, @vadd RScalar (fb_state s) (mvmul n (u_K u) (u_innov u)) k
                = fb_state s k + rsum n (fun a => fb_P s k (nth a (selected m) 0%nat) * w a)).
    { intros k0. unfold vadd. toR. f_equal.
      transitivity (rmv n (rmul 15 (fb_P s) (rT (u_H u))) w k0).
      - rewrite <- (gain_solve n (fb_P s) (u_H u) (u_R u) (u_Sinv u) Sinv_model w (u_innov u) k0).
        + rewrite u_K_eq. reflexivity.
        + intros l Hl. rewrite (innov_u nu Hnu l Hl). rewrite <- (Hw l Hl).
          apply rmv_ext; auto. intros. apply (S_entry m Hlen (fb_P s)); assumption.
      - unfold rmv. apply rsum_ext. intros a Ha.
        rewrite <- (pht_entry m Hlen (fb_P s) k0 a Ha). reflexivity. }
    rewrite wrap_angles_entry. rewrite E. split; intros Hang.
    + apply is_angle_true in Hang. rewrite Hang. apply normalize_angle_spec.
    + apply is_angle_false in Hang. rewrite Hang. reflexivity.
  - intros j y Hj Hy k Hk.
    pose proof (joseph_short n (fb_P s) (u_H u) (u_R u) (u_Sinv u) Sinv_model k j Hk Hj) as EJ.
    transitivity (fb_P s k j - rmul n (u_K u) (rmul 15 (u_H u) (fb_P s)) k j).
    { rewrite u_K_eq. exact EJ. }
    f_equal.
    pose proof (gain_solve n (fb_P s) (u_H u) (u_R u) (u_Sinv u) Sinv_model y
      (fun a => fb_P s (nth a (selected m) 0%nat) j) k) as EG.
    transitivity (rmv n (u_K u) (fun a => fb_P s (nth a (selected m) 0%nat) j) k).
    { unfold rmul, rmv. apply rsum_ext. intros a Ha. f_equal.
      apply (HP_entry m Hlen (fb_P s) a j Ha). }
    transitivity (rmv n (rmul 15 (fb_P s) (rT (u_H u))) y k).
    { rewrite <- EG.
      - rewrite u_K_eq. reflexivity.
      - intros l Hl. rewrite <- (Hy l Hl).
        apply rmv_ext; auto. intros. apply (S_entry m Hlen (fb_P s)); assumption. }
    unfold rmv. apply rsum_ext. intros a Ha.
    rewrite <- (pht_entry m Hlen (fb_P s) k a Ha). reflexivity.
Qed.

(** ** C12 *)
Lemma ekf_correct_shrinks :
  psd 15 (fb_P s) -> psd 15 (m_cov m) ->
  loewner_le 15 (fb_P (ekf_correct eig s m)) (fb_P s).
Proof.
  intros HP HR x. unfold ekf_correct. fold u. cbv zeta.
  destruct (checkMahalanobisThreshold _ _ _ _); [|apply Rle_refl].
  cbn [fb_P wrapStateAngles set_state set_P]. rewrite u_n_eq.
  rewrite (quad_ext 15 _ (fun i j => fb_P s i j - rmul n (u_K u) (rmul 15 (u_H u) (fb_P s)) i j)).
  2:{ intros i j Hi Hj.
      pose proof (joseph_short n (fb_P s) (u_H u) (u_R u) (u_Sinv u) Sinv_model i j Hi Hj) as EJ.
      rewrite u_K_eq. exact EJ. }
  rewrite quad_minus.
  rewrite u_K_eq.
  assert (HpsdS : psd n (fun i j => rmul 15 (u_H u) (rmul 15 (fb_P s) (rT (u_H u))) i j + u_R u i j)).
  { apply psd_plus.
    - rewrite <- rmul_assoc. apply psd_sandwich. assumption.
    - assert (Hg : good_meas m) by (split; assumption).
      pose proof (psd_cov_subset m Hg) as HC. rewrite (selected_update_indices m Hlen) in HC.
      unfold u, ekf_compute_update. cbn [u_R]. rewrite (selected_update_indices m Hlen). exact HC. }
  rewrite (reduction_quad n (fb_P s) (u_H u) (u_R u) (u_Sinv u) Sinv_model x); [|apply HP|apply HpsdS].
  pose proof (proj2 HpsdS (rmv n (u_Sinv u) (rmv 15 (rmul 15 (u_H u) (fb_P s)) x))). lra.
Qed.
End Gate.
