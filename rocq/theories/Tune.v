(** * Tuning covariances (C101) *)

From Coq Require Import Reals ZArith List Bool Arith Lra Lia.
From Verif Require Import Scalar Mat FilterBase FilterOps Ekf SpecLin SpecFilter SpecOrder SpecBest SpecTune RLin RBridge
  EkfPsd EkfFacts Angles EkfUpdate Pdef FilterExtra UkfUpdate Order OrderCases Best.
Import ListNotations.
Local Open Scope R_scope.

Section Tune.
Variable eig : Eigen RScalar.
Hypothesis Heig : eigen_inverse_ok eig.

Lemma correct_psd (s : ekf RScalar) m : psd 15 (fb_P s) -> noisy_meas m -> psd 15 (fb_P (ekf_correct eig s m)).
Proof.
  intros HP [Hlen Hr]. unfold ekf_correct. cbv zeta.
  destruct (checkMahalanobisThreshold _ _ _ _); [|exact HP].
  cbn [negb fb_P wrapStateAngles set_state set_P]. apply joseph_psd; [exact HP|].
  cbn [u_n u_R ekf_compute_update].
  apply (psd_ext (length (update_indices m)) (selected_noise m)).
  - intros i j Hi Hj. rewrite cov_subset_repaired by assumption.
    rewrite (selected_update_indices m Hlen). reflexivity.
  - rewrite (selected_update_indices m Hlen). apply pdef_psd. exact Hr.
Qed.

(** Along [x] the corrected covariance is below what any weight [g] of the
    measurement would give. *)
Lemma below_any (s : ekf RScalar) m (x g : rvec) : psd 15 (fb_P s) -> noisy_meas m ->
  passes_gate (fb_state s) (fb_P s) m ->
  quad 15 (fb_P (ekf_correct eig s m)) x <=
  quad 15 (fb_P s) (fun k => x k - at_selected m g k) + quad (length (selected m)) (selected_noise m) g.
Proof.
  intros HP [Hlen Hr] (nu & w0 & Hnu & Hw0 & Hg).
  set (n := length (selected m)) in *.
  assert (HSi : invertible n (innovation_cov (fb_P s) m)) by (apply innovation_invertible; assumption).
  destruct (ekf_accept eig Heig m Hlen s HSi nu w0 Hnu Hw0 Hg) as [_ Hcov].
  pose proof (pdef_psd _ _ Hr) as Hr'. destruct HSi as [Si HSi].
  set (w := rmv n Si (fun a => rmv 15 (fb_P s) x (nth a (selected m) 0%nat))).
  assert (Hw : veq n (rmv n (innovation_cov (fb_P s) m) w) (fun a => rmv 15 (fb_P s) x (nth a (selected m) 0%nat))).
  { intros a Ha. unfold w. rewrite <- rmv_mul.
    rewrite (rmv_ext n (rmul n (innovation_cov (fb_P s) m) Si) rI _ (fun a => rmv 15 (fb_P s) x (nth a (selected m) 0%nat)) a);
      [apply (rmv_I n (fun a => rmv 15 (fb_P s) x (nth a (selected m) 0%nat))); exact Ha| |auto].
    intros l Hl. apply HSi; assumption. }
  rewrite (cov_along m (fb_P s) _ HP (ex_intro _ Si HSi) Hcov x w Hw). fold n.
  rewrite (quad_sub 15 (fb_P s) x (at_selected m g) (proj1 HP)), at_dot. fold n.
  pose proof (S_sym m (fb_P s) HP Hr') as HS. fold n in HS.
  assert (E : 0 <= quad n (innovation_cov (fb_P s) m) (fun a => w a - g a)).
  { pose proof (quad_S m (fb_P s) (fun a => w a - g a)) as Eq. fold n in Eq. rewrite Eq.
    pose proof (proj2 HP (at_selected m (fun a => w a - g a))).
    pose proof (proj2 Hr' (fun a => w a - g a)). lra. }
  rewrite (quad_sub n (innovation_cov (fb_P s) m) w g HS) in E.
  pose proof (quad_S m (fb_P s) g) as Eq. fold n in Eq. rewrite Eq in E.
  rewrite (quad_dot n (innovation_cov (fb_P s) m) w) in E.
  rewrite (rdot_ext n w w _ (fun a => rmv 15 (fb_P s) x (nth a (selected m) 0%nat))) in E by (try exact Hw; intros a Ha; reflexivity).
  rewrite (rdot_ext n _ (fun a => rmv 15 (fb_P s) x (nth a (selected m) 0%nat)) g g) in E by (try exact Hw; intros a Ha; reflexivity).
  rewrite (rdot_comm n w) in E. lra.
Qed.

Lemma same_selected (a b : meas RScalar) : m_upd a = m_upd b -> selected a = selected b.
Proof. intros E. unfold selected. rewrite E. reflexivity. Qed.

Lemma same_at a b v k : selected a = selected b -> at_selected a v k = at_selected b v k.
Proof. intros E. unfold at_selected. rewrite E. reflexivity. Qed.

(** A smaller covariance and a less noisy measurement give a smaller one. *)
Lemma correct_mono (s t : ekf RScalar) a b :
  psd 15 (fb_P s) -> psd 15 (fb_P t) -> loewner_le 15 (fb_P s) (fb_P t) ->
  noisy_meas a -> noisy_meas b -> less_noisy a b ->
  passes_gate (fb_state s) (fb_P s) a -> passes_gate (fb_state t) (fb_P t) b ->
  loewner_le 15 (fb_P (ekf_correct eig s a)) (fb_P (ekf_correct eig t b)).
Proof.
  intros HPs HPt Hle Ha [Hlb Hrb] [Eu Hn] Hga (nu & w & Hnu & Hw & Hg) x.
  assert (HSi : invertible (length (selected b)) (innovation_cov (fb_P t) b)) by (apply innovation_invertible; assumption).
  destruct (ekf_accept eig Heig b Hlb t HSi nu w Hnu Hw Hg) as [_ Hcov]. destruct HSi as [Si HSi].
  rewrite (own_gain b (fb_P t) _ Si HPt (pdef_psd _ _ Hrb) HSi Hcov x). rewrite error_along. cbv zeta.
  set (g := rmv 15 (rT _) x).
  eapply Rle_trans; [apply (below_any s a x g HPs Ha Hga)|].
  pose proof (same_selected a b Eu) as Es. pose proof (Hn g) as Hng. rewrite Es in Hng. rewrite Es.
  apply Rplus_le_compat; [|exact Hng].
  rewrite (quad_ext_vec 15 (fb_P s) _ (fun k => x k - at_selected b g k)).
  - apply Hle.
  - intros k Hk. rewrite (same_at a b g k Es). reflexivity.
Qed.

Lemma sequence_mono ms ns : Forall2 less_noisy ms ns -> forall s t : ekf RScalar,
  Forall noisy_meas ms -> Forall noisy_meas ns ->
  psd 15 (fb_P s) -> psd 15 (fb_P t) -> loewner_le 15 (fb_P s) (fb_P t) ->
  all_accepted eig s ms -> all_accepted eig t ns ->
  loewner_le 15 (fb_P (correct_all eig ms s)) (fb_P (correct_all eig ns t)).
Proof.
  induction 1 as [|a b ms ns Hab _ IH]; intros s t Hm Hn HPs HPt Hle Hs Ht; [exact Hle|].
  inversion Hm; subst. inversion Hn; subst. destruct Hs as [Hs1 Hs2]. destruct Ht as [Ht1 Ht2].
  change (loewner_le 15 (fb_P (correct_all eig ms (ekf_correct eig s a))) (fb_P (correct_all eig ns (ekf_correct eig t b)))).
  apply IH; try assumption; try (apply correct_psd; assumption).
  apply correct_mono; assumption.
Qed.

(** Averaging. *)
Lemma quad_scaled n A c v : quad n A (fun k => c * v k) = c * c * quad n A v.
Proof.
  unfold quad. rewrite <- rsum_scal_l. apply rsum_ext. intros i Hi. rewrite <- rsum_scal_l. apply rsum_ext. intros; ring.
Qed.
Lemma at_scaled m c v k : at_selected m (fun a => c * v a) k = c * at_selected m v k.
Proof. unfold at_selected. rewrite <- rsum_scal_l. apply rsum_ext. intros; destruct (Nat.eqb _ _); ring. Qed.

Lemma average_step (a b N : R) : 0 < N -> a <= b / N ->
  (1 - / (N + 1)) * (1 - / (N + 1)) * a + / (N + 1) * / (N + 1) * b <= b / (N + 1).
Proof.
  intros HN Ha.
  assert (E : b / (N + 1) = (1 - / (N + 1)) * (1 - / (N + 1)) * (b / N) + / (N + 1) * / (N + 1) * b) by (field; lra).
  rewrite E. apply Rplus_le_compat_r. apply Rmult_le_compat_l; [apply Rle_0_sqr|exact Ha].
Qed.

Lemma averaged_one (s : ekf RScalar) m (g : rvec) : psd 15 (fb_P s) -> noisy_meas m ->
  passes_gate (fb_state s) (fb_P s) m ->
  quad 15 (fb_P (ekf_correct eig s m)) (at_selected m g) <= quad (length (selected m)) (selected_noise m) g.
Proof.
  intros HP Hm Hg. eapply Rle_trans; [apply (below_any s m (at_selected m g) g HP Hm Hg)|].
  rewrite (quad_ext_vec 15 (fb_P s) _ (fun k => 0 * 0)) by (intros k Hk; ring).
  rewrite (quad_scaled 15 (fb_P s) 0 (fun _ => 0)). lra.
Qed.

Lemma averaged_more (s : ekf RScalar) m (g : rvec) (N : R) : psd 15 (fb_P s) -> noisy_meas m ->
  passes_gate (fb_state s) (fb_P s) m -> 0 < N ->
  quad 15 (fb_P s) (at_selected m g) <= quad (length (selected m)) (selected_noise m) g / N ->
  quad 15 (fb_P (ekf_correct eig s m)) (at_selected m g) <= quad (length (selected m)) (selected_noise m) g / (N + 1).
Proof.
  intros HP Hm Hg HN Hq.
  eapply Rle_trans; [apply (below_any s m (at_selected m g) (fun a => / (N + 1) * g a) HP Hm Hg)|].
  rewrite (quad_ext_vec 15 (fb_P s) _ (fun k => (1 - / (N + 1)) * at_selected m g k))
    by (intros k Hk; rewrite at_scaled; ring).
  rewrite !quad_scaled. apply average_step; assumption.
Qed.

Lemma kind_along a m g : same_kind a m ->
  (forall k, at_selected m g k = at_selected a g k) /\
  quad (length (selected m)) (selected_noise m) g = quad (length (selected a)) (selected_noise a) g.
Proof.
  intros [Eu En]. pose proof (same_selected m a Eu) as Es. split; [intros; apply same_at; exact Es|].
  rewrite Es. apply quad_ext. exact En.
Qed.

Lemma averaged a ms : noisy_meas a -> forall (s : ekf RScalar) N g, psd 15 (fb_P s) -> 0 < N ->
  quad 15 (fb_P s) (at_selected a g) <= quad (length (selected a)) (selected_noise a) g / N ->
  Forall (same_kind a) ms -> Forall noisy_meas ms -> all_accepted eig s ms ->
  quad 15 (fb_P (correct_all eig ms s)) (at_selected a g) <=
  quad (length (selected a)) (selected_noise a) g / (N + INR (length ms)).
Proof.
  intros Ha. induction ms as [|m ms IH]; intros s N g HP HN Hq Hk Hn Hacc.
  - cbn [length INR]. rewrite Rplus_0_r. exact Hq.
  - inversion Hk as [|? ? Hkm Hks]; subst. inversion Hn as [|? ? Hnm Hns]; subst. destruct Hacc as [Hg Hacc].
    destruct (kind_along a m g Hkm) as [Ea Eq].
    assert (H1 : quad 15 (fb_P (ekf_correct eig s m)) (at_selected a g) <=
      quad (length (selected a)) (selected_noise a) g / (N + 1)).
    { rewrite <- Eq. rewrite (quad_ext_vec 15 _ (at_selected a g) (at_selected m g)) by (intros k _; symmetry; apply Ea).
      apply averaged_more; try assumption. rewrite Eq.
      rewrite (quad_ext_vec 15 _ (at_selected m g) (at_selected a g)) by (intros k _; apply Ea). exact Hq. }
    pose proof (IH (ekf_correct eig s m) (N + 1) g (correct_psd s m HP Hnm) ltac:(lra) H1 Hks Hns Hacc) as H2.
    change (correct_all eig (m :: ms) s) with (correct_all eig ms (ekf_correct eig s m)).
    cbn [length]. rewrite S_INR. replace (N + (INR (length ms) + 1)) with (N + 1 + INR (length ms)) by ring. exact H2.
Qed.

Lemma averaging (s : ekf RScalar) a ms (g : rvec) : psd 15 (fb_P s) -> noisy_meas a -> ms <> [] ->
  Forall (same_kind a) ms -> all_accepted eig s ms ->
  quad 15 (fb_P (correct_all eig ms s)) (at_selected a g) <=
  quad (length (selected a)) (selected_noise a) g / INR (length ms).
Proof.
  intros HP Ha Hne Hk Hacc.
  assert (Hn : Forall noisy_meas ms).
  { eapply Forall_impl; [|exact Hk]. intros m [Eu En]. destruct Ha as [Hl Hr]. split; [rewrite Eu; exact Hl|].
    rewrite (same_selected m a Eu). apply (pdef_ext _ _ (selected_noise a)); [exact En|exact Hr]. }
  destruct ms as [|m ms]; [congruence|].
  inversion Hk as [|? ? Hkm Hks]; subst. inversion Hn as [|? ? Hnm Hns]; subst. destruct Hacc as [Hg Hacc].
  destruct (kind_along a m g Hkm) as [Ea Eq].
  change (correct_all eig (m :: ms) s) with (correct_all eig ms (ekf_correct eig s m)).
  cbn [length]. rewrite S_INR. rewrite (Rplus_comm _ 1).
  apply averaged; try assumption; try lra; [apply correct_psd; assumption|].
  rewrite <- Eq. rewrite (quad_ext_vec 15 _ (at_selected a g) (at_selected m g)) by (intros k _; symmetry; apply Ea).
  unfold Rdiv. rewrite Rinv_1, Rmult_1_r. apply averaged_one; assumption.
Qed.

(** One variable: with equal variances, one n-th of the variance of a reading. *)
Lemma averaging_one (s : ekf RScalar) a ms i : psd 15 (fb_P s) -> noisy_meas a -> ms <> [] ->
  Forall (same_kind a) ms -> all_accepted eig s ms -> (i < 15)%nat -> nth i (m_upd a) false = true ->
  fb_P (correct_all eig ms s) i i <= repaired_cov a i i / INR (length ms).
Proof.
  intros HP Ha Hne Hk Hacc Hi Hs.
  destruct (selected_nth a i Hi Hs) as (l & Hl & El).
  pose proof (averaging s a ms (fun b => if Nat.eqb b l then 1 else 0) HP Ha Hne Hk Hacc) as H.
  assert (E1 : quad 15 (fb_P (correct_all eig ms s)) (at_selected a (fun b => if Nat.eqb b l then 1 else 0)) =
    fb_P (correct_all eig ms s) i i).
  { rewrite quad_dot. rewrite rdot_comm, at_dot. unfold rdot.
    rewrite (rsum_single _ l) by (first [exact Hl|intros k _ Hne'; destruct (Nat.eqb_spec k l); [contradiction|ring]]).
    rewrite Nat.eqb_refl, El. unfold rmv. rewrite (at_sum a (fb_P (correct_all eig ms s) i)).
    rewrite (rsum_single _ l) by (first [exact Hl|intros k _ Hne'; destruct (Nat.eqb_spec k l); [contradiction|ring]]).
    rewrite Nat.eqb_refl, El. ring. }
  assert (E2 : quad (length (selected a)) (selected_noise a) (fun b => if Nat.eqb b l then 1 else 0) = repaired_cov a i i).
  { unfold quad.
    rewrite (rsum_single _ l) by (first [exact Hl|intros k _ Hne'; apply rsum_zero; intros; destruct (Nat.eqb_spec k l); [contradiction|ring]]).
    rewrite (rsum_single _ l) by (first [exact Hl|intros k _ Hne'; destruct (Nat.eqb_spec k l); [contradiction|ring]]).
    rewrite Nat.eqb_refl. unfold selected_noise. rewrite El. ring. }
  rewrite E1, E2 in H. exact H.
Qed.
End Tune.

(** Predictions from the same state. *)
Lemma predict_mono (s : ekf RScalar) (P1 P2 Q1 Q2 : rmat) r d :
  loewner_le 15 P1 P2 -> loewner_le 15 Q1 Q2 -> fb_use_dyn s = false -> (0 <= d)%Z ->
  loewner_le 15
    (fb_P (ekf_predict (set_P (setProcessNoiseCovariance s (Q1 : mat RScalar)) (P1 : mat RScalar)) r d))
    (fb_P (ekf_predict (set_P (setProcessNoiseCovariance s (Q2 : mat RScalar)) (P2 : mat RScalar)) r d)).
Proof.
  intros HP HQ Hu Hd x.
  assert (E : forall P Q : rmat, quad 15 (fb_P (ekf_predict (set_P (setProcessNoiseCovariance s (Q : mat RScalar)) (P : mat RScalar)) r d)) x =
    quad 15 P (rmv 15 (rT (predict_J s d)) x) + IZR d / 1000000000 * quad 15 Q x).
  { intros P Q. rewrite predict_P.
    rewrite <- quad_scale, <- quad_sandwich, <- quad_plus. apply quad_ext. intros i j Hi Hj.
    unfold madd, mscale, noise_used. rewrite toSec_R.
    change (fb_use_dyn (set_P (setProcessNoiseCovariance s (Q : mat RScalar)) (P : mat RScalar))) with (fb_use_dyn s).
    rewrite Hu. reflexivity. }
  rewrite !E. apply Rplus_le_compat; [apply HP|]. apply Rmult_le_compat_l; [|apply HQ].
  apply IZR_le in Hd. lra.
Qed.

(** ** The gate *)
Lemma fix_less z r t z' r' t' : 1 <= r -> r <= r' -> less_noisy (x_fix z r t) (x_fix z' r' t').
Proof.
  intros H1 H2. split; [reflexivity|]. rewrite fix_selected. cbn [length]. intros x. unfold quad. cbn [rsum].
  unfold selected_noise. rewrite !fix_selected. cbn [nth]. rewrite !fix_noise by lra.
  pose proof (Rle_0_sqr (x 0%nat)) as Hx. unfold Rsqr in Hx.
  assert (E : forall q, 0 + (0 + x 0%nat * q * x 0%nat) = q * (x 0%nat * x 0%nat)) by (intros; ring).
  rewrite !E. apply Rmult_le_compat_r; assumption.
Qed.

Lemma noise_out eig : eigen_inverse_ok eig -> forall s : ekf RScalar, pdef 15 (fb_P s) ->
  fb_P s 0%nat 0%nat = 1 -> fb_state s 0%nat = 0 ->
  let a := x_fix 3 1 2 in let b := x_fix 3 3 2 in
  pdef 15 (fb_P s) /\ noisy_meas a /\ noisy_meas b /\ less_noisy a b /\
    m_thresh a = m_thresh b /\ (forall i, m_value a i = m_value b i) /\
    fb_P (ekf_correct eig s a) 0%nat 0%nat = 1 /\ fb_P (ekf_correct eig s b) 0%nat 0%nat = 3 / 4.
Proof.
  intros Heig s HP H1 H0 a b. split; [exact HP|].
  split; [destruct (fix_linear 3 1 2 ltac:(lra)) as (A & _ & B); split; assumption|].
  split; [destruct (fix_linear 3 3 2 ltac:(lra)) as (A & _ & B); split; assumption|].
  split; [apply fix_less; lra|]. split; [reflexivity|]. split; [reflexivity|]. split.
  - unfold a. rewrite (ekf_fix_out eig Heig s 3 1 2 1 0 ltac:(lra) ltac:(lra) H1 H0 ltac:(lra)). exact H1.
  - destruct (ekf_fix eig Heig s 3 3 2 1 0 ltac:(lra) ltac:(lra) H1 H0 ltac:(lra)) as [_ E]. unfold b. rewrite E. lra.
Qed.
