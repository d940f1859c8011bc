(** * Corrections as best estimates (C100) *)

From Coq Require Import Reals ZArith List Bool Arith Lra Lia Permutation.
From Verif Require Import Scalar Mat FilterBase FilterOps Ekf SpecLin SpecFilter SpecOrder SpecBest RLin RBridge
  EkfPsd Angles EkfUpdate Pdef FilterExtra UkfUpdate Order.
Import ListNotations.
Local Open Scope R_scope.

(** ** Quadratic forms *)

Lemma rdot_plus_l n u v w : rdot n (fun i => u i + v i) w = rdot n u w + rdot n v w.
Proof. unfold rdot. rewrite <- rsum_plus. apply rsum_ext. intros; ring. Qed.
Lemma rdot_plus_r n u v w : rdot n w (fun i => u i + v i) = rdot n w u + rdot n w v.
Proof. unfold rdot. rewrite <- rsum_plus. apply rsum_ext. intros; ring. Qed.
Lemma rdot_minus_r n u v w : rdot n w (fun i => u i - v i) = rdot n w u - rdot n w v.
Proof. unfold rdot. rewrite <- rsum_minus. apply rsum_ext. intros; ring. Qed.
Lemma rdot_minus_l n u v w : rdot n (fun i => u i - v i) w = rdot n u w - rdot n v w.
Proof. unfold rdot. rewrite <- rsum_minus. apply rsum_ext. intros; ring. Qed.
Lemma rdot_ext n u u' v v' : veq n u u' -> veq n v v' -> rdot n u v = rdot n u' v'.
Proof. intros H1 H2. apply rsum_ext. intros i Hi. rewrite (H1 i Hi), (H2 i Hi). reflexivity. Qed.

Lemma sym_mv n A u v : symmetric n A -> rdot n u (rmv n A v) = rdot n (rmv n A u) v.
Proof.
  intros H. rewrite rdot_mv. apply rdot_ext; [|intros i Hi; reflexivity].
  intros i Hi. apply rmv_ext; [|auto]. intros k Hk. unfold rT. apply H; assumption.
Qed.

Lemma quad_add n A u v : symmetric n A ->
  quad n A (fun i => u i + v i) = quad n A u + 2 * rdot n (rmv n A u) v + quad n A v.
Proof.
  intros H. rewrite !quad_dot. rewrite rdot_plus_l.
  rewrite (rdot_ext n u u _ (fun i => rmv n A u i + rmv n A v i)) by (intros i Hi; try reflexivity; apply mv_plus_v).
  rewrite (rdot_ext n v v _ (fun i => rmv n A u i + rmv n A v i)) by (intros i Hi; try reflexivity; apply mv_plus_v).
  rewrite !rdot_plus_r. rewrite (sym_mv n A u v H). rewrite (rdot_comm n v (rmv n A u)). ring.
Qed.

Lemma quad_sub n A u v : symmetric n A ->
  quad n A (fun i => u i - v i) = quad n A u - 2 * rdot n (rmv n A u) v + quad n A v.
Proof.
  intros H. rewrite !quad_dot. rewrite rdot_minus_l.
  rewrite (rdot_ext n u u _ (fun i => rmv n A u i - rmv n A v i)) by (intros i Hi; try reflexivity; apply mv_minus_v).
  rewrite (rdot_ext n v v _ (fun i => rmv n A u i - rmv n A v i)) by (intros i Hi; try reflexivity; apply mv_minus_v).
  rewrite !rdot_minus_r. rewrite (sym_mv n A u v H). rewrite (rdot_comm n v (rmv n A u)). ring.
Qed.

(** ** Least squares *)
Section Least.
Variables (m : meas RScalar) (P L W : rmat) (x z w : rvec).
Let n := length (selected m).
Let sel a := nth a (selected m) 0%nat.
Hypothesis HP : pdef 15 P.
Hypothesis Hr : pdef n (selected_noise m).
Hypothesis HL : is_inverse 15 P L.
Hypothesis HW : is_inverse n (selected_noise m) W.
Hypothesis Hw : veq n (rmv n (innovation_cov P m) w) (fun a => z a - x (sel a)).
Let y : rvec := fun k => x k + rsum n (fun a => P k (sel a) * w a).

Lemma L_step : veq 15 (rmv 15 L (fun k => y k - x k)) (at_selected m w).
Proof.
  intros k Hk. rewrite <- (Lam_P_at m P L HL w k Hk). apply rmv_ext; [auto|]. intros l Hl. unfold y.
  fold n. change (fun a => P l (nth a (selected m) 0%nat) * w a) with (fun a => P l (sel a) * w a). ring.
Qed.

Lemma rest_noise : veq n (fun a => z a - y (sel a)) (rmv n (selected_noise m) w).
Proof.
  intros a Ha.
  assert (E : z a - x (sel a) = rsum n (fun b => P (sel a) (sel b) * w b) + rmv n (selected_noise m) w a)
    by (etransitivity; [symmetry; exact (Hw a Ha)|exact (S_split m P w a)]).
  unfold y. lra.
Qed.

Lemma W_rest : veq n (rmv n W (fun a => z a - y (sel a))) w.
Proof.
  intros a Ha. rewrite <- (Ri_noise m W HW w a Ha). apply rmv_ext; [auto|]. exact rest_noise.
Qed.

Lemma misfit_best v : misfit x L m z W v = misfit x L m z W y +
  (quad 15 L (fun k => v k - y k) + quad n W (fun a => v (sel a) - y (sel a))).
Proof.
  destruct (inverse_pdef 15 P L HP HL) as [SL _]. destruct (inverse_pdef n _ W Hr HW) as [SW _].
  unfold misfit. fold n.
  rewrite (quad_ext_vec 15 L (fun k => v k - x k) (fun k => (y k - x k) + (v k - y k))) by (intros k Hk; ring).
  rewrite (quad_ext_vec n W (fun a => z a - v (nth a (selected m) 0%nat))
    (fun a => (z a - y (sel a)) - (v (sel a) - y (sel a)))) by (intros a Ha; unfold sel; ring).
  rewrite (quad_add 15 L (fun k => y k - x k) (fun k => v k - y k) SL).
  rewrite (quad_sub n W (fun a => z a - y (sel a)) (fun a => v (sel a) - y (sel a)) SW).
  assert (E : rdot 15 (rmv 15 L (fun k => y k - x k)) (fun k => v k - y k) =
    rdot n (rmv n W (fun a => z a - y (sel a))) (fun a => v (sel a) - y (sel a))).
  { rewrite (rdot_ext 15 _ (at_selected m w) _ (fun k => v k - y k) L_step) by (intros k Hk; reflexivity).
    rewrite (rdot_ext n _ w _ (fun a => v (sel a) - y (sel a)) W_rest) by (intros k Hk; reflexivity).
    rewrite rdot_comm, (rdot_comm n). exact (at_sum m (fun k => v k - y k) w). }
  rewrite E. change (fun a => z a - y (nth a (selected m) 0%nat)) with (fun a => z a - y (sel a)). ring.
Qed.

Lemma pdef_nonneg k A u : pdef k A -> 0 <= quad k A u.
Proof. intros H. apply (pdef_psd k A H). Qed.

Lemma misfit_least v : misfit x L m z W y <= misfit x L m z W v.
Proof.
  rewrite (misfit_best v).
  pose proof (pdef_nonneg 15 L (fun k => v k - y k) (inverse_pdef 15 P L HP HL)).
  pose proof (pdef_nonneg n W (fun a => v (sel a) - y (sel a)) (inverse_pdef n _ W Hr HW)). lra.
Qed.

Lemma misfit_only v : misfit x L m z W v <= misfit x L m z W y -> veq 15 v y.
Proof.
  rewrite (misfit_best v). intros H k Hk.
  pose proof (pdef_nonneg n W (fun a => v (sel a) - y (sel a)) (inverse_pdef n _ W Hr HW)) as H1.
  destruct (Req_dec (v k) (y k)) as [E|E]; [exact E|]. exfalso.
  assert (0 < quad 15 L (fun k => v k - y k)).
  { apply (inverse_pdef 15 P L HP HL). exists k. split; [exact Hk|]. intros E0. apply E. lra. }
  lra.
Qed.

(** The least misfit is what the gate looks at. *)
Lemma misfit_gate : misfit x L m z W y = rdot n (fun a => z a - x (sel a)) w.
Proof.
  unfold misfit. fold n. rewrite !quad_dot.
  rewrite (rdot_ext 15 (fun k => y k - x k) (fun k => y k - x k) _ (at_selected m w)) by (try exact L_step; intros k Hk; reflexivity).
  rewrite (rdot_ext n (fun a => z a - y (nth a (selected m) 0%nat)) (fun a => z a - y (sel a)) _ w)
    by (try exact W_rest; intros a Ha; reflexivity).
  unfold rdot at 1. rewrite (at_sum m (fun k => y k - x k) w). fold n.
  unfold rdot. rewrite <- rsum_plus. apply rsum_ext. intros a Ha.
  change (nth a (selected m) 0%nat) with (sel a). ring.
Qed.
End Least.

Lemma nearest_innovation x m z : nearest_reading x m z ->
  innovation_of x m (fun a => z a - x (nth a (selected m) 0%nat)).
Proof.
  intros H a Ha. destruct (H a Ha) as [A B]. cbv zeta. split; intros Hi.
  - destruct (A Hi) as [R1 [k E]]. split; [exact R1|]. exists k. rewrite E. ring.
  - rewrite (B Hi). reflexivity.
Qed.

Lemma least_squares eig : eigen_inverse_ok eig ->
  forall (s : ekf RScalar) (m : meas RScalar) (L W : rmat) (z : rvec),
  pdef 15 (fb_P s) -> length (m_upd m) = 15%nat -> pdef (length (selected m)) (selected_noise m) ->
  is_inverse 15 (fb_P s) L -> is_inverse (length (selected m)) (selected_noise m) W ->
  nearest_reading (fb_state s) m z ->
  let cost := misfit (fb_state s) L m z W in
  let s' := ekf_correct eig s m in
  ((exists v, cost v < m_thresh m * m_thresh m) ->
    exists y, same_up_to_turns y (fb_state s') /\
      (forall v, cost y <= cost v) /\ (forall v, cost v <= cost y -> veq 15 v y)) /\
  ((forall v, m_thresh m * m_thresh m <= cost v) -> s' = s).
Proof.
  intros Heig s m L W z HP Hlen Hr HL HW Hz cost s'.
  assert (HSi : invertible (length (selected m)) (innovation_cov (fb_P s) m))
    by (apply innovation_invertible; [apply pdef_psd; exact HP|exact Hlen|exact Hr]).
  pose proof (nearest_innovation _ _ _ Hz) as Hnu.
  destruct HSi as [Si HSi].
  set (w := rmv (length (selected m)) Si (fun a => z a - fb_state s (nth a (selected m) 0%nat))).
  assert (Hw : veq (length (selected m)) (rmv (length (selected m)) (innovation_cov (fb_P s) m) w)
    (fun a => z a - fb_state s (nth a (selected m) 0%nat))).
  { intros a Ha. unfold w. rewrite <- rmv_mul.
    rewrite (rmv_ext _ (rmul _ (innovation_cov (fb_P s) m) Si) rI _
      (fun a => z a - fb_state s (nth a (selected m) 0%nat)) a);
      [apply (rmv_I _ (fun a => z a - fb_state s (nth a (selected m) 0%nat))); exact Ha| |auto].
    intros l Hl. apply HSi; assumption. }
  pose proof (misfit_gate m (fb_P s) L W (fb_state s) z w HL HW Hw) as Eg.
  pose proof (misfit_least m (fb_P s) L W (fb_state s) z w HP Hr HL HW Hw) as Hleast.
  pose proof (misfit_only m (fb_P s) L W (fb_state s) z w HP Hr HL HW Hw) as Honly.
  set (y := fun k => fb_state s k + rsum (length (selected m)) (fun a => fb_P s k (nth a (selected m) 0%nat) * w a)) in *.
  split.
  - intros [v Hv]. pose proof (Hleast v) as Hl. unfold cost in Hv.
    destruct (ekf_accept eig Heig m Hlen s (ex_intro _ Si HSi) _ w Hnu Hw) as [Hst _].
    { rewrite <- Eg. eapply Rle_lt_trans; [exact Hl|exact Hv]. }
    exists y. split; [|split; [exact Hleast|exact Honly]].
    intros k Hk. destruct (Hst k Hk) as [S1 S2]. split; intros Hka.
    + destruct (S1 Hka) as [_ [t Et]]. exists t. exact Et.
    + exact (S2 Hka).
  - intros H. apply (ekf_reject eig Heig m Hlen s (ex_intro _ Si HSi) _ w Hnu Hw).
    rewrite <- Eg. apply H.
Qed.

(** ** The best gain *)
Section Gain.
Variables (m : meas RScalar) (P P' G : rmat).
Let n := length (selected m).
Let sel a := nth a (selected m) 0%nat.
Hypothesis HP : psd 15 P.
Hypothesis Hr : psd n (selected_noise m).
Hypothesis HS : invertible n (innovation_cov P m).
Hypothesis HP' : corrected_cov P m P'.

Lemma at_dot (u g : rvec) : rdot 15 u (at_selected m g) = rdot n (fun a => u (sel a)) g.
Proof. exact (at_sum m u g). Qed.

Lemma quad_at g : quad 15 P (at_selected m g) = quad n (fun a b => P (sel a) (sel b)) g.
Proof.
  rewrite !quad_dot. rewrite rdot_comm, at_dot. rewrite rdot_comm. apply rdot_ext; [intros i Hi; reflexivity|].
  intros a Ha. exact (at_sum m (P (sel a)) g).
Qed.

Lemma quad_S g : quad n (innovation_cov P m) g = quad 15 P (at_selected m g) + quad n (selected_noise m) g.
Proof. rewrite quad_at, <- quad_plus. reflexivity. Qed.

Lemma psd_sym k A : psd k A -> symmetric k A.
Proof. intros [H _]. exact H. Qed.

Lemma S_sym : symmetric n (innovation_cov P m).
Proof.
  intros a b Ha Hb. change (P (sel a) (sel b) + selected_noise m a b = P (sel b) (sel a) + selected_noise m b a).
  rewrite (proj1 HP (sel a) (sel b)) by (apply selected_lt; assumption). rewrite (proj1 Hr a b Ha Hb). reflexivity.
Qed.

(** The corrected covariance, seen along [x], is the one of the best weight. *)
Lemma cov_along (x w : rvec) :
  veq n (rmv n (innovation_cov P m) w) (fun a => rmv 15 P x (sel a)) ->
  quad 15 P' x = quad 15 P x - rdot n (fun a => rmv 15 P x (sel a)) w.
Proof.
  intros Hw. destruct HS as [Si HSi].
  set (y := fun j => rmv n Si (fun a => P (sel a) j)).
  assert (Hy : forall j, veq n (rmv n (innovation_cov P m) (y j)) (fun a => P (sel a) j)).
  { intros j a Ha. unfold y. rewrite <- rmv_mul.
    rewrite (rmv_ext n (rmul n (innovation_cov P m) Si) rI _ (fun a => P (sel a) j) a);
      [apply (rmv_I n (fun a => P (sel a) j)); exact Ha| |auto]. intros l Hl. apply HSi; assumption. }
  assert (Ew : veq n w (fun a => rsum 15 (fun j => y j a * x j))).
  { intros a Ha. rewrite (inverse_solve n _ Si w _ HSi Hw a Ha). unfold y, rmv.
    rewrite (rsum_ext n _ (fun l => rsum 15 (fun j => Si a l * P (sel l) j * x j))).
    2:{ intros l Hl. rewrite <- rsum_scal_l. apply rsum_ext. intros; ring. }
    rewrite rsum_swap. apply rsum_ext. intros j Hj. rewrite <- rsum_scal_r. apply rsum_ext. intros; ring. }
  rewrite (rdot_ext n _ (fun a => rmv 15 P x (sel a)) w _) by (try exact Ew; intros a Ha; reflexivity).
  assert (E : quad 15 P' x = quad 15 (fun l j => P l j - rsum n (fun a => P l (sel a) * y j a)) x).
  { apply quad_ext. intros l j Hl Hj. exact (HP' j (y j) Hj (Hy j) l Hl). }
  rewrite E, quad_minus. f_equal. unfold quad, rdot.
  rewrite (rsum_ext 15 _ (fun l => rsum n (fun a => x l * P l (sel a) * rsum 15 (fun j => y j a * x j)))).
  2:{ intros l Hl. rewrite (rsum_ext n _ (fun a => rsum 15 (fun j => x l * P l (sel a) * (y j a * x j))))
        by (intros; symmetry; apply rsum_scal_l).
      rewrite rsum_swap. apply rsum_ext. intros j Hj. rewrite <- rsum_scal_l, <- rsum_scal_r. apply rsum_ext. intros; ring. }
  rewrite rsum_swap. apply rsum_ext. intros a Ha. rewrite rsum_scal_r. f_equal. unfold rmv. apply rsum_ext.
  intros l Hl. rewrite (proj1 HP l (sel a) Hl) by (apply selected_lt; exact Ha). ring.
Qed.

Lemma error_along (x : rvec) : let g := rmv 15 (rT G) x in
  quad 15 (error_cov P m G) x = quad 15 P (fun k => x k - at_selected m g k) + quad n (selected_noise m) g.
Proof.
  intros g. unfold error_cov. cbv zeta. fold n. rewrite quad_plus, !quad_sandwich. f_equal.
  apply quad_ext_vec. intros k Hk. unfold rmv, rT.
  rewrite (rsum_ext 15 _ (fun l => rI l k * x l - at_selected m (fun a => G l a) k * x l)) by (intros; ring).
  rewrite rsum_minus. f_equal.
  - rewrite (rsum_single 15 k); [unfold rI; rewrite Nat.eqb_refl; ring|exact Hk|].
    intros l Hl Hne. unfold rI. destruct (Nat.eqb_spec l k); [contradiction|ring].
  - unfold at_selected. fold n.
    rewrite (rsum_ext 15 _ (fun l => rsum n (fun a => (if Nat.eqb k (nth a (selected m) 0%nat) then G l a else 0) * x l)))
      by (intros; symmetry; apply rsum_scal_r).
    rewrite rsum_swap. apply rsum_ext. intros a Ha. destruct (Nat.eqb _ _).
    + reflexivity.
    + apply rsum_zero. intros; ring.
Qed.

Lemma best_gain : loewner_le 15 P' (error_cov P m G).
Proof.
  intros x. rewrite error_along. cbv zeta. set (g := rmv 15 (rT G) x).
  pose proof HS as [Si HSi].
  set (w := rmv n Si (fun a => rmv 15 P x (sel a))).
  assert (Hw : veq n (rmv n (innovation_cov P m) w) (fun a => rmv 15 P x (sel a))).
  { intros a Ha. unfold w. rewrite <- rmv_mul.
    rewrite (rmv_ext n (rmul n (innovation_cov P m) Si) rI _ (fun a => rmv 15 P x (sel a)) a);
      [apply (rmv_I n (fun a => rmv 15 P x (sel a))); exact Ha| |auto]. intros l Hl. apply HSi; assumption. }
  rewrite (cov_along x w Hw).
  rewrite (quad_sub 15 P x (at_selected m g) (proj1 HP)), at_dot.
  assert (E : 0 <= quad n (innovation_cov P m) (fun a => w a - g a)).
  { rewrite quad_S. pose proof (proj2 HP (at_selected m (fun a => w a - g a))).
    pose proof (proj2 Hr (fun a => w a - g a)). lra. }
  rewrite (quad_sub n (innovation_cov P m) w g S_sym) in E. rewrite (quad_S g) in E.
  rewrite (quad_dot n (innovation_cov P m) w) in E.
  rewrite (rdot_ext n w w _ (fun a => rmv 15 P x (sel a))) in E by (try exact Hw; intros a Ha; reflexivity).
  rewrite (rdot_ext n _ (fun a => rmv 15 P x (sel a)) g g) in E by (try exact Hw; intros a Ha; reflexivity).
  rewrite (rdot_comm n w) in E. lra.
Qed.
End Gain.

(** The gain of the filter: P H' S^-1. *)
Lemma own_gain (m : meas RScalar) (P P' Si : rmat) : psd 15 P -> psd (length (selected m)) (selected_noise m) ->
  is_inverse (length (selected m)) (innovation_cov P m) Si -> corrected_cov P m P' ->
  let G : rmat := fun k a => rsum (length (selected m)) (fun b => P k (nth b (selected m) 0%nat) * Si b a) in
  forall x, quad 15 P' x = quad 15 (error_cov P m G) x.
Proof.
  intros HP Hr HSi HP' G x. set (n := length (selected m)) in *.
  set (w := rmv n Si (fun a => rmv 15 P x (nth a (selected m) 0%nat))).
  assert (Hw : veq n (rmv n (innovation_cov P m) w) (fun a => rmv 15 P x (nth a (selected m) 0%nat))).
  { intros a Ha. unfold w. rewrite <- rmv_mul.
    rewrite (rmv_ext n (rmul n (innovation_cov P m) Si) rI _ (fun a => rmv 15 P x (nth a (selected m) 0%nat)) a);
      [apply (rmv_I n (fun a => rmv 15 P x (nth a (selected m) 0%nat))); exact Ha| |auto]. intros l Hl. apply HSi; assumption. }
  assert (SSi : symmetric n Si).
  { intros a b Ha Hb. change (Si a b = rT Si a b). symmetry.
    apply (inverse_unique n _ Si (rT Si) HSi); try assumption.
    intros c d Hc Hd. transitivity (rmul n Si (innovation_cov P m) d c).
    - unfold rmul, rT. apply rsum_ext. intros l Hl. rewrite (S_sym m P HP Hr c l Hc Hl). ring.
    - rewrite (proj2 (HSi d c Hd Hc)). unfold rI. rewrite Nat.eqb_sym. reflexivity. }
  assert (Eg : veq n (rmv 15 (rT G) x) w).
  { intros a Ha. unfold w, G, rmv, rT.
    rewrite (rsum_ext 15 _ (fun l => rsum n (fun b => P l (nth b (selected m) 0%nat) * Si b a * x l)))
      by (intros; symmetry; apply rsum_scal_r).
    rewrite rsum_swap. apply rsum_ext. intros b Hb. rewrite <- rsum_scal_l. apply rsum_ext. intros l Hl.
    rewrite (SSi b a Hb Ha). rewrite (proj1 HP l) by (try exact Hl; apply selected_lt; exact Hb). ring. }
  rewrite (cov_along m P P' HP (ex_intro _ Si HSi) HP' x w Hw). rewrite error_along. cbv zeta. fold n.
  rewrite (quad_ext_vec 15 P (fun k => x k - at_selected m (rmv 15 (rT G) x) k) (fun k => x k - at_selected m w k)).
  2:{ intros k Hk. f_equal. apply at_ext. exact Eg. }
  rewrite (quad_ext_vec n (selected_noise m) _ w Eg).
  rewrite (quad_sub 15 P x (at_selected m w) (proj1 HP)), at_dot. fold n.
  pose proof (quad_S m P w) as E. fold n in E. rewrite (quad_dot n (innovation_cov P m) w) in E.
  rewrite (rdot_ext n w w _ (fun a => rmv 15 P x (nth a (selected m) 0%nat))) in E by (try exact Hw; intros a Ha; reflexivity).
  rewrite (rdot_comm n w) in E. lra.
Qed.

Lemma optimal_gain eig : eigen_inverse_ok eig ->
  forall (s : ekf RScalar) (m : meas RScalar),
  psd 15 (fb_P s) -> length (m_upd m) = 15%nat -> pdef (length (selected m)) (selected_noise m) ->
  passes_gate (fb_state s) (fb_P s) m ->
  let s' := ekf_correct eig s m in
  (exists G nu, innovation_of (fb_state s) m nu /\
    same_up_to_turns (fun k => fb_state s k + rmv (length (selected m)) G nu k) (fb_state s') /\
    forall x, quad 15 (fb_P s') x = quad 15 (error_cov (fb_P s) m G) x) /\
  forall G, loewner_le 15 (fb_P s') (error_cov (fb_P s) m G).
Proof.
  intros Heig s m HP Hlen Hr (nu & w & Hnu & Hw & Hg) s'.
  assert (HSi : invertible (length (selected m)) (innovation_cov (fb_P s) m))
    by (apply innovation_invertible; assumption).
  destruct (ekf_accept eig Heig m Hlen s HSi nu w Hnu Hw Hg) as [Hst Hcov].
  pose proof (pdef_psd _ _ Hr) as Hr'. split.
  - destruct HSi as [Si HSi].
    exists (fun k a => rsum (length (selected m)) (fun b => fb_P s k (nth b (selected m) 0%nat) * Si b a)), nu.
    split; [exact Hnu|]. split; [|exact (own_gain m (fb_P s) _ Si HP Hr' HSi Hcov)].
    intros k Hk. destruct (Hst k Hk) as [S1 S2].
    assert (E : rmv (length (selected m)) (fun k a => rsum (length (selected m)) (fun b => fb_P s k (nth b (selected m) 0%nat) * Si b a)) nu k
      = rsum (length (selected m)) (fun a => fb_P s k (nth a (selected m) 0%nat) * w a)).
    { unfold rmv. rewrite (rsum_ext _ _ (fun a => rsum (length (selected m)) (fun b => fb_P s k (nth b (selected m) 0%nat) * (Si b a * nu a)))).
      2:{ intros a Ha. rewrite <- rsum_scal_r. apply rsum_ext. intros; ring. }
      rewrite rsum_swap. apply rsum_ext. intros b Hb. rewrite rsum_scal_l. f_equal.
      symmetry. exact (inverse_solve _ _ Si w nu HSi Hw b Hb). }
    rewrite E. split; intros Hka.
    + destruct (S1 Hka) as [_ [t Et]]. exists t. exact Et.
    + exact (S2 Hka).
  - intros G. apply best_gain; assumption.
Qed.

(** ** Parts *)

Lemma selected_iff (m : meas RScalar) i : In i (selected m) <-> (i < 15)%nat /\ selects m i.
Proof.
  unfold selected, selects. rewrite filter_In, in_seq. split; intros [A B]; (split; [lia|exact B]).
Qed.

Lemma selected_nth (m : meas RScalar) i : (i < 15)%nat -> selects m i ->
  exists a, (a < length (selected m))%nat /\ nth a (selected m) 0%nat = i.
Proof. intros Hi Hs. apply In_nth. apply selected_iff. auto. Qed.

Lemma selected_selects (m : meas RScalar) a : (a < length (selected m))%nat -> selects m (nth a (selected m) 0%nat).
Proof. intros Ha. apply selected_iff. apply nth_In. exact Ha. Qed.

Lemma selected_inj (m : meas RScalar) a b : (a < length (selected m))%nat -> (b < length (selected m))%nat ->
  nth a (selected m) 0%nat = nth b (selected m) 0%nat -> a = b.
Proof.
  intros Ha Hb E. assert (Hn : NoDup (selected m)) by (apply NoDup_filter, seq_NoDup).
  rewrite (NoDup_nth (selected m) 0%nat) in Hn. apply Hn; assumption.
Qed.

Lemma at_here (m : meas RScalar) v a : (a < length (selected m))%nat ->
  at_selected m v (nth a (selected m) 0%nat) = v a.
Proof.
  intros Ha. unfold at_selected. rewrite (rsum_single _ a).
  - rewrite Nat.eqb_refl. reflexivity.
  - exact Ha.
  - intros b Hb Hne. destruct (Nat.eqb_spec (nth a (selected m) 0%nat) (nth b (selected m) 0%nat)) as [E|E]; [|reflexivity].
    exfalso. apply Hne. symmetry. exact (selected_inj m a b Ha Hb E).
Qed.

Lemma at_else (m : meas RScalar) v i : ~ selects m i -> at_selected m v i = 0.
Proof.
  intros H. apply rsum_zero. intros a Ha.
  destruct (Nat.eqb_spec i (nth a (selected m) 0%nat)) as [->|E]; [|reflexivity].
  exfalso. apply H. apply selected_selects. exact Ha.
Qed.

Lemma info_here m W a b : (a < length (selected m))%nat -> (b < length (selected m))%nat ->
  information_of m W (nth a (selected m) 0%nat) (nth b (selected m) 0%nat) = W a b.
Proof. intros Ha Hb. unfold information_of. rewrite (at_here m _ a Ha). rewrite (at_here m _ b Hb). reflexivity. Qed.

Lemma info_else_l m W i j : ~ selects m i -> information_of m W i j = 0.
Proof. intros H. unfold information_of. apply at_else. exact H. Qed.

Lemma info_else_r m W i j : ~ selects m j -> information_of m W i j = 0.
Proof.
  intros H. unfold information_of. unfold at_selected at 1. apply rsum_zero. intros a Ha.
  rewrite (at_else m _ j H). destruct (Nat.eqb _ _); reflexivity.
Qed.

Lemma selects_dec (m : meas RScalar) i : {selects m i} + {~ selects m i}.
Proof. unfold selects. destruct (nth i (m_upd m) false); [left; reflexivity|right; discriminate]. Qed.

(** A sum over the selected variables of something that vanishes elsewhere. *)
Lemma sum_selected (m : meas RScalar) (f : rvec) : (forall i, (i < 15)%nat -> ~ selects m i -> f i = 0) ->
  rsum (length (selected m)) (fun a => f (nth a (selected m) 0%nat)) = rsum 15 f.
Proof.
  intros H. transitivity (rsum 15 (fun k => f k * at_selected m (fun _ => 1) k)).
  - rewrite (at_sum m f (fun _ => 1)). apply rsum_ext. intros; ring.
  - apply rsum_ext. intros k Hk. destruct (selects_dec m k) as [Hs|Hs].
    + destruct (selected_nth m k Hk Hs) as (a & Ha & <-). rewrite at_here by exact Ha. ring.
    + rewrite (H k Hk Hs). ring.
Qed.

Section Parts.
Variables (p q m : meas RScalar).
Hypothesis Hpq : put_together p q m.

Lemma together_sym : put_together q p m.
Proof.
  intros i Hi. destruct (Hpq i Hi) as (A & B & C & D & E).
  split; [rewrite A; tauto|]. split; [tauto|]. split; [exact D|]. split; [exact C|].
  intros j Hj. destruct (E j Hj) as (E1 & E2 & E3). split; [exact E2|]. split; [exact E1|].
  intros Hq Hp. destruct (Hpq j Hj) as (_ & _ & _ & _ & F). destruct (F i Hi) as (_ & _ & F3).
  destruct (F3 Hp Hq). split; assumption.
Qed.
End Parts.

Lemma part_cov p q m : put_together p q m -> forall i j, (i < 15)%nat -> (j < 15)%nat -> selects p i -> selects p j ->
  repaired_cov p i j = repaired_cov m i j.
Proof.
  intros H i j Hi Hj Si Sj. unfold repaired_cov. destruct (Nat.eqb_spec i j) as [->|].
  - destruct (H j Hj) as (_ & _ & _ & _ & E). destruct (E j Hj) as (E1 & _). rewrite E1 by assumption. reflexivity.
  - destruct (H i Hi) as (_ & _ & _ & _ & E). destruct (E j Hj) as (E1 & _). apply E1; assumption.
Qed.

Lemma cross_cov p q m : put_together p q m -> forall i j, (i < 15)%nat -> (j < 15)%nat -> selects p i -> selects q j ->
  repaired_cov m i j = 0 /\ repaired_cov m j i = 0.
Proof.
  intros H i j Hi Hj Si Sj. unfold repaired_cov.
  destruct (Nat.eqb_spec i j) as [->|]; [exfalso; destruct (H j Hj) as (_ & A & _); tauto|].
  destruct (Nat.eqb_spec j i) as [->|]; [congruence|].
  destruct (H i Hi) as (_ & _ & _ & _ & E). destruct (E j Hj) as (_ & _ & E3). apply E3; assumption.
Qed.

(** The noise of [m] times the weight of one part. *)
Lemma part_weight p q m Wp : put_together p q m ->
  is_inverse (length (selected p)) (selected_noise p) Wp ->
  forall i j, (i < 15)%nat -> (j < 15)%nat -> selects m i ->
  rsum 15 (fun k => repaired_cov m i k * information_of p Wp k j) = (if selects_dec p i then if Nat.eqb i j then 1 else 0 else 0).
Proof.
  intros H HW i j Hi Hj Hm.
  rewrite <- (sum_selected p (fun k => repaired_cov m i k * information_of p Wp k j)).
  2:{ intros k Hk Hs. rewrite (info_else_l p Wp k j Hs). ring. }
  destruct (selects_dec p i) as [Hp|Hp].
  - destruct (selected_nth p i Hi Hp) as (a & Ha & Ea).
    destruct (selects_dec p j) as [Hpj|Hpj].
    + destruct (selected_nth p j Hj Hpj) as (b & Hb & Eb). rewrite <- Ea, <- Eb.
      transitivity (rmul (length (selected p)) (selected_noise p) Wp a b).
      * unfold rmul. apply rsum_ext. intros c Hc. rewrite info_here by assumption. f_equal. symmetry.
        unfold selected_noise. apply (part_cov p q m H); try apply selected_lt; try apply selected_selects; assumption.
      * rewrite (proj1 (HW a b Ha Hb)). unfold rI. destruct (Nat.eqb_spec a b) as [->|Hne].
        -- rewrite Nat.eqb_refl. reflexivity.
        -- destruct (Nat.eqb_spec (nth a (selected p) 0%nat) (nth b (selected p) 0%nat)) as [E|]; [|reflexivity].
           exfalso. apply Hne. apply (selected_inj p); assumption.
    + rewrite rsum_zero; [|intros c Hc; rewrite (info_else_r p Wp _ j Hpj); ring].
      destruct (Nat.eqb_spec i j) as [->|]; [contradiction|reflexivity].
  - apply rsum_zero. intros c Hc.
    assert (Hq : selects q i) by (destruct (H i Hi) as (A & _); apply A in Hm; tauto).
    rewrite (proj2 (cross_cov p q m H (nth c (selected p) 0%nat) i
      (selected_lt p c Hc) Hi (selected_selects p c Hc) Hq)). ring.
Qed.

Section Together.
Variables (p q m : meas RScalar) (Wp Wq : rmat).
Hypothesis H : put_together p q m.
Hypothesis HWp : is_inverse (length (selected p)) (selected_noise p) Wp.
Hypothesis HWq : is_inverse (length (selected q)) (selected_noise q) Wq.
Let J : rmat := fun i j => information_of p Wp i j + information_of q Wq i j.
Let W : rmat := fun a b => J (nth a (selected m) 0%nat) (nth b (selected m) 0%nat).

Lemma not_m i : (i < 15)%nat -> ~ selects m i -> ~ selects p i /\ ~ selects q i.
Proof. intros Hi Hn. destruct (H i Hi) as (A & _). tauto. Qed.

Lemma J_else_l i j : (i < 15)%nat -> ~ selects m i -> J i j = 0.
Proof. intros Hi Hn. destruct (not_m i Hi Hn). unfold J. rewrite !info_else_l by assumption. ring. Qed.
Lemma J_else_r i j : (j < 15)%nat -> ~ selects m j -> J i j = 0.
Proof. intros Hi Hn. destruct (not_m j Hi Hn). unfold J. rewrite !info_else_r by assumption. ring. Qed.

Lemma info_together i j : (i < 15)%nat -> (j < 15)%nat -> information_of m W i j = J i j.
Proof.
  intros Hi Hj. destruct (selects_dec m i) as [Si|Si].
  - destruct (selects_dec m j) as [Sj|Sj].
    + destruct (selected_nth m i Hi Si) as (a & Ha & <-). destruct (selected_nth m j Hj Sj) as (b & Hb & <-).
      rewrite info_here by assumption. reflexivity.
    + rewrite info_else_r by exact Sj. symmetry. apply J_else_r; assumption.
  - rewrite info_else_l by exact Si. symmetry. apply J_else_l; assumption.
Qed.

Lemma weight_right : meq (length (selected m)) (length (selected m)) (rmul (length (selected m)) (selected_noise m) W) rI.
Proof.
  intros a c Ha Hc. unfold rmul, selected_noise, W.
  set (i := nth a (selected m) 0%nat). set (j := nth c (selected m) 0%nat).
  assert (Hi : (i < 15)%nat) by (apply selected_lt; exact Ha).
  assert (Hj : (j < 15)%nat) by (apply selected_lt; exact Hc).
  assert (Si : selects m i) by (apply selected_selects; exact Ha).
  transitivity (rsum 15 (fun k => repaired_cov m i k * J k j)).
  { apply (sum_selected m (fun k => repaired_cov m i k * J k j)).
    intros k Hk Hs. rewrite (J_else_l k j Hk Hs). ring. }
  unfold J. rewrite (rsum_ext 15 _ (fun k => repaired_cov m i k * information_of p Wp k j +
    repaired_cov m i k * information_of q Wq k j)) by (intros; ring).
  rewrite rsum_plus, (part_weight p q m Wp H HWp i j Hi Hj Si),
    (part_weight q p m Wq (together_sym p q m H) HWq i j Hi Hj Si).
  destruct (H i Hi) as (A & B & _).
  assert (E : rI a c = if Nat.eqb i j then 1 else 0).
  { unfold rI. destruct (Nat.eqb_spec a c) as [->|Hne].
    - unfold i, j. rewrite Nat.eqb_refl. reflexivity.
    - destruct (Nat.eqb_spec i j) as [E|]; [|reflexivity]. exfalso. apply Hne. apply (selected_inj m); assumption. }
  rewrite E. destruct (selects_dec p i) as [Sp|Sp]; destruct (selects_dec q i) as [Sq|Sq].
  - exfalso; tauto.
  - ring.
  - ring.
  - exfalso; tauto.
Qed.

Lemma weight_together : pdef (length (selected m)) (selected_noise m) ->
  is_inverse (length (selected m)) (selected_noise m) W.
Proof.
  intros Hp. destruct (pdef_invertible _ _ Hp) as [Q HQ].
  pose proof (inverse_unique _ _ Q W HQ weight_right) as E.
  intros a b Ha Hb. split; [apply weight_right; assumption|].
  rewrite (rmul_ext _ W Q _ (selected_noise m) a b); [apply HQ; assumption| |auto].
  intros l Hl. apply E; assumption.
Qed.

Lemma J_vec (v : rvec) k : (k < 15)%nat ->
  at_selected m (rmv (length (selected m)) W (fun a => v (nth a (selected m) 0%nat))) k =
  at_selected p (rmv (length (selected p)) Wp (fun a => v (nth a (selected p) 0%nat))) k +
  at_selected q (rmv (length (selected q)) Wq (fun a => v (nth a (selected q) 0%nat))) k.
Proof.
  intros Hk. rewrite <- (J_mv m W v k), <- (J_mv p Wp v k), <- (J_mv q Wq v k). rewrite <- mv_plus.
  apply rmv_ext; [|auto]. intros l Hl. apply info_together; assumption.
Qed.
End Together.

(** Two filters that carry the same information show the same estimate. *)
Lemma carries_same (s t : ekf RScalar) L h L' h' :
  carries s L h -> carries t L' h' -> meq 15 15 L L' -> veq 15 h h' ->
  (forall k, angular k -> - PI < fb_state s k <= PI) -> (forall k, angular k -> - PI < fb_state t k <= PI) ->
  meq 15 15 (fb_P s) (fb_P t) /\ veq 15 (fb_state s) (fb_state t).
Proof.
  intros (A & B & y & C & D) (A' & B' & y' & C' & D') EL Eh F F'.
  assert (B2 : is_inverse 15 L (fb_P t)).
  { apply inverse_swap. intros i j Hi Hj. destruct (B' i j Hi Hj) as [B1 B2]. split.
    - rewrite <- B1. apply rmul_ext; [auto|]. intros; apply EL; assumption.
    - rewrite <- B2. apply rmul_ext; [|auto]. intros; apply EL; assumption. }
  assert (EP : meq 15 15 (fb_P s) (fb_P t)).
  { apply (inverse_unique 15 _ _ _ B2). intros i j Hi Hj. apply B; assumption. }
  split; [exact EP|].
  assert (Ey : veq 15 y y').
  { intros k Hk.
    rewrite (inverse_solve 15 _ _ y _ (inverse_swap _ _ _ B) D k Hk).
    rewrite (inverse_solve 15 _ _ y' _ (inverse_swap _ _ _ B') D' k Hk).
    apply rmv_ext; [intros; apply EP; assumption|]. exact Eh. }
  intros k Hk. destruct (C k Hk) as [C1 C2]. destruct (C' k Hk) as [C1' C2'].
  destruct (is_angle k) eqn:Ek.
  - apply is_angle_true in Ek. destruct (C1 Ek) as [z Ez]. destruct (C1' Ek) as [z' Ez'].
    apply (wrapped_unique (y k)).
    + split; [apply F; exact Ek|]. exists z. rewrite Ez. ring.
    + split; [apply F'; exact Ek|]. exists z'. rewrite Ez', (Ey k Hk). ring.
  - apply is_angle_false in Ek. rewrite (C2 Ek), (C2' Ek), (Ey k Hk). reflexivity.
Qed.

Lemma parts_same eig : eigen_inverse_ok eig ->
  forall (s : ekf RScalar) (p q m : meas RScalar), pdef 15 (fb_P s) ->
  linear_meas p -> linear_meas q -> linear_meas m -> put_together p q m ->
  passes_gate (fb_state s) (fb_P s) m -> all_accepted eig s [p; q] ->
  let once := ekf_correct eig s m in
  let twice := ekf_correct eig (ekf_correct eig s p) q in
  meq 15 15 (fb_P once) (fb_P twice) /\ veq 15 (fb_state once) (fb_state twice).
Proof.
  intros Heig s p q m HP Hp Hq Hm Hpq Hg (Hgp & Hgq & _) once twice.
  destruct (pdef_invertible 15 _ HP) as [L HL].
  assert (Hc : carries s L (rmv 15 L (fb_state s))).
  { split; [apply (inverse_pdef 15 (fb_P s)); assumption|]. split; [exact HL|].
    exists (fb_state s). split; [|intros k Hk; reflexivity].
    intros k Hk. split; [intros _; exists 0%Z; rewrite Rmult_0_l, Rplus_0_r; reflexivity|reflexivity]. }
  destruct (pdef_invertible _ _ (proj2 (proj2 Hp))) as [Wp HWp].
  destruct (pdef_invertible _ _ (proj2 (proj2 Hq))) as [Wq HWq].
  pose proof (weight_together p q m Wp Wq Hpq HWp HWq (proj2 (proj2 Hm))) as HW.
  destruct (step_information eig Heig s m _ L _ Hc Hm HW Hg) as [C1 R1].
  destruct (step_information eig Heig s p Wp L _ Hc Hp HWp Hgp) as [C2 _].
  destruct (step_information eig Heig _ q Wq _ _ C2 Hq HWq Hgq) as [C3 R3].
  refine (carries_same _ _ _ _ _ _ C1 C3 _ _ R1 R3).
  - intros i j Hi Hj. cbv beta. rewrite (info_together p q m Wp Wq Hpq i j Hi Hj). ring.
  - intros k Hk. cbv beta. rewrite (J_vec p q m Wp Wq Hpq (m_value m) k Hk). rewrite Rplus_assoc. f_equal. f_equal.
    + apply at_ext. intros a Ha. apply rmv_ext; [auto|]. intros b Hb. symmetry.
      destruct (Hpq _ (selected_lt p b Hb)) as (_ & _ & V & _). apply V. apply selected_selects. exact Hb.
    + apply at_ext. intros a Ha. apply rmv_ext; [auto|]. intros b Hb. symmetry.
      destruct (Hpq _ (selected_lt q b Hb)) as (_ & _ & _ & V & _). apply V. apply selected_selects. exact Hb.
Qed.
