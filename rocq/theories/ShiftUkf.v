(** * The UKF does not depend on the choice of the origin (C96) *)

From Coq Require Import Reals ZArith List Bool Lia Lra String Arith FunctionalExtensionality.
From Verif Require Import Scalar Mat FilterBase FilterOps Ekf Ukf StrMap Tf RosFilter RosConfig RosPrepare SpecLin SpecPrepare SpecNode SpecShift
  RLin RBridge Motion NodeProofs NodeInv NodeSmooth NodeMore NodeSim UkfProofs ShiftFilter ShiftNode.
Import ListNotations.
Local Open Scope R_scope.

Section Ukf.
Variable eig : Eigen RScalar.
Variable d : vec3 RScalar.
Local Notation ax := (along_axis d).

Definition moved_points (sg sg' : nat -> vec RScalar) : Prop := forall i, moved_vec d (sg i) (sg' i).

Definition moved_ext (e e' : ukf_ext RScalar) : Prop :=
  exists sg, e' = ext_set_sigma e sg (u_sqrt e) /\
    (moved_points (u_sigma e) sg \/ (forall i k, u_sigma e i k = 0) /\ sg = u_sigma e).

Definition sums_to_one (e : ukf_ext RScalar) : Prop := rsum 31 (u_sw e) = 1.

Definition Ru (f f' : ukf RScalar) : Prop :=
  (exists x p e, f' = set_ext (set_predicted (set_state f x) p) e /\ moved_ext (fb_ext f) e /\
    forall k, fb_initialized f = true \/ ax k = 0 -> x k = fb_state f k + ax k) /\
  F_ok (fb_F f) /\ sums_to_one (fb_ext f).

Lemma Ru_moved f f' : Ru f f' -> moved_filter d f f'.
Proof. intros ((x & p & e & -> & _ & H) & _). exists x, p, e. split; [reflexivity|exact H]. Qed.

(** ** Sigma points *)
Lemma points_of_moved x x' L : moved_vec d x x' -> moved_points (sigma_points_of x L) (sigma_points_of x' L).
Proof.
  intros H i k. unfold sigma_points_of. rewrite (H k). toR. destruct (Nat.eqb i 0); [reflexivity|]. destruct (Nat.leb i 15); ring.
Qed.

Lemma project_all_moved n : forall (F : mat RScalar) sg sg' dt, F_ok F -> moved_points sg sg' ->
  fst (project_all n F sg' dt) = fst (project_all n F sg dt) /\ moved_points (snd (project_all n F sg dt)) (snd (project_all n F sg' dt)).
Proof.
  induction n as [|n IH]; intros F sg sg' dt HF H; cbn [project_all]; [split; [reflexivity|exact H]|].
  destruct (IH F sg sg' dt HF H) as (E1 & H1). pose proof (project_all_F_ok n F sg dt HF) as HO.
  destruct (project_all n F sg dt) as [F1 s1]. destruct (project_all n F sg' dt) as [F1' s1']. cbn [fst snd] in *. subst F1'.
  unfold projectSigmaPoint. cbn [fst snd]. rewrite !transfer_same. rewrite (transfer_moved d _ _ (H1 n)).
  split; [reflexivity|]. intros i. destruct (Nat.eqb i n); [|apply H1].
  apply project_moved; [apply H1|]. apply transfer_F_ok. exact HO.
Qed.

Lemma angle_high k : is_angle k = true -> (3 <= k)%nat.
Proof. do 3 (destruct k as [|k]; [discriminate|]). lia. Qed.

Lemma wsum_moved (w : vec RScalar) f g a : rsum 31 w = 1 -> (forall i, g i = f i + a) -> wsum w g = wsum w f + a.
Proof.
  intros HW H. unfold wsum. toR.
  rewrite (rsum_ext 31 _ (fun i => w i * f i + w i * a)) by (intros i _; rewrite H; apply Rmult_plus_distr_l).
  rewrite rsum_plus, rsum_scal_r, HW. f_equal. apply Rmult_1_l.
Qed.
Lemma angle_avg_ext (w : vec RScalar) f g : (forall i, g i = f i) -> angle_avg w g = angle_avg w f.
Proof. intros H. replace g with f; [reflexivity|]. apply functional_extensionality. intros i. symmetry. apply H. Qed.

Lemma mean_moved (w : vec RScalar) sg sg' : rsum 31 w = 1 -> moved_points sg sg' -> moved_vec d (sigma_mean w sg) (sigma_mean w sg').
Proof.
  intros HW H k. unfold sigma_mean. destruct (is_angle k) eqn:EA.
  - rewrite (ax_high d k (angle_high k EA)). rewrite (angle_avg_ext w (fun i => sg i k)); [symmetry; apply Rplus_0_r|].
    intros i. apply (moved_high d _ _ k (H i)). apply angle_high. exact EA.
  - apply wsum_moved; [exact HW|]. intros i. apply H.
Qed.
Lemma diff_moved x x' y y' : moved_vec d x x' -> moved_vec d y y' -> vsub x' y' = vsub x y.
Proof. intros H G. apply functional_extensionality. intros k. unfold vsub. rewrite (H k), (G k). toR. ring. Qed.
Lemma cov_moved (cw : vec RScalar) sg sg' x x' : moved_points sg sg' -> moved_vec d x x' -> sigma_cov cw sg' x' = sigma_cov cw sg x.
Proof.
  intros H G. unfold sigma_cov. apply functional_extensionality. intros a. apply functional_extensionality. intros b.
  f_equal. apply functional_extensionality. intros i. unfold sigma_diff_full. rewrite (diff_moved _ _ _ _ (H i) G). reflexivity.
Qed.

Lemma ukf_all (f f' : ukf RScalar) : Ru f f' -> fb_initialized f = true ->
  exists x p e, f' = set_ext (set_predicted (set_state f x) p) e /\ moved_ext (fb_ext f) e /\ moved_vec d (fb_state f) x.
Proof. intros ((x & p & e & E' & HE & H) & _) HI. exists x, p, e. split; [exact E'|]. split; [exact HE|]. intros k. apply H. left. exact HI. Qed.

(** ** Generating *)
Lemma generate_moved f f' : Ru f f' -> fb_initialized f = true ->
  exists x p, generateSigmaPoints eig f' =
    set_ext (set_predicted (set_state (generateSigmaPoints eig f) x) p)
      (ext_set_sigma (fb_ext (generateSigmaPoints eig f)) (sigma_points_of x (u_sqrt (fb_ext (generateSigmaPoints eig f)))) (u_sqrt (fb_ext (generateSigmaPoints eig f)))) /\
    moved_vec d (fb_state f) x.
Proof.
  intros HR HI. destruct (ukf_all f f' HR HI) as (x & p & e & -> & (sg & -> & _) & H). exists x, p.
  split; [reflexivity|exact H].
Qed.

Lemma control_ukf (f : ukf RScalar) x p e r : moved_vec d (fb_state f) x ->
  prepareControl (set_ext (set_predicted (set_state f x) p) e) r = set_ext (set_predicted (set_state (prepareControl f r) x) p) e.
Proof.
  intros H. unfold prepareControl, set_ext, set_predicted, set_state, set_control_acc. cbn. f_equal.
  apply functional_extensionality. intros i. unfold control_timed_out. cbn.
  rewrite (moved_high d _ _ (i + 6) H) by lia. reflexivity.
Qed.

(** ** Prediction *)
Lemma ukf_predict_moved f f' r dt : Ru f f' -> fb_initialized f = true ->
  Ru (ukf_predict eig f r dt) (ukf_predict eig f' r dt) /\
  moved_points (u_sigma (fb_ext (ukf_predict eig f r dt))) (u_sigma (fb_ext (ukf_predict eig f' r dt))).
Proof.
  intros HR HI. destruct (ukf_all f f' HR HI) as (x & p & e & -> & (sg & -> & _) & H). destruct HR as (_ & HF & HW).
  unfold ukf_predict. rewrite (control_ukf f x p _ r H). set (g := prepareControl f r).
  assert (EG : fb_state g = fb_state f /\ fb_F g = fb_F f /\ fb_initialized g = true /\ fb_ext g = fb_ext f) by (repeat split; exact HI).
  destruct EG as (E1 & E2 & E3 & E4). clearbody g.
  unfold generateSigmaPoints. cbn [fb_ext fb_P fb_state fb_F set_ext set_predicted set_state ext_set_sigma u_lambda u_sw u_cw u_sqrt u_sigma].
  rewrite E4. set (L := e_llt eig STATE_SIZE _). clearbody L. rewrite E1, E2.
  pose proof (project_all_moved 31 (fb_F f) _ _ dt HF (points_of_moved _ _ L H)) as (EF & HS).
  pose proof (project_all_F_ok 31 (fb_F f) (sigma_points_of (fb_state f) L) dt HF) as HF2.
  destruct (project_all 31 (fb_F f) (sigma_points_of (fb_state f) L) dt) as [F1 s1].
  destruct (project_all 31 (fb_F f) (sigma_points_of x L) dt) as [F1' s1']. cbn [fst snd] in *. subst F1'.
  pose proof (mean_moved (u_sw (fb_ext f)) s1 s1' HW HS) as HM.
  rewrite (cov_moved (u_cw (fb_ext f)) s1 s1' _ _ HS HM).
  set (y := sigma_mean (u_sw (fb_ext f)) s1) in *. set (y' := sigma_mean (u_sw (fb_ext f)) s1') in *.
  set (P := sigma_cov (u_cw (fb_ext f)) s1 y). clearbody y y' P.
  cbv zeta. cbn [fb_use_dyn set_F set_ext set_state set_predicted fb_ext].
  destruct (fb_use_dyn g) eqn:EU.
  - cbn [computeDynamicProcessNoiseCovariance fb_use_dyn set_dynQ set_F set_ext set_state set_predicted fb_state]. rewrite EU.
    assert (EV : velocity_matrix y' = velocity_matrix y).
    { unfold velocity_matrix. rewrite (norm_moved d _ _ HM). reflexivity. }
    unfold computeDynamicProcessNoiseCovariance. cbn [fb_state set_F set_ext set_state set_predicted]. rewrite EV. split; [|exact HS]. split; [|split; [exact HF2|exact HW]].
    exists (wrap_angles y'), p. eexists. split; [reflexivity|]. split.
    + exists s1'. split; [reflexivity|]. left. exact HS.
    + intros k _. apply wrap_moved. exact HM.
  - split; [|exact HS]. split; [|split; [exact HF2|exact HW]].
    exists (wrap_angles y'), p. eexists. split; [reflexivity|]. split.
    + exists s1'. split; [reflexivity|]. left. exact HS.
    + intros k _. apply wrap_moved. exact HM.
Qed.

(** ** Correction *)
Section Correct.
Variables m m' : meas RScalar.
Hypothesis Hm : moved_meas d m m'.
Variables sg sg' : nat -> vec RScalar.
Hypothesis HS : moved_points sg sg'.
Local Notation idx := (update_indices m).

Definition subset_move (a : nat) : R := if Nat.ltb a (List.length idx) then ax (nth a idx 0%nat) else 0.
Lemma subset_angle a : is_angle (nth a idx 0%nat) = true -> subset_move a = 0.
Proof. intros H. unfold subset_move. destruct (Nat.ltb a _); [|reflexivity]. apply ax_high, angle_high, H. Qed.

Lemma pick (x : vec RScalar) a : mvmul 15 (state_to_meas idx) x a =
  if (Nat.ltb a (List.length idx) && Nat.ltb (nth a idx 0%nat) 15)%bool then x (nth a idx 0%nat) else 0.
Proof.
  toR. unfold rmv, state_to_meas. destruct (Nat.ltb a (List.length idx)) eqn:EA; cbn [andb].
  - destruct (Nat.ltb_spec (nth a idx 0%nat) 15) as [G|G].
    + rewrite (rsum_single 15 (nth a idx 0%nat)); [rewrite Nat.eqb_refl; apply Rmult_1_l|exact G|].
      intros j _ Hj. apply Nat.eqb_neq in Hj. rewrite Hj. apply Rmult_0_l.
    + apply rsum_zero. intros j Hj. replace (Nat.eqb j (nth a idx 0%nat)) with false by (symmetry; apply Nat.eqb_neq; lia). apply Rmult_0_l.
  - apply rsum_zero. intros j Hj. apply Rmult_0_l.
Qed.
Lemma picked_moved i a : sigma_meas idx sg' i a = sigma_meas idx sg i a + subset_move a.
Proof.
  unfold sigma_meas, subset_move. rewrite !pick. destruct (Nat.ltb a _); cbn [andb]; [|symmetry; apply Rplus_0_r].
  destruct (Nat.ltb_spec (nth a idx 0%nat) 15) as [G|G]; [apply HS|].
  rewrite ax_high by lia. symmetry. apply Rplus_0_r.
Qed.
Lemma predicted_moved (w : vec RScalar) a : rsum 31 w = 1 ->
  predicted_meas w idx (sigma_meas idx sg') a = predicted_meas w idx (sigma_meas idx sg) a + subset_move a.
Proof.
  intros HW. unfold predicted_meas. destruct (is_angle _) eqn:EA.
  - rewrite (subset_angle a EA). rewrite (angle_avg_ext w (fun i => sigma_meas idx sg i a)); [symmetry; apply Rplus_0_r|].
    intros i. rewrite picked_moved, (subset_angle a EA). apply Rplus_0_r.
  - apply wsum_moved; [exact HW|]. intros i. apply picked_moved.
Qed.
Lemma measured_moved a : meas_subset idx m' a = meas_subset idx m a + subset_move a.
Proof.
  unfold meas_subset, subset_move. destruct (Nat.ltb_spec a (List.length idx)) as [G|G]; [|symmetry; apply Rplus_0_r].
  destruct Hm as (v & -> & HV). apply HV. apply indices_flag, nth_In, G.
Qed.
Lemma two_moved (u v u' v' : vec RScalar) : (forall a, u' a = u a + subset_move a) -> (forall a, v' a = v a + subset_move a) -> vsub u' v' = vsub u v.
Proof. intros H G. apply functional_extensionality. intros a. unfold vsub. rewrite H, G. toR. ring. Qed.

Lemma compute_moved (e : ukf_ext RScalar) x x' : u_sigma e = sg -> moved_vec d x x' -> sums_to_one e ->
  let e' := ext_set_sigma e sg' (u_sqrt e) in
  let u := ukf_compute_update eig e x m in let u' := ukf_compute_update eig e' x' m' in
  uu_n u' = uu_n u /\ uu_innov u' = uu_innov u /\ uu_inv u' = uu_inv u /\ uu_K u' = uu_K u /\ uu_Pzz u' = uu_Pzz u.
Proof.
  intros Es HX HW. cbv zeta.
  set (build := fun (n : nat) (S : mat RScalar) (z : vec RScalar) (cw : vec RScalar) (zd xd : nat -> vec RScalar) (innov : vec RScalar) =>
    let Pzz := fun a b => sumn 31 (fun i => cw i * outer (zd i) (zd i) a b)%sc in
    let Pxz := fun a b => sumn 31 (fun i => cw i * outer (xd i) (zd i) a b)%sc in
    let inv := e_inv eig n (madd Pzz S) in
    mkUkfUpdate n S z Pzz Pxz inv (mmul n Pxz inv) innov).
  assert (EB : forall (sg : nat -> vec RScalar) (x : vec RScalar) m, ukf_compute_update eig (ext_set_sigma e sg (u_sqrt e)) x m =
    let z := predicted_meas (u_sw e) (update_indices m) (sigma_meas (update_indices m) sg) in
    build (List.length (update_indices m)) (cov_subset (update_indices m) m) z (u_cw e)
      (fun i => wrap_subset (update_indices m) (vsub (sigma_meas (update_indices m) sg i) z))
      (fun i => sigma_state_diff (update_indices m) (sg i) x)
      (wrap_subset (update_indices m) (vsub (meas_subset (update_indices m) m) z))) by reflexivity.
  assert (Ee : e = ext_set_sigma e sg (u_sqrt e)) by (rewrite <- Es; destruct e; reflexivity).
  assert (EU : ukf_compute_update eig e x m = ukf_compute_update eig (ext_set_sigma e sg (u_sqrt e)) x m) by (rewrite <- Ee; reflexivity).
  rewrite EU, !EB. cbv zeta. rewrite (indices_moved d _ _ Hm). clear EB EU Ee.
  assert (EC : cov_subset idx m' = cov_subset idx m) by (destruct Hm as (v & -> & _); reflexivity). rewrite EC.
  set (z := predicted_meas (u_sw e) idx (sigma_meas idx sg)).
  assert (HZ : forall a, predicted_meas (u_sw e) idx (sigma_meas idx sg') a = z a + subset_move a) by (intros a; apply predicted_moved; exact HW).
  set (z' := predicted_meas (u_sw e) idx (sigma_meas idx sg')) in *.
  assert (EI : vsub (meas_subset idx m') z' = vsub (meas_subset idx m) z) by (apply two_moved; [exact measured_moved|exact HZ]).
  assert (ED : (fun i => wrap_subset idx (vsub (sigma_meas idx sg' i) z')) = (fun i => wrap_subset idx (vsub (sigma_meas idx sg i) z))).
  { apply functional_extensionality. intros i. f_equal. apply two_moved; [exact (picked_moved i)|exact HZ]. }
  assert (EX : (fun i => sigma_state_diff idx (sg' i) x') = (fun i => sigma_state_diff idx (sg i) x)).
  { apply functional_extensionality. intros i. apply functional_extensionality. intros k. unfold sigma_state_diff.
    replace (sg' i k - x' k)%sc with (sg i k - x k)%sc; [reflexivity|]. rewrite (HS i k), (HX k). toR. ring. }
  rewrite EI, ED, EX. repeat split.
Qed.
End Correct.

(** What a correction needs *)
Definition has_points (f f' : ukf RScalar) : Prop :=
  u_uncorrected (fb_ext f) = true -> moved_points (u_sigma (fb_ext f)) (u_sigma (fb_ext f')).
Lemma nonzero_points f f' : Ru f f' -> (exists i k, u_sigma (K := RScalar) (fb_ext f) i k <> 0) ->
  moved_points (u_sigma (fb_ext f)) (u_sigma (fb_ext f')).
Proof.
  intros ((x & p & e & -> & (sg & -> & HS) & _) & _) (i & k & HN). destruct HS as [HS|(HZ & _)]; [exact HS|]. destruct (HN (HZ i k)).
Qed.

Lemma regenerate_moved f f' : Ru f f' -> fb_initialized f = true -> has_points f f' ->
  let g := if u_uncorrected (fb_ext f) then f else generateSigmaPoints eig f in
  let g' := if u_uncorrected (fb_ext f') then f' else generateSigmaPoints eig f' in
  exists x p sg, g' = set_ext (set_predicted (set_state g x) p) (ext_set_sigma (fb_ext g) sg (u_sqrt (fb_ext g))) /\
    moved_vec d (fb_state g) x /\ moved_points (u_sigma (fb_ext g)) sg /\ F_ok (fb_F g) /\ sums_to_one (fb_ext g) /\ fb_initialized g = true.
Proof.
  intros HR HI HP. destruct (ukf_all f f' HR HI) as (x & p & e & -> & (sg & -> & HS) & H). destruct HR as (_ & HF & HW).
  cbv zeta. cbn [fb_ext set_ext ext_set_sigma u_uncorrected]. destruct (u_uncorrected (fb_ext f)) eqn:EU.
  - exists x, p, sg. split; [reflexivity|]. split; [exact H|]. split; [exact (HP EU)|auto].
  - eexists x, p, _. split; [reflexivity|]. split; [exact H|]. split; [|auto]. apply points_of_moved. exact H.
Qed.

Lemma ukf_correct_moved f f' m m' : Ru f f' -> fb_initialized f = true -> has_points f f' -> moved_meas d m m' ->
  Ru (ukf_correct eig f m) (ukf_correct eig f' m').
Proof.
  intros HR HI HP Hm. pose proof (regenerate_moved f f' HR HI HP) as HG. cbv zeta in HG. unfold ukf_correct.
  set (g := if u_uncorrected (fb_ext f) then f else generateSigmaPoints eig f) in *.
  set (g' := if u_uncorrected (fb_ext f') then f' else generateSigmaPoints eig f') in *. clearbody g g'. clear HR HI HP f f'.
  destruct HG as (x & p & sg & -> & HX & HS & HF & HW & HI). cbn [fb_ext fb_state fb_P set_ext set_predicted set_state].
  destruct (compute_moved m m' Hm _ sg HS (fb_ext g) (fb_state g) x eq_refl HX HW) as (U1 & U2 & U3 & U4 & U5).
  set (u := ukf_compute_update eig (fb_ext g) (fb_state g) m) in *.
  set (u' := ukf_compute_update eig (ext_set_sigma (fb_ext g) sg (u_sqrt (fb_ext g))) x m') in *. clearbody u u'.
  assert (ET : m_thresh m' = m_thresh m) by (destruct Hm as (v & -> & _); reflexivity). rewrite ET, U1, U2, U3, U4, U5.
  destruct (checkMahalanobisThreshold _ _ _ _).
  - split; [|split; [exact HF|exact HW]]. eexists _, p, _. split; [reflexivity|]. split.
    + exists sg. split; [reflexivity|left; exact HS].
    + intros k _. cbn [fb_state wrapStateAngles set_state set_P set_ext]. apply wrap_moved.
      intros j. unfold vadd. rewrite (HX j). toR. ring.
  - split; [|split; [exact HF|exact HW]]. exists x, p. eexists. split; [reflexivity|]. split.
    + exists sg. split; [reflexivity|left; exact HS].
    + intros k _. apply HX.
Qed.

(** ** The filter *)
Definition ukf_ready (f : ukf RScalar) (m : meas RScalar) : Prop :=
  (fb_initialized f = false -> forall k, ax k <> 0 -> flag (m_upd m) k = true) /\
  (fb_initialized f = true -> u_uncorrected (fb_ext f) = true -> (m_time m <= fb_last_time f)%Z ->
    exists i k, u_sigma (K := RScalar) (fb_ext f) i k <> 0).

Lemma ukf_init_moved f f' m m' : Ru f f' -> fb_initialized f = false -> moved_meas d m m' ->
  (forall k, ax k <> 0 -> flag (m_upd m) k = true) -> Ru (init_from f m) (init_from f' m').
Proof.
  intros (HM & HF & HW) HI Hm HS. split; [|split; [exact HF|exact HW]]. destruct HM as (x & p & e & -> & HE & H). destruct Hm as (v & -> & HV).
  unfold init_from. cbn [m_upd m_cov m_value fb_state fb_P set_predicted set_state set_ext].
  eexists _, p, e. split; [reflexivity|]. split; [exact HE|]. intros k _. cbn [fb_state set_initialized set_P set_state].
  assert (HN : flag (m_upd m) k = true -> Nat.ltb k (List.length (m_upd m)) = true).
  { intros G. apply Nat.ltb_lt. destruct (le_lt_dec (List.length (m_upd m)) k) as [L|L]; [|exact L].
    unfold flag in G. rewrite nth_overflow in G by exact L. discriminate. }
  destruct (flag (m_upd m) k) eqn:EF.
  - rewrite HN by reflexivity. cbn [andb]. apply HV. exact EF.
  - rewrite andb_false_r. apply H. right.
    destruct (Req_dec (ax k) 0) as [Z|Z]; [exact Z|]. rewrite (HS k Z) in EF. discriminate.
Qed.

Lemma ukf_time f f' t : Ru f f' -> Ru (set_last_time f t) (set_last_time f' t).
Proof. intros ((x & p & e & -> & HE & H) & HF & HW). split; [|split; [exact HF|exact HW]]. exists x, p, e. split; [reflexivity|split; [exact HE|exact H]]. Qed.

(** A prediction leaves the filter initialised, and leaves the points related
    without the exception for the points of the construction. *)
Lemma ukf_predict_init (f : ukf RScalar) r dt : fb_initialized f = true -> fb_initialized (ukf_predict eig f r dt) = true.
Proof.
  intros H. unfold ukf_predict. destruct (project_all _ _ _ _) as [F sg]. cbv zeta. cbn [fb_initialized set_ext wrapStateAngles set_state set_P].
  match goal with |- fb_initialized (if ?b then _ else _) = true => destruct b end; exact H.
Qed.

Lemma ukf_process_moved f f' m m' : Ru f f' -> moved_meas d m m' -> ukf_ready f m ->
  Ru (processMeasurement (ukf_vtbl eig) f m) (processMeasurement (ukf_vtbl eig) f' m').
Proof.
  intros HR Hm (HS & HN). unfold processMeasurement.
  assert (EF : fb_initialized f' = fb_initialized f /\ fb_last_time f' = fb_last_time f) by (destruct HR as ((x & p & e & -> & _) & _); split; reflexivity).
  destruct EF as (-> & ->). assert (ET : m_time m' = m_time m) by (destruct Hm as (v & -> & _); reflexivity). rewrite ET.
  destruct (fb_initialized f) eqn:EI.
  - cbv zeta. set (s1 := if (_ >? 0)%Z then set_predicted _ _ else f).
    set (s1' := if (_ >? 0)%Z then set_predicted (v_predict (ukf_vtbl eig) f' _ _) _ else f').
    assert (H1 : Ru s1 s1' /\ fb_initialized s1 = true /\ has_points s1 s1').
    { subst s1 s1'. destruct (m_time m - fb_last_time f >? 0)%Z eqn:EG.
      - cbn [v_predict ukf_vtbl].
        pose proof (ukf_predict_moved f f' (m_time m) (m_time m - fb_last_time f) HR EI) as HP.
        pose proof (ukf_predict_init f (m_time m) (m_time m - fb_last_time f) EI) as EP.
        revert HP EP. generalize (ukf_predict eig f (m_time m) (m_time m - fb_last_time f)) (ukf_predict eig f' (m_time m) (m_time m - fb_last_time f)).
        intros g g' (HP & HQ) EP. split; [|split; [exact EP|intros _; exact HQ]]. destruct HP as ((x & p & e & E' & HE & H) & HF & HW).
        rewrite E'. split; [|split; [exact HF|exact HW]]. exists x. eexists. exists e. split; [reflexivity|]. split; [exact HE|exact H].
      - split; [exact HR|]. split; [exact EI|]. intros HU. apply nonzero_points; [exact HR|]. apply HN; [reflexivity|exact HU|].
        rewrite Z.gtb_ltb in EG. apply Z.ltb_ge in EG. lia. }
    destruct H1 as (H1 & I1 & P1). cbn [v_correct ukf_vtbl].
    pose proof (ukf_correct_moved s1 s1' m m' H1 I1 P1 Hm) as HC. destruct (_ >=? 0)%Z; [apply ukf_time|]; exact HC.
  - apply ukf_time. apply ukf_init_moved; try assumption. apply HS. reflexivity.
Qed.
End Ukf.

(** ** The node *)
Lemma fusions_both {E} (P Q : fb RScalar E -> meas RScalar -> Prop) os : fusions P os -> fusions Q os -> fusions (fun f m => P f m /\ Q f m) os.
Proof.
  unfold fusions. rewrite !Forall_forall. intros HP HQ o Ho. specialize (HP o Ho). specialize (HQ o Ho). destruct o; auto.
Qed.

Theorem ukf_respond_moved eig (pq : pqueue RScalar) (c : config RScalar) d D is is' (n : node RScalar (ukf_ext RScalar)) : pq_ok pq -> time_blind pq ->
  Forall2 (moved_input d D c) is is' ->
  fb_initialized (n_filter n) = false -> fb_F (n_filter n) = meye ->
  rsum 31 (u_sw (fb_ext (n_filter n))) = 1 -> (forall i k, u_sigma (K := RScalar) (fb_ext (n_filter n)) i k = 0) ->
  n_queue n = [] -> n_meas_hist n = [] -> n_state_hist n = [] -> n_streams n = no_streams ->
  anchored d (snd (respond pq (ukf_vtbl eig) c n is)) -> points_generated (snd (respond pq (ukf_vtbl eig) c n is)) ->
  Forall2 (moved_output d) (snd (respond pq (ukf_vtbl eig) c n is)) (snd (respond pq (ukf_vtbl eig) c n is')).
Proof.
  intros Hok Hpq HI F0 FF W0 Z0 Q0 M0 S0 T0 HA HP.
  apply (respond_moved_by (ukf_vtbl eig) pq c Hok Hpq d D (Ru d) (ukf_ready d)); try assumption.
  - exact (Ru_moved d).
  - exact (ukf_process_moved eig d).
  - intros f m. exact (proj2 (process_time (ukf_vtbl eig) (ukf_neutral eig) f m)).
  - intros f f' r dt HR HN. exact (proj1 (ukf_predict_moved eig d f f' r dt HR HN)).
  - exact (ukf_time d).
  - intros f f' u t ((x & p & e & -> & HE & H) & HF & HW). split; [|split; [exact HF|exact HW]]. exists x, p, e. split; [reflexivity|split; [exact HE|exact H]].
  - intros f f' y y' P ((x & p & e & -> & HE & H) & HF & HW) HY. split; [|split; [exact HF|exact HW]]. exists y', p, e.
    split; [reflexivity|]. split; [exact HE|]. intros k _. exact (HY k).
  - intros f f' ((x & p & e & -> & HE & H) & HF & HW). split; [|split; [apply meye_F_ok|exact HW]]. exists vzero, vzero, e. split; [reflexivity|].
    split; [exact HE|]. intros k [Hk|Hk]; [discriminate Hk|]. rewrite Hk. cbn. toR. ring.
  - split; [|split; [rewrite FF; apply meye_F_ok|exact W0]]. exists (fb_state (n_filter n)), (fb_predicted (n_filter n)), (fb_ext (n_filter n)).
    split; [destruct (n_filter n); reflexivity|]. split.
    + exists (u_sigma (fb_ext (n_filter n))). split; [destruct (fb_ext (n_filter n)); reflexivity|]. right. split; [exact Z0|reflexivity].
    + intros k [Hk|Hk]; [congruence|]. rewrite Hk. toR. symmetry. apply Rplus_0_r.
  - exact (fusions_both _ _ _ HA HP).
Qed.
