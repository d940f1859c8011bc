(** * The EKF does not depend on the choice of the origin (C95) *)

From Coq Require Import Reals ZArith List Bool Lia Lra String Arith FunctionalExtensionality.
From Verif Require Import Scalar Mat FilterBase FilterOps Ekf StrMap Tf RosFilter RosConfig RosPrepare SpecLin SpecPrepare SpecShift
  RLin RBridge Motion NodeProofs.
Import ListNotations.
Local Open Scope R_scope.

Section Filter.
Variable d : vec3 RScalar.
Local Notation ax := (along_axis d).

Lemma ax_high k : (3 <= k)%nat -> ax k = 0.
Proof. intros H. do 3 (destruct k as [|k]; [lia|]). reflexivity. Qed.

Lemma moved_high (x x' : vec RScalar) k : moved_vec d x x' -> (3 <= k)%nat -> x' k = x k.
Proof. intros H Hk. rewrite (H k), (ax_high k Hk). toR. lra. Qed.

(** ** Prediction *)
Section Predict.
Variables x x' : vec RScalar.
Hypothesis H : moved_vec d x x'.

Lemma transfer_moved (F : mat RScalar) dt : ekf_transfer F x' dt = ekf_transfer F x dt.
Proof. unfold ekf_transfer. rewrite !(moved_high x x') by (try exact H; lia). reflexivity. Qed.
Lemma jacobian_moved (F : mat RScalar) dt : ekf_jacobian F x' dt = ekf_jacobian F x dt.
Proof. unfold ekf_jacobian. rewrite !(moved_high x x') by (try exact H; lia). reflexivity. Qed.
Lemma norm_moved : velocity_norm x' = velocity_norm x.
Proof. unfold velocity_norm. f_equal. cbn [sumn Nat.add]. rewrite !(moved_high x x') by (try exact H; lia). reflexivity. Qed.
Lemma control_moved (upd : list bool) (acc : vec RScalar) dt : moved_vec d (apply_control upd acc x dt) (apply_control upd acc x' dt).
Proof.
  intros k. destruct (le_lt_dec 3 k) as [G|G].
  - rewrite (ax_high k G). unfold apply_control, vset.
    rewrite !(moved_high x x') by (try exact H; lia).
    toR. repeat match goal with |- context [Nat.eqb ?a ?b] => destruct (Nat.eqb a b) end; lra.
  - do 3 (destruct k as [|k]; [exact (H _)|]). lia.
Qed.
Lemma wrap_moved : moved_vec d (wrap_angles x) (wrap_angles x').
Proof.
  intros k. destruct (le_lt_dec 3 k) as [G|G].
  - rewrite (ax_high k G). unfold wrap_angles, vset. cbn [Nat.eqb]. rewrite !(moved_high x x') by (try exact H; lia).
    toR. repeat match goal with |- context [Nat.eqb ?a ?b] => destruct (Nat.eqb a b) end; lra.
  - do 3 (destruct k as [|k]; [exact (H _)|]). lia.
Qed.
Lemma project_moved (F : mat RScalar) : F_ok F -> moved_vec d (mvmul 15 F x) (mvmul 15 F x').
Proof.
  intros HF k. toR.
  assert (E : rmv 15 F x' k = rmv 15 F x k + (F k 0%nat * ax 0 + F k 1%nat * ax 1 + F k 2%nat * ax 2)).
  { unfold rmv. cbn [rsum].
    rewrite (H 0%nat), (H 1%nat), (H 2%nat), !(moved_high x x') by (try exact H; lia). toR. ring. }
  rewrite E. f_equal.
  assert (A : forall j, (j < 3)%nat -> F k j = rI k j).
  { intros j Hj. apply HF. do 3 (destruct j as [|j]; [do 9 (destruct k as [|k]; [reflexivity|]); reflexivity|]). lia. }
  rewrite !A by lia. unfold rI.
  do 3 (destruct k as [|k]; [cbn; ring|]). cbn. ring.
Qed.
End Predict.

(** A filter that keeps nothing else *)
Definition moved_ekf (f f' : ekf RScalar) : Prop :=
  exists x p, f' = set_predicted (set_state f x) p /\
    forall k, fb_initialized f = true \/ ax k = 0 -> x k = fb_state f k + ax k.
Lemma moved_ekf_filter (f f' : ekf RScalar) : moved_ekf f f' -> moved_filter d f f'.
Proof.
  intros (x & p & -> & H). exists x, p, (fb_ext f). split; [reflexivity|exact H].
Qed.
Lemma filter_all (f f' : ekf RScalar) : moved_ekf f f' -> fb_initialized f = true ->
  exists x p, f' = set_predicted (set_state f x) p /\ moved_vec d (fb_state f) x.
Proof. intros (x & p & E' & H) HI. exists x, p. split; [exact E'|]. intros k. apply H. left. exact HI. Qed.

Definition Rf (f f' : ekf RScalar) : Prop := moved_ekf f f' /\ F_ok (fb_F f).

Lemma prepareControl_moved (f : ekf RScalar) x p r : moved_vec d (fb_state f) x ->
  prepareControl (set_predicted (set_state f x) p) r = set_predicted (set_state (prepareControl f r) x) p.
Proof.
  intros H. unfold prepareControl, set_predicted, set_state, set_control_acc. cbn. f_equal.
  apply functional_extensionality. intros i. unfold control_timed_out. cbn.
  rewrite (moved_high _ _ (i + 6) H) by lia. reflexivity.
Qed.

Lemma predict_moved f f' r dt : Rf f f' -> fb_initialized f = true -> Rf (ekf_predict f r dt) (ekf_predict f' r dt).
Proof.
  intros (HM & HF) HI. destruct (filter_all f f' HM HI) as (x & p & -> & H).
  assert (HT := transfer_moved _ _ H (fb_F f) (toSec dt)).
  split.
  - unfold ekf_predict. rewrite (prepareControl_moved f x p r H).
    set (g := prepareControl f r).
    assert (EG : fb_state g = fb_state f /\ fb_F g = fb_F f /\ fb_initialized g = true) by (repeat split; exact HI).
    destruct EG as (E1 & E2 & E3). clearbody g.
    cbn [fb_state fb_F fb_use_dyn set_predicted set_state].
    rewrite E2, HT, (jacobian_moved _ _ H). set (F := ekf_transfer (fb_F f) (fb_state f) (toSec dt)).
    assert (HF2 : F_ok F) by (apply transfer_F_ok; exact HF).
    set (J := ekf_jacobian F (fb_state f) (toSec dt)). clearbody J. clearbody F.
    assert (EC : (if fb_use_dyn (set_J (set_F (set_predicted (set_state g x) p) F) J)
                  then computeDynamicProcessNoiseCovariance (set_J (set_F (set_predicted (set_state g x) p) F) J) (fb_state (set_J (set_F (set_predicted (set_state g x) p) F) J))
                  else set_J (set_F (set_predicted (set_state g x) p) F) J) =
                 set_predicted (set_state (if fb_use_dyn (set_J (set_F g F) J) then computeDynamicProcessNoiseCovariance (set_J (set_F g F) J) (fb_state (set_J (set_F g F) J))
                  else set_J (set_F g F) J) x) p).
    { change (fb_use_dyn (set_J (set_F (set_predicted (set_state g x) p) F) J)) with (fb_use_dyn g).
      change (fb_use_dyn (set_J (set_F g F) J)) with (fb_use_dyn g). destruct (fb_use_dyn g); [|reflexivity].
      unfold computeDynamicProcessNoiseCovariance. cbn [fb_state set_J set_F set_predicted set_state].
      assert (EV : velocity_matrix x = velocity_matrix (fb_state g)).
      { unfold velocity_matrix. rewrite E1, (norm_moved _ _ H). reflexivity. }
      rewrite EV. reflexivity. }
    cbv zeta. rewrite EC. clear EC.
    set (h := if fb_use_dyn (set_J (set_F g F) J) then _ else _).
    assert (EH : fb_state h = fb_state f /\ fb_initialized h = true).
    { subst h. change (fb_use_dyn (set_J (set_F g F) J)) with (fb_use_dyn g). destruct (fb_use_dyn g); split; assumption. }
    destruct EH as (EH & EI). clearbody h.
    exists (wrap_angles (mvmul 15 F (apply_control (fb_control_upd h) (fb_control_acc h) x (toSec dt)))), p.
    split; [reflexivity|]. intros k _. cbn [fb_state set_P wrapStateAngles set_state]. rewrite EH.
    apply wrap_moved. apply project_moved; [|exact HF2]. apply control_moved. exact H.
  - unfold ekf_predict. cbv zeta. cbn [fb_F set_P wrapStateAngles set_state].
    destruct (fb_use_dyn _); cbn; apply transfer_F_ok; exact HF.
Qed.

(** ** Correction *)
Lemma indices_moved m m' : moved_meas d m m' -> update_indices m' = update_indices m.
Proof. intros (v & -> & _). unfold update_indices. cbn [m_upd m_value]. apply filter_ext. intros i. reflexivity. Qed.
Lemma indices_flag (m : meas RScalar) k : In k (update_indices m) -> flag (m_upd m) k = true.
Proof. unfold update_indices. intros H. apply filter_In in H. destruct H as (_ & H). apply andb_prop in H. destruct H as (H & _). apply andb_prop in H. tauto. Qed.

Lemma innovation_moved m m' x x' : moved_meas d m m' -> moved_vec d x x' ->
  vsub (meas_subset (update_indices m') m') (state_subset (update_indices m') x') =
  vsub (meas_subset (update_indices m) m) (state_subset (update_indices m) x).
Proof.
  intros HM HX. rewrite (indices_moved _ _ HM). destruct HM as (v & -> & HV).
  apply functional_extensionality. intros i. unfold vsub, meas_subset, state_subset. cbn [m_value].
  destruct (Nat.ltb_spec i (List.length (update_indices m))) as [Hi|Hi]; [|reflexivity].
  rewrite HV by (apply indices_flag, nth_In, Hi). rewrite (HX (nth i (update_indices m) 0%nat)). toR. ring.
Qed.

Variable eig : Eigen RScalar.

Lemma update_moved m m' x x' P : moved_meas d m m' -> moved_vec d x x' ->
  ekf_compute_update eig x' P m' = ekf_compute_update eig x P m.
Proof.
  intros HM HX. unfold ekf_compute_update. rewrite (innovation_moved _ _ _ _ HM HX).
  rewrite (indices_moved _ _ HM). destruct HM as (v & -> & _). reflexivity.
Qed.

Lemma correct_moved f f' m m' : Rf f f' -> fb_initialized f = true -> moved_meas d m m' -> Rf (ekf_correct eig f m) (ekf_correct eig f' m').
Proof.
  intros (HM & HF) HI Hm. destruct (filter_all f f' HM HI) as (x & p & -> & H).
  unfold ekf_correct. cbn [fb_state fb_P set_predicted set_state]. rewrite (update_moved m m' _ _ _ Hm H).
  assert (ET : m_thresh m' = m_thresh m) by (destruct Hm as (v & -> & _); reflexivity). rewrite ET.
  destruct (checkMahalanobisThreshold _ _ _ _); [|split; [exact HM|exact HF]].
  split; [|exact HF].
  set (u := ekf_compute_update eig (fb_state f) (fb_P f) m).
  exists (wrap_angles (vadd x (mvmul (u_n u) (u_K u) (u_innov u)))), p. split; [reflexivity|].
  intros k _. cbn [fb_state wrapStateAngles set_state set_P]. apply wrap_moved.
  intros j. unfold vadd. rewrite (H j). toR. ring.
Qed.

(** ** The filter *)
Definition starts_fixed (f : ekf RScalar) (m : meas RScalar) : Prop :=
  fb_initialized f = false -> forall k, ax k <> 0 -> flag (m_upd m) k = true.

Lemma init_moved f f' m m' : Rf f f' -> fb_initialized f = false -> moved_meas d m m' -> starts_fixed f m ->
  Rf (init_from f m) (init_from f' m').
Proof.
  intros (HM & HF) HI Hm HS. split; [|exact HF]. destruct HM as (x & p & -> & H). destruct Hm as (v & -> & HV).
  unfold init_from. cbn [m_upd m_cov m_value fb_state fb_P set_predicted set_state].
  eexists _, p. split; [reflexivity|]. intros k _. cbn [fb_state set_initialized set_P set_state].
  assert (HN : flag (m_upd m) k = true -> Nat.ltb k (List.length (m_upd m)) = true).
  { intros G. apply Nat.ltb_lt. destruct (le_lt_dec (List.length (m_upd m)) k) as [L|L]; [|exact L].
    unfold flag in G. rewrite nth_overflow in G by exact L. discriminate. }
  destruct (flag (m_upd m) k) eqn:EF.
  - rewrite HN by reflexivity. cbn [andb]. apply HV. exact EF.
  - rewrite andb_false_r. apply H. right.
    destruct (Req_dec (ax k) 0) as [Z|Z]; [exact Z|]. rewrite (HS HI k Z) in EF. discriminate.
Qed.

Lemma process_moved f f' m m' : Rf f f' -> moved_meas d m m' -> starts_fixed f m ->
  Rf (processMeasurement (ekf_vtbl eig) f m) (processMeasurement (ekf_vtbl eig) f' m').
Proof.
  intros HR Hm HS. unfold processMeasurement.
  assert (EF : fb_initialized f' = fb_initialized f /\ fb_last_time f' = fb_last_time f) by (destruct HR as ((x & p & -> & _) & _); split; reflexivity).
  destruct EF as (-> & ->). assert (ET : m_time m' = m_time m) by (destruct Hm as (v & -> & _); reflexivity). rewrite ET.
  assert (TM : forall g g' t, Rf g g' -> Rf (set_last_time g t) (set_last_time g' t)).
  { intros g g' t ((x & p & -> & H) & HF). split; [exists x, p; split; [reflexivity|exact H]|exact HF]. }
  destruct (fb_initialized f) eqn:EI.
  - cbv zeta. set (s1 := if (_ >? 0)%Z then set_predicted _ _ else f).
    set (s1' := if (_ >? 0)%Z then set_predicted (v_predict (ekf_vtbl eig) f' _ _) _ else f').
    assert (H1 : Rf s1 s1' /\ fb_initialized s1 = true).
    { subst s1 s1'. destruct (_ >? 0)%Z; [|split; assumption]. cbn [v_predict ekf_vtbl].
      pose proof (predict_moved f f' (m_time m) (m_time m - fb_last_time f) HR EI) as HP.
      assert (EP : fb_initialized (ekf_predict f (m_time m) (m_time m - fb_last_time f)) = true).
      { unfold ekf_predict. cbv zeta. destruct (fb_use_dyn _); exact EI. }
      revert HP EP. generalize (ekf_predict f (m_time m) (m_time m - fb_last_time f)) (ekf_predict f' (m_time m) (m_time m - fb_last_time f)).
      intros g g' HP EP. split; [|exact EP]. destruct HP as ((x & p & E' & H) & HF).
      rewrite E'. split; [|exact HF]. exists x. eexists. split; [reflexivity|exact H]. }
    destruct H1 as (H1 & I1). cbn [v_correct ekf_vtbl].
    pose proof (correct_moved s1 s1' m m' H1 I1 Hm) as HC. destruct (_ >=? 0)%Z; [apply TM|]; exact HC.
  - apply TM. apply init_moved; assumption.
Qed.
End Filter.
