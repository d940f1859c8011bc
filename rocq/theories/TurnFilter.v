(** * The EKF does not depend on the choice of the heading (C98) *)

From Coq Require Import Reals ZArith List Bool Lia Lra Arith FunctionalExtensionality.
From Verif Require Import Scalar Mat FilterBase FilterOps Ekf SpecLin SpecFilter SpecMotion SpecTurn
  RLin RBridge Angles EkfFacts EkfPsd EkfUpdate Motion Jacobian Pdef Order TwoD TurnMat.
Import ListNotations.
Local Open Scope R_scope.

Lemma same_angle_trig u v : same_angle u v -> cos u = cos v /\ sin u = sin v.
Proof.
  intros (z & ->). replace (v + IZR z * (2 * PI)) with (v + 2 * IZR z * PI) by ring.
  destruct (Z_le_gt_dec 0 z) as [H|H].
  - rewrite <- (Z2Nat.id z H), <- INR_IZR_INZ. split; [apply cos_period|apply sin_period].
  - set (n := Z.to_nat (- z)). assert (E : IZR z = - INR n) by (unfold n; rewrite INR_IZR_INZ, Z2Nat.id, opp_IZR by lia; ring).
    rewrite E. split; [rewrite <- (cos_period _ n)|rewrite <- (sin_period _ n)]; f_equal; ring.
Qed.
Lemma same_angle_wrap u v : same_angle u v -> @normalize_angle RScalar u = @normalize_angle RScalar v.
Proof. intros (z & E). symmetry. exact (normalize_angle_congr v u z E). Qed.
Lemma wrap_same_angle u : same_angle (@normalize_angle RScalar u) u.
Proof. destruct (normalize_angle_spec u) as (_ & z & E). exists z. exact E. Qed.
Lemma same_angle_sym u v : same_angle u v -> same_angle v u.
Proof. intros (z & ->). exists (- z)%Z. rewrite opp_IZR. ring. Qed.
Lemma same_angle_trans u v w : same_angle u v -> same_angle v w -> same_angle u w.
Proof. intros (y & ->) (z & ->). exists (z + y)%Z. rewrite plus_IZR. ring. Qed.
Lemma same_angle_plus u v c d : same_angle u v -> c = d -> same_angle (u + c) (v + d).
Proof. intros (z & ->) <-. exists z. ring. Qed.

Section Filter.
Variable a : R.
Local Notation tv := (turn_vec a).
Local Notation tm := (turn_mat a).

Lemma turned_high x x' k : turned_state a x x' -> (2 <= k)%nat -> k <> 5%nat -> x' k = x k.
Proof. intros (H & _) Hk H5. rewrite (H k H5). apply tv_high. exact Hk. Qed.
Lemma turned_trig x x' : turned_state a x x' ->
  cos (x' 5%nat) = cos a * cos (x 5%nat) - sin a * sin (x 5%nat) /\ sin (x' 5%nat) = sin a * cos (x 5%nat) + cos a * sin (x 5%nat).
Proof.
  intros (_ & H). apply same_angle_trig in H. destruct H as (-> & ->). rewrite cos_plus, sin_plus. split; ring.
Qed.

Lemma turned_wrap x x' : turned_state a x x' -> turned_state a (@wrap_angles RScalar x) (@wrap_angles RScalar x').
Proof.
  intros H. split.
  - intros k Hk. rewrite wrap_angles_entry.
    destruct k as [|[|k]].
    + change (is_angle 0) with false. cbn [turn_vec]. rewrite !wrap_angles_entry. exact (proj1 H 0%nat Hk).
    + change (is_angle 1) with false. cbn [turn_vec]. rewrite !wrap_angles_entry. exact (proj1 H 1%nat Hk).
    + rewrite tv_high by lia. rewrite wrap_angles_entry. rewrite (turned_high x x' (S (S k)) H) by (exact Hk || lia). reflexivity.
  - rewrite !wrap_angles_entry. change (is_angle 5) with true. cbv iota.
    destruct H as (_ & H). apply same_angle_trans with (x' 5%nat); [apply wrap_same_angle|].
    apply same_angle_trans with (x 5%nat + a); [exact H|]. apply same_angle_plus; [|reflexivity]. apply same_angle_sym, wrap_same_angle.
Qed.

(** ** Prediction *)
Lemma motion_turned x x' dt : turned_state a x x' -> turned_state a (motion_fun dt x) (motion_fun dt x').
Proof.
  intros H. destruct (turned_trig x x' H) as (Hc & Hs). pose proof (proj1 H 0%nat ltac:(lia)) as H0. pose proof (proj1 H 1%nat ltac:(lia)) as H1.
  cbn [turn_vec] in H0, H1. pose proof (fun k => turned_high x x' k H) as Hh. split.
  - intros k Hk. destruct k as [|[|k]].
    + cbn [motion_fun turn_vec]. unfold next_position, Rrpy, Rz, Ry, Rx, mat3, rmul, rsum. cbn [Nat.add].
      rewrite Hc, Hs, H0, !Hh by lia. ring.
    + cbn [motion_fun turn_vec]. unfold next_position, Rrpy, Rz, Ry, Rx, mat3, rmul, rsum. cbn [Nat.add].
      rewrite Hc, Hs, H1, !Hh by lia. ring.
    + rewrite tv_high by lia. do 7 (destruct k as [|k];
        [cbn [motion_fun]; unfold next_position, roll_rate, pitch_rate, Rrpy, Rz, Ry, Rx, mat3, rmul, rsum; cbn [Nat.add];
         try lia; rewrite ?Hh by lia; try reflexivity; ring|]).
      cbn [motion_fun]. apply Hh; [lia|exact Hk].
  - cbn [motion_fun]. destruct H as (_ & H).
    replace (x 5%nat + yaw_rate x * dt + a) with (x 5%nat + a + yaw_rate x * dt) by ring.
    apply same_angle_plus; [exact H|]. unfold yaw_rate. rewrite !Hh by lia. reflexivity.
Qed.

Definition shifted (f : ekf RScalar) (r : Z) (d : Z) : rvec :=
  controlled_state (fun i => nth i (fb_control_upd f) false) (predict_acc f r) (fb_state f) (@toSec RScalar d).

Lemma predict_entry (f : ekf RScalar) r d k : F_ok (fb_F f) ->
  fb_state (ekf_predict f r d) k = @wrap_angles RScalar (fun k => if Nat.ltb k 15 then motion_fun (@toSec RScalar d) (shifted f r d) k else 0) k.
Proof.
  intros HF. rewrite predict_state. apply wrap_angles_ext. unfold predict_F. toR.
  destruct (Nat.ltb_spec k 15) as [Hk|Hk].
  - rewrite <- (transfer_rows (fb_state f)) by (reflexivity || exact Hk).
    apply rmv_ext; intros l Hl; [apply F_ok_row; assumption|apply apply_control_entry].
  - unfold rmv. apply rsum_zero. intros l Hl.
    assert (A : assigned k l = false) by (do 9 (destruct k as [|k]; [lia|]); reflexivity).
    rewrite (transfer_F_ok (K := RScalar) _ _ _ HF k l A). toR. unfold rI.
    replace (Nat.eqb k l) with false by (symmetry; apply Nat.eqb_neq; lia). ring.
Qed.

Lemma controlled_turned sel acc x x' dt : turned_state a x x' -> turned_state a (controlled_state sel acc x dt) (controlled_state sel acc x' dt).
Proof.
  intros H. split; [|exact (proj2 H)]. intros k Hk. destruct k as [|[|k]]; [exact (proj1 H 0%nat Hk)|exact (proj1 H 1%nat Hk)|].
  rewrite tv_high by lia. unfold controlled_state.
  rewrite !(turned_high x x' (S (S k)) H) by (exact Hk || lia). reflexivity.
Qed.

Lemma jac_out (F : rmat) x dt i j : F_ok (K := RScalar) F -> jac_assigned i j = false ->
  @ekf_jacobian RScalar (@ekf_transfer RScalar F x dt) x dt i j = rI i j.
Proof.
  intros HF Ha. unfold jac_assigned in Ha. apply orb_false_elim in Ha. destruct Ha as (Ha & Hb).
  transitivity (@ekf_transfer RScalar F x dt i j); [|exact (transfer_F_ok (K := RScalar) F x dt HF i j Ha)]. generalize (@ekf_transfer RScalar F x dt). intros T.
  do 6 (destruct i as [|i]; [do 6 (destruct j as [|j]; [try discriminate Hb; reflexivity|]); reflexivity|]). reflexivity.
Qed.

Lemma jac_turned (F F' : rmat) x x' dt : F_ok (K := RScalar) F -> F_ok (K := RScalar) F' -> turned_state a x x' ->
  @ekf_jacobian RScalar (@ekf_transfer RScalar F' x' dt) x' dt =
  tm (@ekf_jacobian RScalar (@ekf_transfer RScalar F x dt) x dt).
Proof.
  intros HF HF' H. destruct (turned_trig x x' H) as (Hc & Hs). pose proof (fun k => turned_high x x' k H) as Hh.
  extensionality i. extensionality j. destruct (jac_assigned i j) eqn:EA.
  - do 9 (destruct i as [|i]; [do 15 (destruct j as [|j];
      [try discriminate EA;
       unfold turn_mat; cbn [turn_vec];
       unfold ekf_jacobian, ekf_transfer, mset; cbn [Nat.eqb andb];
       rewrite ?lit_5_1; toR; rewrite ?Hc, ?Hs, ?Hh by lia; try reflexivity; ring|]); discriminate EA|]).
    discriminate EA.
  - rewrite (jac_out F' x' dt i j HF' EA). symmetry.
    transitivity (tm rI i j); [|rewrite tm_I; reflexivity]. unfold turn_mat.
    destruct i as [|[|i]].
    + assert (EB : jac_assigned 1 j = false) by exact EA.
      destruct j as [|[|j]]; cbn [turn_vec]; rewrite !jac_out by (assumption || reflexivity); reflexivity.
    + assert (EB : jac_assigned 0 j = false) by exact EA.
      destruct j as [|[|j]]; cbn [turn_vec]; rewrite !jac_out by (assumption || reflexivity); reflexivity.
    + destruct j as [|[|j]]; cbn [turn_vec]; rewrite !jac_out; try assumption; try reflexivity;
        do 7 (destruct i as [|i]; [reflexivity|]); reflexivity.
Qed.

Lemma noise_turned (f f' : ekf RScalar) : turned_state a (fb_state f) (fb_state f') -> fb_use_dyn f' = fb_use_dyn f ->
  fb_Q f' = fb_Q f -> fb_dynQ f' = fb_dynQ f -> isotropic a (fb_Q f) -> isotropic a (fb_dynQ f) ->
  noise_used f' = noise_used f /\ isotropic a (noise_used f).
Proof.
  intros H E1 E2 E3 H2 H3. unfold noise_used. rewrite E1. destruct (fb_use_dyn f); [|rewrite E2; split; [reflexivity|exact H2]].
  assert (EV : velocity_matrix (fb_state f') = velocity_matrix (fb_state f)).
  { unfold velocity_matrix, velocity_norm. cbn [sumn Nat.add]. rewrite !(turned_high _ _ _ H) by lia. reflexivity. }
  unfold computeDynamicProcessNoiseCovariance. cbn [fb_dynQ set_dynQ]. rewrite EV, E2, E3. split; [reflexivity|].
  toR. intros i j. unfold turn_mat.
  set (B := rmul 6 (rmul 6 (@velocity_matrix RScalar (fb_state f)) (fb_Q f)) (rT (@velocity_matrix RScalar (fb_state f)))).
  set (N := rsum 6 (fun k => fb_state f (6 + k)%nat * fb_state f (6 + k)%nat)).
  assert (HB : forall i j, (i < 6)%nat -> (j < 6)%nat -> B i j = N * fb_Q f i j) by (intros; apply dyn_block; assumption).
  clearbody B N. pose proof (H2 i j) as HQ. pose proof (H3 i j) as HD. unfold turn_mat in HQ, HD.
  destruct i as [|[|i]], j as [|[|j]]; cbn [turn_vec] in *; cbn [Nat.ltb Nat.leb] in *; cbn [andb];
    try (destruct (Nat.leb_spec j 3)); try (destruct (Nat.leb_spec i 3)); cbn [andb]; try exact HD; try reflexivity;
    rewrite !HB by lia; match type of HQ with ?l = ?r => transitivity (N * l); [ring|rewrite HQ; ring] end.
Qed.

(** Fields that do not turn *)
Definition alike (f f' : ekf RScalar) : Prop :=
  fb_initialized f' = fb_initialized f /\ fb_use_control f' = fb_use_control f /\
  fb_use_dyn f' = fb_use_dyn f /\ fb_control_timeout f' = fb_control_timeout f /\
  fb_last_time f' = fb_last_time f /\ fb_control_time f' = fb_control_time f /\
  fb_sensor_timeout f' = fb_sensor_timeout f /\ fb_acc_gains f' = fb_acc_gains f /\
  fb_acc_limits f' = fb_acc_limits f /\ fb_dec_gains f' = fb_dec_gains f /\
  fb_dec_limits f' = fb_dec_limits f /\ fb_control_upd f' = fb_control_upd f /\
  fb_control f' = fb_control f /\ fb_Q f' = fb_Q f /\ fb_dynQ f' = fb_dynQ f /\
  (isotropic a (fb_Q f) /\ isotropic a (fb_dynQ f)) /\ (F_ok (fb_F f) /\ F_ok (fb_F f')).
Definition estimate_turned (f f' : ekf RScalar) : Prop :=
  turned_state a (fb_state f) (fb_state f') /\ fb_P f' = tm (fb_P f).
Definition Rt (f f' : ekf RScalar) : Prop :=
  alike f f' /\ (fb_initialized f = true -> estimate_turned f f') /\
  (fb_initialized f = false -> fb_state f' = fb_state f /\ fb_P f' = fb_P f /\ isotropic a (fb_P f)).

Lemma isotropic_eq A : isotropic a A -> tm A = A.
Proof. intros H. extensionality i. extensionality j. apply H. Qed.

Lemma acc_turned (f f' : ekf RScalar) r : alike f f' -> turned_state a (fb_state f) (fb_state f') -> predict_acc f' r = predict_acc f r.
Proof.
  intros (_ & E2 & _ & E4 & _ & E6 & _ & E8 & E9 & E10 & E11 & E12 & E13 & _) H. unfold predict_acc, prepareControl, control_timed_out.
  cbn [fb_control_acc set_control_acc]. rewrite E2, E4, E6, E8, E9, E10, E11, E12, E13.
  apply functional_extensionality. intros i. rewrite (turned_high _ _ (i + POSITION_V_OFFSET) H) by lia. reflexivity.
Qed.

Lemma predict_turned (f f' : ekf RScalar) r d : Rt f f' -> fb_initialized f = true -> Rt (ekf_predict f r d) (ekf_predict f' r d).
Proof.
  intros (HA & HE & _) HI. specialize (HE HI). destruct HE as (Hx & HP).
  pose proof (acc_turned f f' r HA Hx) as EAcc.
  pose proof HA as (A1 & A2 & A3 & A4 & A5 & A6 & A7 & A8 & A9 & A10 & A11 & A12 & A13 & A14 & A15 & (A16 & A16') & (A17 & A17')).
  pose proof (predict_other f r d) as (B1 & B2 & B3 & B4 & B5 & B6 & B7 & B8 & B9 & B10 & B11 & B12 & B13 & B14 & _ & _ & B17 & _).
  pose proof (predict_other f' r d) as (C1 & C2 & C3 & C4 & C5 & C6 & C7 & C8 & C9 & C10 & C11 & C12 & C13 & C14 & _ & _ & C17 & _).
  destruct (noise_turned f f' Hx A3 A14 A15 A16 A16') as (EN & HN).
  split; [|split].
  - unfold alike. rewrite B1, B2, B3, B4, B5, B6, B7, B8, B9, B10, B11, B12, B13, B14, B17, C1, C2, C3, C4, C5, C6, C7, C8, C9, C10, C11, C12, C13, C14, C17, !predict_dynQ.
    repeat (split; [assumption|]).
    split; [rewrite A3; unfold noise_used in EN; rewrite A3 in EN; destruct (fb_use_dyn f); assumption|].
    split; [split; [assumption|unfold noise_used in HN; destruct (fb_use_dyn f); assumption]|].
    split; apply transfer_F_ok; assumption.
  - intros _. split.
    + assert (HS : turned_state a (shifted f r d) (shifted f' r d)).
      { unfold shifted. rewrite EAcc, A12. apply controlled_turned. exact Hx. }
      apply (motion_turned _ _ (@toSec RScalar d)) in HS.
      assert (HT : turned_state a (fun k => if Nat.ltb k 15 then motion_fun (@toSec RScalar d) (shifted f r d) k else 0)
                                  (fun k => if Nat.ltb k 15 then motion_fun (@toSec RScalar d) (shifted f' r d) k else 0)).
      { split; [|exact (proj2 HS)]. intros k Hk. destruct k as [|[|k]]; [exact (proj1 HS 0%nat Hk)|exact (proj1 HS 1%nat Hk)|].
        rewrite tv_high by lia. destruct (Nat.ltb (S (S k)) 15); [|reflexivity]. apply (turned_high _ _ _ HS); [lia|exact Hk]. }
      apply turned_wrap in HT.
      assert (EX : forall g, F_ok (fb_F g) -> fb_state (ekf_predict g r d) = @wrap_angles RScalar (fun k => if Nat.ltb k 15 then motion_fun (@toSec RScalar d) (shifted g r d) k else 0))
        by (intros g Hg; apply functional_extensionality; intros k; apply predict_entry; exact Hg).
      rewrite !EX by assumption. exact HT.
    + rewrite !predict_P, EN, HP. unfold predict_J, predict_F. unfold madd, mscale. toR.
      rewrite (jac_turned (fb_F f) (fb_F f') (fb_state f) (fb_state f') _ A17 A17' Hx).
      rewrite T_tm, !mul_tm. apply isotropic_eq in HN.
      match goal with |- context [tm ?A] => generalize A end. intros M. set (c := @toSec RScalar d). revert HN.
      generalize (noise_used f). intros W HN. clearbody c. etransitivity; [|exact (plus_turn a true true M (fun i j => c * W i j))].
      extensionality i. extensionality j. f_equal.
      change (c * W i j = tm (fun i j => c * W i j) i j). rewrite <- scale_tm, HN. reflexivity.
  - rewrite B1, HI. discriminate.
Qed.

(** The Joseph form of any matrices *)
Lemma joseph_abs n b (G G' H R R' P : rmat) : (b = true -> (2 <= n)%nat) ->
  (forall i k, (k < n)%nat -> G' i k = Lt a true (TurnMat.Rt a b G) i k) ->
  (forall l j, (l < n)%nat -> H l j = Lt a b (TurnMat.Rt a true H) l j) ->
  (forall i j, (i < n)%nat -> (j < n)%nat -> R' i j = Lt a b (TurnMat.Rt a b R) i j) ->
  @joseph RScalar n G' H R' (tm P) = tm (@joseph RScalar n G H R P).
Proof.
  intros Hb HG HH HR. unfold joseph, madd, msub. toR.
  assert (EKH : rmul n G' H = tm (rmul n G H)).
  { extensionality i. extensionality j.
    rewrite (rmul_ext n _ (Lt a true (TurnMat.Rt a b G)) _ (Lt a b (TurnMat.Rt a true H))).
    - rewrite mul_turn by exact Hb. reflexivity.
    - intros l Hl. apply HG. exact Hl.
    - intros l Hl. apply HH. exact Hl. }
  assert (EKR : rmul n (rmul n G' R') (rT G') = tm (rmul n (rmul n G R) (rT G))).
  { extensionality i. extensionality j.
    rewrite (rmul_ext n _ (Lt a true (TurnMat.Rt a b (rmul n G R))) _ (Lt a b (TurnMat.Rt a true (rT G)))).
    - rewrite mul_turn by exact Hb. reflexivity.
    - intros l Hl. rewrite (rmul_ext n _ (Lt a true (TurnMat.Rt a b G)) _ (Lt a b (TurnMat.Rt a b R))).
      + rewrite mul_turn by exact Hb. reflexivity.
      + intros k Hk. apply HG. exact Hk.
      + intros k Hk. apply HR; assumption.
    - intros l Hl. unfold rT at 1. rewrite HG by exact Hl. rewrite Lt_Rt. reflexivity. }
  rewrite EKH, EKR. generalize (rmul n G H) (rmul n (rmul n G R) (rT G)). intros M W.
  assert (EI : (fun i j => rI i j - tm M i j) = tm (fun i j => rI i j - M i j)).
  { etransitivity; [|exact (minus_turn a true true _ _)]. extensionality i. extensionality j. f_equal. symmetry. exact (f_equal (fun M => M i j) (tm_I a)). }
  rewrite EI, T_tm, !mul_tm. exact (plus_turn a true true _ _).
Qed.

(** ** Correction *)
Section Correct.
Variables m m' : meas RScalar.
Hypothesis Hlen : length (m_upd m) = 15%nat.
Hypothesis HM : turned_meas a m m'.
Let idx := selected m.
Let n := length idx.
Let b := nth 0 (m_upd m) false.

Lemma upd_same : m_upd m' = m_upd m.
Proof. destruct HM as (v & C & -> & _). reflexivity. Qed.
Lemma selected_same : selected m' = idx.
Proof. unfold selected. rewrite upd_same. reflexivity. Qed.
Lemma flags_same : nth 1 (m_upd m) false = b.
Proof.
  destruct HM as (v & C & _ & (H1 & H2) & _). unfold b. cbv beta in *.
  destruct (nth 0 (m_upd m) false), (nth 1 (m_upd m) false); try reflexivity; [apply H1; reflexivity|symmetry; apply H2; reflexivity].
Qed.
Lemma idx_shape : idx = (if b then [0; 1]%nat else []) ++ filter (fun i => nth i (m_upd m) false) (seq 2 13).
Proof.
  unfold idx, selected. change (seq 0 15) with (0 :: 1 :: seq 2 13)%nat. cbn [filter]. rewrite flags_same.
  fold b. destruct b; reflexivity.
Qed.
Lemma idx_size : b = true -> (2 <= n)%nat.
Proof. intros H. unfold n. rewrite idx_shape, H. cbn [app length]. lia. Qed.
Lemma idx_high k : (k < n)%nat -> (b = true -> (2 <= k)%nat) -> (2 <= nth k idx 0)%nat.
Proof.
  intros Hk Hb. assert (G : forall l, In l (filter (fun i => nth i (m_upd m) false) (seq 2 13)) -> (2 <= l)%nat).
  { intros l Hl. apply filter_In in Hl. destruct Hl as (Hl & _). apply in_seq in Hl. lia. }
  unfold n in Hk. rewrite idx_shape in *. destruct b.
  - specialize (Hb eq_refl). destruct k as [|[|k]]; [lia|lia|]. cbn [app nth length] in *. apply G, nth_In. lia.
  - cbn [app] in *. apply G, nth_In. exact Hk.
Qed.
Lemma idx_low : b = true -> nth 0 idx 0%nat = 0%nat /\ nth 1 idx 0%nat = 1%nat.
Proof. intros H. rewrite idx_shape, H. split; reflexivity. Qed.
Lemma idx_sel k : (k < n)%nat -> nth (nth k idx 0%nat) (m_upd m) false = true.
Proof. intros Hk. pose proof (nth_In idx 0%nat Hk) as H. unfold idx at 2, selected in H. apply filter_In in H. exact (proj2 H). Qed.

Lemma turn_selected (f : rvec) k : (k < n)%nat -> tv f (nth k idx 0%nat) = tvs a b (fun l => f (nth l idx 0%nat)) k.
Proof.
  intros Hk. destruct b eqn:Eb.
  - destruct (idx_low Eb) as (I0 & I1). destruct k as [|[|k]].
    + rewrite I0. cbn [tvs turn_vec]. rewrite I0, I1. reflexivity.
    + rewrite I1. cbn [tvs turn_vec]. rewrite I0, I1. reflexivity.
    + rewrite tv_high by (apply idx_high; [exact Hk|lia]). reflexivity.
  - rewrite tv_high by (apply idx_high; [exact Hk|congruence]). reflexivity.
Qed.
Lemma turn_selected2 (A : rmat) i j : (i < n)%nat -> (j < n)%nat ->
  tm A (nth i idx 0%nat) (nth j idx 0%nat) = Lt a b (TurnMat.Rt a b (fun k l => A (nth k idx 0%nat) (nth l idx 0%nat))) i j.
Proof.
  intros Hi Hj. unfold turn_mat. rewrite turn_selected by exact Hi. unfold Lt.
  f_equal. apply functional_extensionality. intros k. apply turn_selected. exact Hj.
Qed.

Lemma repaired_turned i j : nth i (m_upd m) false = true -> nth j (m_upd m) false = true ->
  repaired_cov m' i j = tm (repaired_cov m) i j.
Proof.
  intros Hi Hj. destruct HM as (v & C & E & H01 & _ & _ & HC & HV). cbv beta zeta in *.
  assert (EC : m_cov m' = C) by (rewrite E; reflexivity). unfold repaired_cov at 1. rewrite EC. clear E EC.
  assert (Hbig : forall c, / 1000000000 <= c -> Rmax (Rabs c) (/ 1000000000) = c).
  { intros c Hc. rewrite Rabs_right by lra. apply Rmax_left. exact Hc. }
  assert (Hd : forall k, (k < 2)%nat -> nth k (m_upd m) false = true -> repaired_cov m k k = m_cov m k k).
  { intros k Hk Hs. unfold repaired_cov. rewrite Nat.eqb_refl. apply Hbig. apply (HV k Hk Hs). }
  destruct (Nat.eqb_spec i j) as [<-|Hij].
  - destruct i as [|[|i]].
    + rewrite Hbig by (apply (HV 0%nat); [lia|exact Hi]). rewrite HC by assumption. unfold turn_mat. cbn [turn_vec].
      rewrite !Hd by (lia || tauto). reflexivity.
    + rewrite Hbig by (apply (HV 1%nat); [lia|exact Hi]). rewrite HC by assumption. unfold turn_mat. cbn [turn_vec].
      rewrite !Hd by (lia || tauto). reflexivity.
    + rewrite HC by assumption. unfold turn_mat. rewrite !tv_high by lia. unfold repaired_cov. rewrite Nat.eqb_refl. reflexivity.
  - rewrite HC by assumption. unfold turn_mat. destruct i as [|[|i]], j as [|[|j]]; cbn [turn_vec]; try congruence;
      rewrite ?Hd by (lia || tauto); try reflexivity.
    unfold repaired_cov. apply Nat.eqb_neq in Hij. rewrite Hij. reflexivity.
Qed.

Lemma S_turned (P P' : rmat) : P' = tm P -> meq n n (innovation_cov P' m') (Lt a b (TurnMat.Rt a b (innovation_cov P m))).
Proof.
  intros -> i j Hi Hj. unfold innovation_cov. rewrite selected_same. fold idx. cbv zeta.
  rewrite repaired_turned by (apply idx_sel; assumption). rewrite !turn_selected2 by assumption.
  apply (f_equal (fun g => g i j) (plus_turn a b b _ _)).
Qed.
Lemma turn_ext A B : meq n n A B -> meq n n (Lt a b (TurnMat.Rt a b A)) (Lt a b (TurnMat.Rt a b B)).
Proof.
  intros H i j Hi Hj. unfold Lt. apply (tvs_ext a b n); [exact idx_size| |exact Hi]. intros k Hk. unfold TurnMat.Rt.
  apply (tvs_ext a b n); [exact idx_size| |exact Hj]. intros l Hl. apply H; assumption.
Qed.

Lemma inverse_turned A B C : is_inverse n A B -> is_inverse n (Lt a b (TurnMat.Rt a b A)) C -> meq n n C (Lt a b (TurnMat.Rt a b B)).
Proof.
  intros HB HC i j Hi Hj. symmetry. refine (inverse_unique n _ _ _ HC _ i j Hi Hj).
  intros k l Hk Hl. rewrite mul_turn by exact idx_size.
  rewrite <- (mul_turn_I a b n idx_size). apply turn_ext; [|assumption|assumption].
  intros k' l' Hk' Hl'. apply HB; assumption.
Qed.

Lemma innovation_turned (x x' nu nu' : rvec) : turned_state a x x' -> innovation_of x m nu -> innovation_of x' m' nu' -> veq n nu' (tvs a b nu).
Proof.
  intros Hx Hn Hn'. apply (innovation_unique m' x' nu' (tvs a b nu)) in Hn'.
  - unfold n. rewrite <- selected_same. exact Hn'.
  - destruct HM as (v & C & E & _ & HV & H5 & _). cbv beta zeta in *.
    intros k Hk. rewrite selected_same in *. cbv zeta.
    assert (EV : m_value m' = v) by (rewrite E; reflexivity). rewrite EV. clear E EV.
    pose proof (idx_sel k Hk) as Hs. pose proof (Hn k Hk) as (HA & HN). fold idx in HA, HN.
    split; intros Hang.
    + assert (Hk2 : (2 <= nth k idx 0)%nat) by (unfold angular in Hang; lia).
      assert (Et : tvs a b nu k = nu k).
      { destruct b eqn:Eb; [|reflexivity]. destruct (idx_low Eb) as (I0 & I1).
        apply tv_high. destruct k as [|[|k]]; [rewrite I0 in Hk2; lia|rewrite I1 in Hk2; lia|lia]. }
      rewrite Et. specialize (HA Hang). destruct (Nat.eq_dec (nth k idx 0%nat) 5%nat) as [E5|E5].
      * rewrite E5 in *. destruct (H5 Hs) as (z & ->). destruct (proj2 Hx) as (z' & ->).
        destruct HA as (HA1 & y & HA2). split; [exact HA1|]. exists (y - z + z')%Z. rewrite HA2, plus_IZR, minus_IZR. ring.
      * rewrite HV by assumption. rewrite tv_high by exact Hk2. rewrite (turned_high x x') by assumption. exact HA.
    + assert (E5 : nth k idx 0%nat <> 5%nat) by (intros E5; apply Hang; unfold angular; lia).
      rewrite HV by assumption. rewrite (proj1 Hx) by assumption.
      destruct b eqn:Eb.
      * destruct (idx_low Eb) as (I0 & I1). pose proof (idx_size Eb) as Hn2.
        pose proof (Hn 0%nat ltac:(fold idx; fold n; lia)) as (_ & N0). pose proof (Hn 1%nat ltac:(fold idx; fold n; lia)) as (_ & N1).
        fold idx in N0, N1. rewrite I0 in N0. rewrite I1 in N1.
        specialize (N0 ltac:(unfold angular; lia)). specialize (N1 ltac:(unfold angular; lia)).
        destruct k as [|[|k]].
        -- rewrite I0. cbn [tvs turn_vec]. rewrite N0, N1. ring.
        -- rewrite I1. cbn [tvs turn_vec]. rewrite N0, N1. ring.
        -- rewrite tvs_high by lia. rewrite !tv_high by (apply idx_high; [exact Hk|lia]). apply HN. exact Hang.
      * rewrite !tv_high by (apply idx_high; [exact Hk|congruence]). apply HN. exact Hang.
Qed.

Lemma H_turned (H : rmat) : H = @state_to_meas RScalar (update_indices m) -> forall l j, (l < n)%nat -> H l j = Lt a b (TurnMat.Rt a true H) l j.
Proof.
  intros -> l j Hl.
  assert (E : forall k j, (k < n)%nat -> @state_to_meas RScalar (update_indices m) k j = rI (nth k idx 0%nat) j).
  { intros k i Hk. rewrite (H_row m Hlen k i Hk). unfold rI. rewrite Nat.eqb_sym. reflexivity. }
  rewrite E by exact Hl. transitivity (tm rI (nth l idx 0%nat) j); [rewrite tm_I; reflexivity|]. unfold turn_mat. rewrite turn_selected by exact Hl.
  unfold Lt. apply (tvs_ext a b n); [exact idx_size| |exact Hl]. intros k Hk. unfold TurnMat.Rt.
  change (tv (rI (nth k idx 0%nat)) j = tv (@state_to_meas RScalar (update_indices m) k) j).
  f_equal. apply functional_extensionality. intros i. symmetry. apply E. exact Hk.
Qed.

Variable eig : Eigen RScalar.
Hypothesis Heig : eigen_inverse_ok eig.
Variables f f' : ekf RScalar.
Hypothesis Hx : turned_state a (fb_state f) (fb_state f').
Hypothesis HP : fb_P f' = tm (fb_P f).
Hypothesis Hpsd : psd 15 (fb_P f).
Hypothesis Hnoisy : noisy m.
Let u := ekf_compute_update eig (fb_state f) (fb_P f) m.
Let u' := ekf_compute_update eig (fb_state f') (fb_P f') m'.

Lemma idx_lt k : (k < n)%nat -> (nth k idx 0 < 15)%nat.
Proof. intros Hk. pose proof (nth_In idx 0%nat Hk) as H. unfold idx at 2, selected in H. apply filter_In in H. destruct H as (H & _). apply in_seq in H. lia. Qed.
Lemma S_invertible : invertible n (innovation_cov (fb_P f) m).
Proof.
  apply pdef_invertible. unfold innovation_cov. apply pdef_psd_plus; [|exact Hnoisy].
  apply (psd_sub idx (fb_P f) 15); [|exact Hpsd].
  intros k Hk. unfold idx, selected in Hk. apply filter_In in Hk. destruct Hk as (Hk & _). apply in_seq in Hk. lia.
Qed.
Lemma Hlen' : length (m_upd m') = 15%nat.
Proof. rewrite upd_same. exact Hlen. Qed.
Lemma invertible_turned A : invertible n A -> invertible n (Lt a b (TurnMat.Rt a b A)).
Proof.
  intros (B & HB). exists (Lt a b (TurnMat.Rt a b B)). intros i j Hi Hj.
  rewrite !mul_turn by exact idx_size. rewrite <- (mul_turn_I a b n idx_size).
  split; apply turn_ext; try assumption; intros k l Hk Hl; apply HB; assumption.
Qed.
Lemma S_invertible' : invertible n (innovation_cov (fb_P f') m').
Proof.
  apply (invertible_ext n (Lt a b (TurnMat.Rt a b (innovation_cov (fb_P f) m)))).
  - intros i j Hi Hj. symmetry. apply (S_turned _ _ HP); assumption.
  - apply invertible_turned, S_invertible.
Qed.
Lemma u_Sinv_turned : meq n n (u_Sinv u') (Lt a b (TurnMat.Rt a b (u_Sinv u))).
Proof.
  apply (inverse_turned (innovation_cov (fb_P f) m)).
  - apply (u_Sinv_ok eig f m Heig Hlen S_invertible).
  - apply (is_inverse_ext n (innovation_cov (fb_P f') m')).
    + apply (S_turned _ _ HP).
    + pose proof (u_Sinv_ok eig f' m' Heig Hlen') as H. rewrite selected_same in H. apply H. exact S_invertible'.
Qed.
Lemma u_n_same : u_n u = n /\ u_n u' = n.
Proof.
  split; [exact (u_n_eq eig m Hlen f)|]. unfold n. rewrite <- selected_same. exact (u_n_eq eig m' Hlen' f').
Qed.
Lemma u_K_turned i k : (k < n)%nat -> u_K u' i k = Lt a true (TurnMat.Rt a b (u_K u)) i k.
Proof.
  intros Hk. pose proof (u_K_eq eig m' Hlen' f') as E'. pose proof (u_K_eq eig m Hlen f) as E.
  change (u_K u' = rmul (length (selected m')) (rmul 15 (fb_P f') (rT (u_H u'))) (u_Sinv u')) in E'.
  change (u_K u = rmul n (rmul 15 (fb_P f) (rT (u_H u))) (u_Sinv u)) in E.
  rewrite selected_same in E'. fold n in E'. rewrite E'. clear E'.
  rewrite (rmul_ext n _ (Lt a true (TurnMat.Rt a b (fun i l => fb_P f i (nth l idx 0%nat)))) _ (Lt a b (TurnMat.Rt a b (u_Sinv u)))).
  - rewrite mul_turn by exact idx_size. rewrite E. rewrite !Lt_Rt. unfold TurnMat.Rt.
    apply (tvs_ext a b n); [exact idx_size| |exact Hk]. intros l Hl. unfold Lt. f_equal.
    apply functional_extensionality. intros i0. apply rmul_ext; [|auto]. intros l0 Hl0. symmetry.
    apply (pht_entry m Hlen). exact Hl0.
  - intros l Hl. pose proof (pht_entry m' Hlen' (fb_P f') i l) as Hp. rewrite selected_same in Hp.
    etransitivity; [apply Hp; exact Hl|]. rewrite HP. unfold turn_mat, Lt. cbn [tvs]. f_equal.
    apply functional_extensionality. intros i0. apply turn_selected. exact Hl.
  - intros l Hl. apply u_Sinv_turned; assumption.
Qed.
Lemma u_innov_turned : veq n (u_innov u') (tvs a b (u_innov u)).
Proof. exact (innovation_turned _ _ _ _ Hx (u_innov_ok eig f m Hlen) (u_innov_ok eig f' m' Hlen')). Qed.

Lemma gate_turned : checkMahalanobisThreshold (u_n u') (u_innov u') (u_Sinv u') (m_thresh m') = checkMahalanobisThreshold (u_n u) (u_innov u) (u_Sinv u) (m_thresh m).
Proof.
  destruct u_n_same as (-> & ->). assert (ET : m_thresh m' = m_thresh m) by (destruct HM as (v & C & -> & _); reflexivity).
  rewrite ET. unfold checkMahalanobisThreshold. toR. do 2 f_equal.
  transitivity (rdot n (tvs a b (u_innov u)) (tvs a b (rmv n (u_Sinv u) (u_innov u)))); [|apply dot_turn; exact idx_size].
  unfold rdot. apply rsum_ext. intros k Hk. rewrite u_innov_turned by exact Hk. f_equal.
  rewrite (rmv_ext n _ (Lt a b (TurnMat.Rt a b (u_Sinv u))) _ (tvs a b (u_innov u))).
  - rewrite Lt_mv, Rt_mv by exact idx_size. reflexivity.
  - intros l Hl. apply u_Sinv_turned; assumption.
  - intros l Hl. apply u_innov_turned. exact Hl.
Qed.

Lemma state_turned : turned_state a (@vadd RScalar (fb_state f) (@mvmul RScalar (u_n u) (u_K u) (u_innov u)))
  (@vadd RScalar (fb_state f') (@mvmul RScalar (u_n u') (u_K u') (u_innov u'))).
Proof.
  destruct u_n_same as (-> & ->). unfold vadd. toR.
  assert (E : forall k, rmv n (u_K u') (u_innov u') k = tv (rmv n (u_K u) (u_innov u)) k).
  { intros k. rewrite (rmv_ext n _ (Lt a true (TurnMat.Rt a b (u_K u))) _ (tvs a b (u_innov u))).
    - rewrite Lt_mv, Rt_mv by exact idx_size. reflexivity.
    - intros l Hl. apply u_K_turned. exact Hl.
    - intros l Hl. apply u_innov_turned. exact Hl. }
  revert E. generalize (rmv n (u_K u') (u_innov u')) (rmv n (u_K u) (u_innov u)). intros w' w E. clearbody u u'. revert Hx. clear - E.
  generalize (fb_state f) (fb_state f'). intros x x' Hx. split.
  - intros k Hk. rewrite E. rewrite (proj1 Hx k Hk). destruct k as [|[|k]]; cbn [turn_vec]; ring.
  - rewrite E, tv_high by lia. apply same_angle_trans with (x 5%nat + a + w 5%nat).
    + apply same_angle_plus; [exact (proj2 Hx)|reflexivity].
    + exists 0%Z. ring.
Qed.

Lemma u_R_turned i j : (i < n)%nat -> (j < n)%nat -> u_R u' i j = Lt a b (TurnMat.Rt a b (u_R u)) i j.
Proof.
  assert (ER : forall k l, (k < n)%nat -> (l < n)%nat -> u_R u k l = repaired_cov m (nth k idx 0%nat) (nth l idx 0%nat)).
  { intros k l Hk Hl. pose proof (S_entry m Hlen (fun _ _ => 0) k l Hk Hl) as H. cbv beta in H.
    rewrite (HP_entry m Hlen) in H by exact Hk. rewrite (pht_entry m Hlen) in H by exact Hl.
    unfold innovation_cov in H. change (u_R u k l) with (@cov_subset RScalar (update_indices m) m k l). fold idx in H. toR. lra. }
  intros Hi Hj.
  assert (ER' : u_R u' i j = repaired_cov m' (nth i idx 0%nat) (nth j idx 0%nat)).
  { pose proof (S_entry m' Hlen' (fun _ _ => 0) i j) as H. rewrite selected_same in H. specialize (H Hi Hj). cbv beta in H.
    rewrite (HP_entry m' Hlen') in H by (rewrite selected_same; exact Hi). rewrite (pht_entry m' Hlen') in H by (rewrite selected_same; exact Hj).
    unfold innovation_cov in H. rewrite selected_same in H. change (u_R u' i j) with (@cov_subset RScalar (update_indices m') m' i j). toR. lra. }
  rewrite ER', repaired_turned by (apply idx_sel; assumption). rewrite turn_selected2 by assumption.
  apply turn_ext; [|assumption|assumption]. intros k l Hk Hl. symmetry. apply ER; assumption.
Qed.

Lemma joseph_turned : @joseph RScalar (u_n u') (u_K u') (u_H u') (u_R u') (fb_P f') = tm (@joseph RScalar (u_n u) (u_K u) (u_H u) (u_R u) (fb_P f)).
Proof.
  destruct u_n_same as (-> & ->).
  assert (EH : u_H u' = u_H u).
  { change (@state_to_meas RScalar (update_indices m') = @state_to_meas RScalar (update_indices m)). f_equal.
    rewrite !update_indices_R, upd_same. reflexivity. }
  rewrite EH, HP. apply joseph_abs with (b := b); [exact idx_size|exact u_K_turned| |exact u_R_turned].
  intros l j Hl. apply H_turned; [reflexivity|exact Hl].
Qed.
End Correct.

Lemma correct_turned eig m m' (f f' : ekf RScalar) : eigen_inverse_ok eig -> good_meas m -> turned_meas a m m' -> noisy m ->
  psd 15 (fb_P f) -> Rt f f' -> fb_initialized f = true -> Rt (ekf_correct eig f m) (ekf_correct eig f' m').
Proof.
  intros Heig (Hlen & _) HM Hn Hpsd (HA & HE & HU) HI. destruct (HE HI) as (Hx & HP).
  unfold ekf_correct. cbv zeta. rewrite (gate_turned m m' Hlen HM eig Heig f f' Hx HP Hpsd Hn).
  destruct (checkMahalanobisThreshold _ _ _ _); [|split; [exact HA|split; [exact HE|exact HU]]].
  split; [exact HA|split; [|cbn; rewrite HI; discriminate]].
  intros _. split; cbn [fb_state fb_P wrapStateAngles set_P set_state].
  - apply turned_wrap. exact (state_turned m m' Hlen HM eig Heig f f' Hx HP Hpsd Hn).
  - exact (joseph_turned m m' Hlen HM eig Heig f f' HP Hpsd Hn).
Qed.

Lemma init_turned m m' (f f' : ekf RScalar) : good_meas m -> turned_meas a m m' -> starts_headed (fb_state f) m -> Rt f f' ->
  fb_initialized f = false -> Rt (init_from f m) (init_from f' m').
Proof.
  intros (Hlen & _) HM (HS5 & HS) (HA & _ & HU) HI. destruct (HU HI) as (EX & EP & HPi).
  pose proof (flags_same m m' HM) as E01. pose proof (upd_same m m' HM) as EU.
  destruct HM as (v & C & E & _ & HV & H5 & HC & _). cbv beta zeta in *.
  split; [|split].
  - destruct HA as (A1 & A2). split; [reflexivity|exact A2].
  - intros _. unfold estimate_turned, init_from. cbv zeta. cbn [fb_state fb_P set_initialized set_P set_state]. rewrite EU, EX, EP, E. cbn [m_value m_cov].
    assert (FL : forall k, (Nat.ltb k (length (m_upd m)) && flag (m_upd m) k)%bool = nth k (m_upd m) false).
    { intros k. unfold flag. destruct (Nat.ltb_spec k (length (m_upd m))) as [L|L]; [reflexivity|]. rewrite nth_overflow by lia. reflexivity. }
    assert (FL2 : forall i j, (Nat.ltb i (length (m_upd m)) && Nat.ltb j (length (m_upd m)) && (flag (m_upd m) i && flag (m_upd m) j))%bool =
                    (nth i (m_upd m) false && nth j (m_upd m) false)%bool).
    { intros i j. rewrite <- !FL. destruct (Nat.ltb i _), (Nat.ltb j _), (flag _ i), (flag _ j); reflexivity. }
    split; [split|].
    + intros k Hk. cbv beta. rewrite FL. destruct k as [|[|k]]; cbn [turn_vec]; rewrite ?FL.
      * rewrite ?E01. destruct (nth 0 (m_upd m) false) eqn:E0.
        -- rewrite HV by assumption. reflexivity.
        -- destruct HS as [HS|(-> & ->)]; [discriminate|]. ring.
      * rewrite ?E01. destruct (nth 0 (m_upd m) false) eqn:E0.
        -- rewrite HV by (lia || assumption). reflexivity.
        -- destruct HS as [HS|(-> & ->)]; [discriminate|]. ring.
      * destruct (nth (S (S k)) (m_upd m) false) eqn:Es; [|reflexivity]. rewrite HV by assumption. reflexivity.
    + rewrite !FL, HS5. apply H5. exact HS5.
    + extensionality i. extensionality j. pose proof (HPi i j) as Hij. pose proof (HC i j) as Hc. unfold turn_mat in *.
      destruct i as [|[|i]], j as [|[|j]]; cbn [turn_vec] in *; rewrite ?FL2, ?E01 in *;
        try (destruct (nth 0 (m_upd m) false)); cbn [andb]; try (destruct (nth (S (S i)) (m_upd m) false)); try (destruct (nth (S (S j)) (m_upd m) false)); cbn [andb];
        try (apply Hc; reflexivity); try (symmetry; exact Hij); reflexivity.
  - cbn. discriminate.
Qed.

Lemma process_turned eig dyn m m' (f f' : ekf RScalar) : eigen_inverse_ok eig -> inv dyn f -> good_meas m -> turned_meas a m m' -> noisy m ->
  (fb_initialized f = false -> starts_headed (fb_state f) m) -> Rt f f' ->
  Rt (processMeasurement (ekf_vtbl eig) f m) (processMeasurement (ekf_vtbl eig) f' m').
Proof.
  intros Heig Hinv Hg HM Hn HS HR. unfold processMeasurement.
  assert (E1 : fb_initialized f' = fb_initialized f) by apply HR.
  assert (E2 : fb_last_time f' = fb_last_time f) by (destruct HR as ((_ & _ & _ & _ & E & _) & _); exact E).
  assert (ET : m_time m' = m_time m) by (destruct HM as (v & C & -> & _); reflexivity). rewrite E1, E2, ET.
  assert (TM : forall g g' t, Rt g g' -> Rt (set_last_time g t) (set_last_time g' t)).
  { intros g g' t ((B1 & B2 & B3 & B4 & B5 & B6) & HR2). split; [|exact HR2]. repeat split; try assumption; try apply B6. }
  destruct (fb_initialized f) eqn:EI; [|apply TM, init_turned; auto].
  cbv zeta. cbn [v_predict v_correct ekf_vtbl].
  set (s1 := if (_ >? 0)%Z then set_predicted (ekf_predict f _ _) _ else f).
  set (s1' := if (_ >? 0)%Z then set_predicted (ekf_predict f' _ _) _ else f').
  assert (H1 : Rt s1 s1' /\ fb_initialized s1 = true /\ inv dyn s1).
  { subst s1 s1'. destruct (m_time m - fb_last_time f >? 0)%Z eqn:Ed; [|split; [exact HR|split; assumption]].
    assert (Hd : (0 <= m_time m - fb_last_time f)%Z) by lia.
    pose proof (predict_turned f f' (m_time m) (m_time m - fb_last_time f) HR EI) as HP.
    pose proof (ekf_predict_inv dyn f (m_time m) (m_time m - fb_last_time f) Hd Hinv) as HI1.
    pose proof (predict_other f (m_time m) (m_time m - fb_last_time f)) as (B1 & _). rewrite EI in B1.
    revert HP HI1 B1. generalize (ekf_predict f (m_time m) (m_time m - fb_last_time f)) (ekf_predict f' (m_time m) (m_time m - fb_last_time f)).
    intros g g' HP HI1 B1. split; [exact HP|split; [exact B1|exact HI1]]. }
  destruct H1 as (H1 & H2 & H3). clearbody s1 s1'.
  pose proof (correct_turned eig m m' s1 s1' Heig Hg HM Hn (proj1 H3) H1 H2) as HC.
  destruct (_ >=? 0)%Z; [apply TM|]; exact HC.
Qed.

Lemma diagonal_isotropic (A : rmat) : (forall i j, i <> j -> A i j = 0) -> A 0%nat 0%nat = A 1%nat 1%nat -> isotropic a A.
Proof.
  intros Ho Hd. pose proof (unit_circle a) as H. intros i j. unfold turn_mat.
  destruct i as [|[|i]], j as [|[|j]]; cbn [turn_vec]; rewrite ?(Ho 0%nat 1%nat), ?(Ho 1%nat 0%nat) by lia;
    rewrite ?(Ho 0%nat (S (S j))), ?(Ho 1%nat (S (S j))) by lia; rewrite ?(Ho (S (S i)) 0%nat), ?(Ho (S (S i)) 1%nat) by lia; rewrite <- ?Hd; try ring.
  - transitivity ((cos a * cos a + sin a * sin a) * A 0%nat 0%nat); [ring|rewrite H; ring].
  - transitivity ((cos a * cos a + sin a * sin a) * A 0%nat 0%nat); [ring|rewrite H; ring].
Qed.
Lemma default_isotropic : isotropic a (@default_Q RScalar).
Proof.
  apply diagonal_isotropic.
  - intros i j Hij. unfold default_Q. apply Nat.eqb_neq in Hij. rewrite Hij. reflexivity.
  - reflexivity.
Qed.

Lemma reset_turned (f f' : ekf RScalar) : alike f f' -> Rt (fb_reset f) (fb_reset f').
Proof.
  intros (A1 & A2 & A3 & A4 & A5 & A6 & A7 & A8 & A9 & A10 & A11 & A12 & A13 & _).
  split; [|split; [cbn; discriminate|]].
  - unfold alike. cbn [fb_initialized fb_use_control fb_use_dyn fb_control_timeout fb_last_time fb_control_time fb_sensor_timeout fb_acc_gains fb_acc_limits
      fb_dec_gains fb_dec_limits fb_control_upd fb_control fb_Q fb_dynQ fb_F fb_reset].
    repeat (split; [assumption || reflexivity|]). split; [split; apply default_isotropic|]. split; apply meye_F_ok.
  - intros _. cbn [fb_state fb_P fb_reset]. split; [reflexivity|split; [reflexivity|]]. apply diagonal_isotropic.
    + intros i j Hij. unfold mscale, meye. apply Nat.eqb_neq in Hij. rewrite Hij. toR. ring.
    + reflexivity.
Qed.

Lemma exec_turned eig dyn (f f' : ekf RScalar) o o' : eigen_inverse_ok eig -> inv dyn f -> op_ok dyn f o -> turned_op a f o o' -> Rt f f' ->
  Rt (fb_exec (ekf_vtbl eig) f o) (fb_exec (ekf_vtbl eig) f' o').
Proof.
  intros Heig Hinv Ho HT HR.
  pose proof HR as ((A1 & A2 & A3 & A4 & A5 & A6 & A7 & A8 & A9 & A10 & A11 & A12 & A13 & A14 & A15 & A16 & A17) & HE & HU).
  destruct o.
  - destruct HT as (-> & HI). cbn [fb_exec v_predict ekf_vtbl]. apply predict_turned; assumption.
  - destruct o'; cbn [turned_op] in HT; try contradiction. destruct HT as (HM & Hn & HI).
    cbn [fb_exec v_correct ekf_vtbl]. apply correct_turned; try assumption. apply Hinv.
  - destruct o'; cbn [turned_op] in HT; try contradiction. destruct HT as (HM & Hn & HS).
    cbn [fb_exec]. destruct Ho as (Hg & _). apply process_turned with (dyn := dyn); assumption.
  - cbn [turned_op] in HT; subst o'. cbn [fb_exec]. split; [|split; [exact HE|exact HU]]. repeat split; assumption || apply A16 || apply A17.
  - cbn [turned_op] in HT; subst o'. cbn [fb_exec]. split; [|split; [exact HE|exact HU]]. repeat split; assumption || apply A16 || apply A17.
  - cbn [turned_op] in HT; subst o'. cbn [fb_exec]. split; [|split; [exact HE|exact HU]]. repeat split; assumption || apply A16 || apply A17.
  - destruct o'; cbn [turned_op] in HT; try contradiction. destruct HT as (HP & Hi). cbn [fb_exec].
    assert (EP : P0 = tm P) by (extensionality i; extensionality j; apply HP).
    split; [|split]; [repeat split; assumption || apply A16 || apply A17| |].
    + intros HI. split; [exact (proj1 (HE HI))|exact EP].
    + intros HI. split; [exact (proj1 (HU HI))|]. specialize (Hi HI). split; [|exact Hi]. cbn [fb_P setEstimateErrorCovariance set_P]. rewrite EP. apply isotropic_eq, Hi.
  - cbn [turned_op] in HT; subst o'. cbn [fb_exec]. split; [|split; [exact HE|exact HU]]. repeat split; assumption || apply A16 || apply A17.
  - destruct o'; cbn [turned_op] in HT; try contradiction. destruct HT as (-> & Hi). cbn [fb_exec].
    split; [|split; [exact HE|exact HU]]. repeat split; assumption || apply A17 || exact Hi.
  - cbn [turned_op] in HT; subst o'. cbn [fb_exec]. split; [|split; [exact HE|exact HU]]. repeat split; assumption || apply A16 || apply A17.
  - destruct o'; cbn [turned_op] in HT; try contradiction. destruct HT as (HX & HX'). cbn [fb_exec].
    split; [|split]; [repeat split; assumption || apply A16 || apply A17| |].
    + intros HI. split; [exact (HX HI)|exact (proj2 (HE HI))].
    + intros HI. split; [exact (HX' HI)|exact (proj2 (HU HI))].
  - cbn [turned_op] in HT; subst o'. cbn [fb_exec]. apply reset_turned. exact (proj1 HR).
Qed.

Lemma run_turned eig dyn : eigen_inverse_ok eig -> forall os os' (f f' : ekf RScalar), inv dyn f -> run_ok dyn (ekf_vtbl eig) f os -> turned_ops a (ekf_vtbl eig) f os os' ->
  Rt f f' -> Rt (fb_run (ekf_vtbl eig) f os) (fb_run (ekf_vtbl eig) f' os').
Proof.
  intros Heig. induction os as [|o os IH]; intros os' f f' Hinv Hok HT HR; destruct os' as [|o' os']; try contradiction; [exact HR|].
  destruct Hok as (Ho & Hok). destruct HT as (HT & HTs). cbn [fb_run fold_left].
  apply (IH os'); [apply inv_exec; assumption|exact Hok|exact HTs|]. apply exec_turned with (dyn := dyn); assumption.
Qed.

Lemma init_run_turned eig dyn g os os' : eigen_inverse_ok eig -> run_ok dyn (ekf_vtbl eig) (fb_init g tt) os ->
  turned_ops a (ekf_vtbl eig) (fb_init g tt) os os' ->
  turned_filter a (fb_run (ekf_vtbl eig) (fb_init g tt) os) (fb_run (ekf_vtbl eig) (fb_init g tt) os').
Proof.
  intros Heig Hok HT.
  assert (H0 : Rt (fb_init g tt) (fb_init g tt)).
  { split; [|split; [cbn; discriminate|]].
    - unfold alike. repeat (split; [reflexivity|]). split; [split; apply default_isotropic|]. split; apply meye_F_ok.
    - intros _. split; [reflexivity|split; [reflexivity|]]. apply diagonal_isotropic.
      + intros i j Hij. cbn [fb_P fb_init fb_reset]. unfold mscale, meye. apply Nat.eqb_neq in Hij. rewrite Hij. toR. ring.
      + reflexivity. }
  pose proof (run_turned eig dyn Heig os os' _ _ (inv_init g dyn) Hok HT H0) as ((B1 & _ & _ & _ & B5 & _) & HE & _).
  split; [exact B1|split; [exact B5|]]. intros HI. destruct (HE HI) as (E1 & E2). split; [exact E1|]. intros i j. rewrite E2. reflexivity.
Qed.
End Filter.
