(** * The EKF in a mirror (C106) *)

From Coq Require Import Reals ZArith List Bool Lia Lra Arith FunctionalExtensionality.
From Verif Require Import Scalar Mat FilterBase FilterOps Ekf SpecLin SpecFilter SpecMotion SpecTurn SpecMirror
  RLin RBridge Angles EkfFacts EkfPsd EkfUpdate Motion Jacobian Pdef Order TwoD TurnFilter.
Import ListNotations.
Local Open Scope R_scope.

(** ** Signs *)
Lemma sign_cases p k : sign p k = 1 \/ sign p k = -1.
Proof. unfold sign. destruct (existsb _ _); auto. Qed.
Lemma sign_sq p k : sign p k * sign p k = 1.
Proof. destruct (sign_cases p k) as [->| ->]; ring. Qed.
Lemma sign_high p k : (15 <= k)%nat -> sign p k = 1.
Proof. intros H. unfold sign. do 15 (destruct k as [|k]; [lia|]). destruct p; reflexivity. Qed.
Lemma same_angle_refl u : same_angle u u.
Proof. exists 0%Z. ring. Qed.
Lemma same_angle_sign p k u v : same_angle u v -> same_angle (sign p k * u) (sign p k * v).
Proof. intros (z & ->). destruct (sign_cases p k) as [->| ->]; [exists z; ring|exists (- z)%Z; rewrite opp_IZR; ring]. Qed.

(** ** Matrices *)
Lemma mul_signs n (s t w : nat -> R) (A A' B B' : rmat) i j : (forall k, t k * t k = 1) ->
  (forall k, (k < n)%nat -> A' i k = s i * t k * A i k) -> (forall k, (k < n)%nat -> B' k j = t k * w j * B k j) ->
  rmul n A' B' i j = s i * w j * rmul n A B i j.
Proof.
  intros Ht HA HB. unfold rmul. rewrite <- rsum_scal_l. apply rsum_ext. intros k Hk. rewrite HA, HB by exact Hk.
  transitivity ((t k * t k) * (s i * w j * (A i k * B k j))); [ring|rewrite Ht; ring].
Qed.
Lemma mv_signs n (s t : nat -> R) (A A' : rmat) (v v' : rvec) i : (forall k, t k * t k = 1) ->
  (forall k, (k < n)%nat -> A' i k = s i * t k * A i k) -> (forall k, (k < n)%nat -> v' k = t k * v k) ->
  rmv n A' v' i = s i * rmv n A v i.
Proof.
  intros Ht HA HB. unfold rmv. rewrite <- rsum_scal_l. apply rsum_ext. intros k Hk. rewrite HA, HB by exact Hk.
  transitivity ((t k * t k) * (s i * (A i k * v k))); [ring|rewrite Ht; ring].
Qed.

Section Filter.
Variable p : mirror.
Local Notation sg := (sign p).
Local Notation mm := (mirror_mat p).

Lemma mm_mul A B : rmul 15 (mm A) (mm B) = mm (rmul 15 A B).
Proof.
  extensionality i. extensionality j. unfold mirror_mat at 3.
  apply (mul_signs 15 sg sg sg); [apply sign_sq|reflexivity|reflexivity].
Qed.
Lemma mm_T A : rT (mm A) = mm (rT A).
Proof. extensionality i. extensionality j. unfold rT, mirror_mat. ring. Qed.
Lemma mm_I : mm rI = rI.
Proof.
  extensionality i. extensionality j. unfold mirror_mat, rI. destruct (Nat.eqb_spec i j) as [->|H]; [|ring].
  rewrite sign_sq. ring.
Qed.
Lemma mm_diag (A : rmat) : (forall i j, i <> j -> A i j = 0) -> mm A = A.
Proof.
  intros H. extensionality i. extensionality j. unfold mirror_mat. destruct (Nat.eq_dec i j) as [->|Hij].
  - rewrite sign_sq. ring.
  - rewrite (H i j Hij). ring.
Qed.

(** ** States *)
Lemma mirrored_plain x x' k : mirrored_state p x x' -> ~ angular k -> x' k = sg k * x k.
Proof. intros H Hk. exact (proj2 (H k) Hk). Qed.
Lemma mirrored_trig x x' k : mirrored_state p x x' -> angular k ->
  cos (x' k) = cos (x k) /\ sin (x' k) = sg k * sin (x k).
Proof.
  intros H Hk. pose proof (proj1 (H k) Hk) as E. apply same_angle_trig in E. destruct E as (-> & ->).
  destruct (sign_cases p k) as [->| ->]; [rewrite !Rmult_1_l; split; ring|].
  replace (-1 * x k) with (- x k) by ring. rewrite cos_neg, sin_neg. split; ring.
Qed.
Lemma is_angle_dec k : (is_angle k = true /\ angular k) \/ (is_angle k = false /\ ~ angular k).
Proof. destruct (is_angle k) eqn:E; [left|right]; split; try reflexivity; [apply is_angle_true|apply is_angle_false]; exact E. Qed.

Lemma mirrored_wrap x x' : mirrored_state p x x' -> mirrored_state p (@wrap_angles RScalar x) (@wrap_angles RScalar x').
Proof.
  intros H k. rewrite !wrap_angles_entry. destruct (is_angle_dec k) as [(-> & Hk)|(-> & Hk)].
  - split; [intros _|intros N; contradiction].
    apply same_angle_trans with (x' k); [apply wrap_same_angle|].
    apply same_angle_trans with (sg k * x k); [exact (proj1 (H k) Hk)|]. apply same_angle_sign, same_angle_sym, wrap_same_angle.
  - exact (H k).
Qed.

(** ** Prediction *)
Ltac signs := unfold sign; cbn [flipped existsb Nat.eqb orb].
Ltac nonang := unfold angular; lia.

Lemma motion_mirrored x x' dt : mirrored_state p x x' -> mirrored_state p (motion_fun dt x) (motion_fun dt x').
Proof.
  intros H. pose proof (fun k => mirrored_plain x x' k H) as Hh.
  destruct (mirrored_trig x x' 3 H ltac:(nonang)) as (C3 & S3). destruct (mirrored_trig x x' 4 H ltac:(nonang)) as (C4 & S4).
  destruct (mirrored_trig x x' 5 H ltac:(nonang)) as (C5 & S5).
  assert (PL : forall k, angular k -> forall r r', r' = sg k * r -> mirrored_entry p k (x k + r) (x' k + r')).
  { intros k Hk r r' ->. split; [intros _|intros N; contradiction].
    replace (sg k * (x k + r)) with (sg k * x k + sg k * r) by ring.
    apply same_angle_plus; [exact (proj1 (H k) Hk)|reflexivity]. }
  intros k. destruct k as [|[|[|[|[|[|k]]]]]].
  1-3: split; [unfold angular; lia|intros _]; cbn [motion_fun]; unfold next_position, Rrpy, Rz, Ry, Rx, mat3, rmul, rsum; cbn [Nat.add];
    rewrite ?C3, ?S3, ?C4, ?S4, ?C5, ?S5, !Hh by nonang; destruct p; signs; ring.
  1-3: cbn [motion_fun]; apply PL; [nonang|]; unfold roll_rate, pitch_rate, yaw_rate, Rdiv;
    rewrite ?C3, ?S3, ?C4, ?S4, !Hh by nonang; destruct p; signs; ring.
  split; [unfold angular; lia|intros _]. do 3 (destruct k as [|k]; [cbn [motion_fun]; rewrite !Hh by nonang; destruct p; signs; ring|]).
  cbn [motion_fun]. apply Hh. nonang.
Qed.

Lemma controlled_mirrored sel acc acc' x x' dt : (forall i, (i < 6)%nat -> acc' i = sg i * acc i) -> mirrored_state p x x' ->
  mirrored_state p (controlled_state sel acc x dt) (controlled_state sel acc' x' dt).
Proof.
  intros HA H k. unfold controlled_state.
  destruct (Nat.leb_spec 9 k); cbn [andb].
  2:{ replace (Nat.leb 12 k) with false by (symmetry; apply Nat.leb_gt; lia). cbn [andb]. exact (H k). }
  split; [unfold angular; lia|intros _].
  destruct (Nat.leb_spec k 11); cbn [andb].
  - rewrite HA by lia. rewrite (mirrored_plain x x' k H) by nonang.
    assert (E : sg (k - 6) = sg k) by (do 9 (destruct k as [|k]; [lia|]); do 3 (destruct k as [|k]; [destruct p; reflexivity|]); lia).
    rewrite E. ring.
  - destruct (Nat.leb_spec k 14); rewrite ?Bool.andb_false_r; [|apply (mirrored_plain x x' k H); nonang].
    replace (Nat.leb 12 k) with true by (symmetry; apply Nat.leb_le; lia). cbn [andb].
    destruct (sel (k - 12)%nat); [|apply (mirrored_plain x x' k H); nonang]. rewrite HA by lia. f_equal.
    do 12 (destruct k as [|k]; [lia|]); do 3 (destruct k as [|k]; [destruct p; reflexivity|]); lia.
Qed.

Lemma jac_mirrored (F F' : rmat) x x' dt : F_ok (K := RScalar) F -> F_ok (K := RScalar) F' -> mirrored_state p x x' ->
  @ekf_jacobian RScalar (@ekf_transfer RScalar F' x' dt) x' dt =
  mm (@ekf_jacobian RScalar (@ekf_transfer RScalar F x dt) x dt).
Proof.
  intros HF HF' H. pose proof (fun k => mirrored_plain x x' k H) as Hh.
  destruct (mirrored_trig x x' 3 H ltac:(nonang)) as (C3 & S3). destruct (mirrored_trig x x' 4 H ltac:(nonang)) as (C4 & S4).
  destruct (mirrored_trig x x' 5 H ltac:(nonang)) as (C5 & S5).
  extensionality i. extensionality j. destruct (jac_assigned i j) eqn:EA.
  - do 9 (destruct i as [|i]; [do 15 (destruct j as [|j];
      [try discriminate EA;
       unfold mirror_mat, ekf_jacobian, ekf_transfer, mset; cbn [Nat.eqb andb];
       rewrite ?lit_5_1; toR; unfold Rdiv; rewrite ?C3, ?S3, ?C4, ?S4, ?C5, ?S5, ?Hh by nonang; destruct p; signs; ring|]); discriminate EA|]).
    discriminate EA.
  - unfold mirror_mat. rewrite (jac_out F' x' dt i j HF' EA), (jac_out F x dt i j HF EA).
    change (rI i j = mm rI i j). rewrite mm_I. reflexivity.
Qed.

Lemma norm_mirrored x x' : mirrored_state p x x' -> @velocity_matrix RScalar x' = @velocity_matrix RScalar x.
Proof.
  intros H. unfold velocity_matrix, velocity_norm. cbn [sumn Nat.add].
  rewrite !(mirrored_plain _ _ _ H) by (unfold angular; cbn; lia). extensionality i. extensionality j.
  destruct (Nat.eqb i j); [|reflexivity]. do 2 f_equal. toR. destruct p; signs; ring.
Qed.
Lemma dyn_mirrored (f f' : ekf RScalar) : mirrored_state p (fb_state f) (fb_state f') ->
  fb_Q f' = mm (fb_Q f) -> fb_dynQ f' = mm (fb_dynQ f) ->
  fb_dynQ (computeDynamicProcessNoiseCovariance f' (fb_state f')) = mm (fb_dynQ (computeDynamicProcessNoiseCovariance f (fb_state f))).
Proof.
  intros H E2 E3. unfold computeDynamicProcessNoiseCovariance. cbn [fb_dynQ set_dynQ].
  rewrite (norm_mirrored _ _ H), E2, E3. toR. extensionality i. extensionality j. unfold mirror_mat at 3.
  change TWIST_SIZE with 6%nat.
  destruct (Nat.ltb_spec i 6); cbn [andb]; [|reflexivity]. destruct (Nat.ltb_spec j 6); cbn [andb]; [|reflexivity].
  rewrite !dyn_block by assumption. unfold mirror_mat. ring.
Qed.
Lemma noise_mirrored (f f' : ekf RScalar) : mirrored_state p (fb_state f) (fb_state f') -> fb_use_dyn f' = fb_use_dyn f ->
  fb_Q f' = mm (fb_Q f) -> fb_dynQ f' = mm (fb_dynQ f) -> noise_used f' = mm (noise_used f).
Proof.
  intros H E1 E2 E3. unfold noise_used. rewrite E1. destruct (fb_use_dyn f); [|exact E2]. apply dyn_mirrored; assumption.
Qed.

Lemma clamp_odd l x : 0 <= l -> @s_min RScalar (@s_max RScalar (- x) (- l)) l = - @s_min RScalar (@s_max RScalar x (- l)) l.
Proof.
  intros Hl. unfold s_min, s_max. toR. unfold Rltb.
  destruct (Rlt_dec (- x) (- l)), (Rlt_dec x (- l));
    repeat match goal with |- context [Rlt_dec ?a ?b] => destruct (Rlt_dec a b) end; lra.
Qed.
Lemma accel_odd k v t al ag dl dg : 0 <= al -> 0 <= dl ->
  @computeControlAcceleration RScalar (sg k * v) (sg k * t) al ag dl dg = sg k * @computeControlAcceleration RScalar v t al ag dl dg.
Proof.
  intros Ha Hd. destruct (sign_cases p k) as [->| ->]; [rewrite !Rmult_1_l; reflexivity|].
  replace (-1 * v) with (- v) by ring. replace (-1 * t) with (- t) by ring. unfold computeControlAcceleration.
  cbv zeta. toR. set (e := t - v). replace (- t - - v) with (- e) by (subst e; ring). clearbody e.
  rewrite !Rabs_Ropp.
  replace (if Rleb (Rabs e) (Rabs t + @lit RScalar 1 2) then - t else 0) with (- (if Rleb (Rabs e) (Rabs t + @lit RScalar 1 2) then t else 0))
    by (destruct (Rleb _ _); ring).
  rewrite Rabs_Ropp. set (b := Rltb _ _).
  assert (HL : 0 <= (if b then dl else al)) by (destruct b; assumption).
  replace ((if b then dg else ag) * - e) with (- ((if b then dg else ag) * e)) by ring.
  rewrite clamp_odd by exact HL. ring.
Qed.

(** Settings *)
Definition alike (f f' : ekf RScalar) : Prop :=
  fb_initialized f' = fb_initialized f /\ fb_use_control f' = fb_use_control f /\
  fb_use_dyn f' = fb_use_dyn f /\ fb_control_timeout f' = fb_control_timeout f /\
  fb_last_time f' = fb_last_time f /\ fb_control_time f' = fb_control_time f /\
  fb_sensor_timeout f' = fb_sensor_timeout f /\ fb_acc_gains f' = fb_acc_gains f /\
  fb_acc_limits f' = fb_acc_limits f /\ fb_dec_gains f' = fb_dec_gains f /\
  fb_dec_limits f' = fb_dec_limits f /\ fb_control_upd f' = fb_control_upd f /\
  (forall i, (i < 6)%nat -> fb_control f' i = sg i * fb_control f i) /\ fb_Q f' = mm (fb_Q f) /\ fb_dynQ f' = mm (fb_dynQ f) /\
  (Forall (Rle 0) (fb_acc_limits f) /\ Forall (Rle 0) (fb_dec_limits f)) /\ (F_ok (fb_F f) /\ F_ok (fb_F f')).
Definition estimate (f f' : ekf RScalar) : Prop :=
  mirrored_state p (fb_state f) (fb_state f') /\ fb_P f' = mm (fb_P f).
Definition Rm (f f' : ekf RScalar) : Prop := alike f f' /\ estimate f f'.

Lemma nth_nonneg l i : Forall (Rle 0) l -> 0 <= nth i l 0.
Proof.
  intros H. destruct (Nat.lt_ge_cases i (length l)) as [L|L]; [|rewrite nth_overflow by exact L; lra].
  rewrite Forall_forall in H. apply H, nth_In, L.
Qed.
Lemma acc_mirrored (f f' : ekf RScalar) r i : Rm f f' -> (i < 6)%nat -> predict_acc f' r i = sg i * predict_acc f r i.
Proof.
  intros ((_ & E2 & _ & E4 & _ & E6 & _ & E8 & E9 & E10 & E11 & E12 & E13 & _ & _ & (N1 & N2) & _) & H & _) Hi.
  unfold predict_acc, prepareControl, control_timed_out. cbn [fb_control_acc set_control_acc]. rewrite E2, E4, E6, E8, E9, E10, E11, E12.
  destruct (_ && _ && _)%bool; [|toR; ring].
  rewrite (mirrored_plain _ _ _ H) by (unfold angular; lia).
  assert (Es : sg (i + POSITION_V_OFFSET) = sg i) by (do 6 (destruct i as [|i]; [destruct p; reflexivity|]); lia). rewrite Es, E13 by exact Hi.
  set (b := (_ >=? _)%Z). replace (if b then 0%sc else (sg i * fb_control f i : RScalar)) with (sg i * (if b then 0 else fb_control f i)) by (destruct b; toR; ring).
  apply accel_odd; apply nth_nonneg; assumption.
Qed.

Lemma predict_mirrored (f f' : ekf RScalar) r d : Rm f f' -> Rm (ekf_predict f r d) (ekf_predict f' r d).
Proof.
  intros HR. pose proof (fun i => acc_mirrored f f' r i HR) as EAcc. destruct HR as (HA & Hx & HP).
  pose proof HA as (A1 & A2 & A3 & A4 & A5 & A6 & A7 & A8 & A9 & A10 & A11 & A12 & A13 & A14 & A15 & (A16 & A16') & (A17 & A17')).
  pose proof (predict_other f r d) as (B1 & B2 & B3 & B4 & B5 & B6 & B7 & B8 & B9 & B10 & B11 & B12 & B13 & B14 & _ & _ & B17 & _).
  pose proof (predict_other f' r d) as (C1 & C2 & C3 & C4 & C5 & C6 & C7 & C8 & C9 & C10 & C11 & C12 & C13 & C14 & _ & _ & C17 & _).
  pose proof (noise_mirrored f f' Hx A3 A14 A15) as EN.
  split; [|split].
  - unfold alike. rewrite B1, B2, B3, B4, B5, B6, B7, B8, B9, B10, B11, B12, B13, B14, B17, C1, C2, C3, C4, C5, C6, C7, C8, C9, C10, C11, C12, C13, C14, C17, !predict_dynQ.
    repeat (split; [assumption|]).
    split; [rewrite A3; destruct (fb_use_dyn f); [apply dyn_mirrored; assumption|assumption]|].
    split; [split; assumption|]. split; apply transfer_F_ok; assumption.
  - assert (HS : mirrored_state p (shifted f r d) (shifted f' r d)).
    { unfold shifted. rewrite A12. apply controlled_mirrored; [exact EAcc|exact Hx]. }
    apply (motion_mirrored _ _ (@toSec RScalar d)) in HS.
    assert (HT : mirrored_state p (fun k => if Nat.ltb k 15 then motion_fun (@toSec RScalar d) (shifted f r d) k else 0)
                                  (fun k => if Nat.ltb k 15 then motion_fun (@toSec RScalar d) (shifted f' r d) k else 0)).
    { intros k. destruct (Nat.ltb_spec k 15); [exact (HS k)|]. split; [unfold angular; lia|intros _; ring]. }
    apply mirrored_wrap in HT.
    assert (EX : forall g, F_ok (fb_F g) -> fb_state (ekf_predict g r d) = @wrap_angles RScalar (fun k => if Nat.ltb k 15 then motion_fun (@toSec RScalar d) (shifted g r d) k else 0))
      by (intros g Hg; apply functional_extensionality; intros k; apply predict_entry; exact Hg).
    rewrite !EX by assumption. exact HT.
  - rewrite !predict_P, EN, HP. unfold predict_J, predict_F. unfold madd, mscale. toR.
    rewrite (jac_mirrored (fb_F f) (fb_F f') (fb_state f) (fb_state f') _ A17 A17' Hx).
    rewrite mm_T, !mm_mul.
    match goal with |- context [mm (rmul 15 ?A ?B)] => generalize (rmul 15 A B) end. intros M. set (c := @toSec RScalar d).
    generalize (noise_used f). intros W. clearbody c. extensionality i. extensionality j. unfold mirror_mat. ring.
Qed.

(** The Joseph form of any matrices *)
Lemma joseph_signs n si (G G' W W' H P : rmat) : (forall k, si k * si k = 1) ->
  (forall i k, (k < n)%nat -> G' i k = sg i * si k * G i k) ->
  (forall i j, (i < n)%nat -> (j < n)%nat -> W' i j = si i * si j * W i j) ->
  (forall k j, (k < n)%nat -> H k j = si k * sg j * H k j) ->
  @joseph RScalar n G' H W' (mm P) = mm (@joseph RScalar n G H W P).
Proof.
  intros Hs HK HR HH.
  unfold joseph, madd, msub. toR.
  assert (E1 : rmul n G' H = mm (rmul n G H)).
  { extensionality i. extensionality j. apply (mul_signs n sg si sg); [exact Hs|intros; apply HK; assumption|intros; apply HH; assumption]. }
  assert (E2 : rmul n (rmul n G' W') (rT G') = mm (rmul n (rmul n G W) (rT G))).
  { extensionality i. extensionality j. apply (mul_signs n sg si sg); [exact Hs| |].
    - intros k Hk. apply (mul_signs n sg si si); [exact Hs|intros; apply HK; assumption|intros; apply HR; assumption].
    - intros k Hk. unfold rT. rewrite HK by exact Hk. ring. }
  rewrite E1, E2. generalize (rmul n G H) (rmul n (rmul n G W) (rT G)). intros M V.
  assert (EI : (fun i j => rI i j - mm M i j) = mm (fun i j => rI i j - M i j)).
  { extensionality i. extensionality j. transitivity (mm rI i j - mm M i j); [rewrite mm_I; reflexivity|unfold mirror_mat; ring]. }
  rewrite EI, mm_T, !mm_mul. extensionality i. extensionality j. unfold mirror_mat. ring.
Qed.

(** ** Correction *)
Section Correct.
Variables m m' : meas RScalar.
Hypothesis Hlen : length (m_upd m) = 15%nat.
Hypothesis HM : mirrored_meas p m m'.
Let idx := selected m.
Let n := length idx.
Let si k := sg (nth k idx 0%nat).

Lemma si_sq k : si k * si k = 1.
Proof. apply sign_sq. Qed.
Lemma upd_same : m_upd m' = m_upd m.
Proof. destruct HM as (v & C & u & -> & _). reflexivity. Qed.
Lemma selected_same : selected m' = idx.
Proof. unfold selected. rewrite upd_same. reflexivity. Qed.
Lemma idx_sel k : (k < n)%nat -> nth (nth k idx 0%nat) (m_upd m) false = true.
Proof. intros Hk. pose proof (nth_In idx 0%nat Hk) as H. unfold idx at 2, selected in H. apply filter_In in H. exact (proj2 H). Qed.
Lemma Hlen' : length (m_upd m') = 15%nat.
Proof. rewrite upd_same. exact Hlen. Qed.

Lemma repaired_mirrored i j : nth i (m_upd m) false = true -> nth j (m_upd m) false = true ->
  repaired_cov m' i j = mm (repaired_cov m) i j.
Proof.
  intros Hi Hj. destruct HM as (v & C & u & -> & _ & HC). cbv zeta in HC. unfold mirror_mat, repaired_cov. cbn [m_cov].
  rewrite (HC i i Hi Hi), (HC i j Hi Hj). unfold mirror_mat. destruct (Nat.eqb_spec i j) as [<-|_]; [|reflexivity].
  rewrite sign_sq, !Rmult_1_l. reflexivity.
Qed.
Lemma S_mirrored (P P' : rmat) : P' = mm P -> forall i j, (i < n)%nat -> (j < n)%nat ->
  innovation_cov P' m' i j = si i * si j * innovation_cov P m i j.
Proof.
  intros -> i j Hi Hj. unfold innovation_cov. rewrite selected_same. fold idx. cbv zeta.
  rewrite repaired_mirrored by (apply idx_sel; assumption). unfold mirror_mat, si. ring.
Qed.
Lemma I_signs i j : rI i j = si i * si j * rI i j.
Proof. unfold rI. destruct (Nat.eqb_spec i j) as [->|_]; [rewrite si_sq; ring|ring]. Qed.
Lemma inverse_signs A B : is_inverse n A B -> is_inverse n (fun i j => si i * si j * A i j) (fun i j => si i * si j * B i j).
Proof.
  intros H i j Hi Hj. destruct (H i j Hi Hj) as (H1 & H2). split.
  - rewrite (mul_signs n si si si A _ B) by (reflexivity || exact si_sq). rewrite H1. symmetry. apply I_signs.
  - rewrite (mul_signs n si si si B _ A) by (reflexivity || exact si_sq). rewrite H2. symmetry. apply I_signs.
Qed.

Lemma innovation_mirrored (x x' nu nu' : rvec) : mirrored_state p x x' -> no_tie x m -> innovation_of x m nu -> innovation_of x' m' nu' ->
  forall k, (k < n)%nat -> nu' k = si k * nu k.
Proof.
  intros Hx HT Hn Hn' k0 Hk0. apply (innovation_unique m' x' nu' (fun k => si k * nu k)) in Hn'.
  - apply Hn'. rewrite selected_same. exact Hk0.
  - clear k0 Hk0. destruct HM as (v & C & u & E & HV & _). cbv beta zeta in *.
    intros k Hk. rewrite selected_same in *. cbv zeta.
    assert (EV : m_value m' = v) by (rewrite E; reflexivity). rewrite EV. clear E EV.
    pose proof (idx_sel k Hk) as Hs. pose proof (Hn k Hk) as (HA & HN). fold idx in HA, HN. specialize (HV _ Hs).
    unfold si. specialize (Hx (nth k idx 0%nat)). specialize (HT (nth k idx 0%nat)).
    revert HA HN HV Hx HT Hs. generalize (nth k idx 0%nat). intros l HA HN HV Hx HT Hs. split; intros Hang.
    + destruct (proj1 HV Hang) as (z & ->). destruct (proj1 Hx Hang) as (z' & ->). destruct (HA Hang) as ((HA1 & HA2) & y & HA3).
      assert (Hne : nu k <> PI).
      { intros E. rewrite E in HA3. apply (HT Hang Hs). exists (- y)%Z. rewrite opp_IZR. lra. }
      destruct (sign_cases p l) as [->| ->].
      * split; [lra|]. exists (y - z + z')%Z. rewrite HA3, plus_IZR, minus_IZR. ring.
      * split; [lra|]. exists (- y - z + z')%Z. rewrite HA3, plus_IZR, minus_IZR, opp_IZR. ring.
    + rewrite (proj2 HV Hang), (proj2 Hx Hang), (HN Hang). ring.
Qed.

Variable eig : Eigen RScalar.
Hypothesis Heig : eigen_inverse_ok eig.
Variables f f' : ekf RScalar.
Hypothesis Hx : mirrored_state p (fb_state f) (fb_state f').
Hypothesis HP : fb_P f' = mm (fb_P f).
Hypothesis Hpsd : psd 15 (fb_P f).
Hypothesis Hnoisy : noisy m.
Hypothesis Htie : no_tie (fb_state f) m.
Let u := ekf_compute_update eig (fb_state f) (fb_P f) m.
Let u' := ekf_compute_update eig (fb_state f') (fb_P f') m'.

Lemma S_invertible : invertible n (innovation_cov (fb_P f) m).
Proof.
  apply pdef_invertible. unfold innovation_cov. apply pdef_psd_plus; [|exact Hnoisy].
  apply (psd_sub idx (fb_P f) 15); [|exact Hpsd].
  intros k Hk. unfold idx, selected in Hk. apply filter_In in Hk. destruct Hk as (Hk & _). apply in_seq in Hk. lia.
Qed.
Lemma S_invertible' : invertible n (innovation_cov (fb_P f') m').
Proof.
  apply (invertible_ext n (fun i j => si i * si j * innovation_cov (fb_P f) m i j)).
  - intros i j Hi Hj. symmetry. apply (S_mirrored _ _ HP); assumption.
  - destruct S_invertible as (B & HB). eexists. apply inverse_signs. exact HB.
Qed.
Lemma u_Sinv_mirrored i j : (i < n)%nat -> (j < n)%nat -> u_Sinv u' i j = si i * si j * u_Sinv u i j.
Proof.
  intros Hi Hj. pose proof (u_Sinv_ok eig f m Heig Hlen S_invertible) as H1. fold u idx n in H1.
  pose proof (u_Sinv_ok eig f' m' Heig Hlen') as H2. rewrite selected_same in H2. specialize (H2 S_invertible'). fold u' in H2.
  apply inverse_signs in H1. symmetry. refine (inverse_unique n _ _ (fun i j => si i * si j * u_Sinv u i j) H2 _ i j Hi Hj).
  intros k l Hk Hl. etransitivity; [|exact (proj1 (H1 k l Hk Hl))]. apply rmul_ext; [|auto].
  intros q Hq. apply (S_mirrored _ _ HP); assumption.
Qed.
Lemma u_n_same : u_n u = n /\ u_n u' = n.
Proof.
  split; [exact (u_n_eq eig m Hlen f)|]. unfold n. rewrite <- selected_same. exact (u_n_eq eig m' Hlen' f').
Qed.
Lemma u_K_mirrored i k : (k < n)%nat -> u_K u' i k = sg i * si k * u_K u i k.
Proof.
  intros Hk. pose proof (u_K_eq eig m' Hlen' f') as E'. pose proof (u_K_eq eig m Hlen f) as E.
  change (u_K u' = rmul (length (selected m')) (rmul 15 (fb_P f') (rT (u_H u'))) (u_Sinv u')) in E'.
  change (u_K u = rmul n (rmul 15 (fb_P f) (rT (u_H u))) (u_Sinv u)) in E.
  rewrite selected_same in E'. fold n in E'. rewrite E', E. clear E E'.
  apply (mul_signs n sg si si); [exact si_sq| |].
  - intros l Hl. pose proof (pht_entry m' Hlen' (fb_P f') i l) as Hp. rewrite selected_same in Hp.
    pose proof (pht_entry m Hlen (fb_P f) i l) as Hq. fold idx in Hq.
    etransitivity; [apply Hp; exact Hl|]. rewrite HP. unfold mirror_mat. fold (si l). f_equal. symmetry. apply Hq. exact Hl.
  - intros l Hl. apply u_Sinv_mirrored; assumption.
Qed.
Lemma u_innov_mirrored k : (k < n)%nat -> u_innov u' k = si k * u_innov u k.
Proof. exact (innovation_mirrored _ _ _ _ Hx Htie (u_innov_ok eig f m Hlen) (u_innov_ok eig f' m' Hlen') k). Qed.

Lemma gate_mirrored : checkMahalanobisThreshold (u_n u') (u_innov u') (u_Sinv u') (m_thresh m') = checkMahalanobisThreshold (u_n u) (u_innov u) (u_Sinv u) (m_thresh m).
Proof.
  destruct u_n_same as (-> & ->). assert (ET : m_thresh m' = m_thresh m) by (destruct HM as (v & C & w & -> & _); reflexivity).
  rewrite ET. unfold checkMahalanobisThreshold. toR. do 2 f_equal.
  unfold rdot. apply rsum_ext. intros k Hk. rewrite u_innov_mirrored by exact Hk.
  rewrite (mv_signs n si si (u_Sinv u) (u_Sinv u') (u_innov u) (u_innov u') k).
  - transitivity ((si k * si k) * (u_innov u k * rmv n (u_Sinv u) (u_innov u) k)); [ring|rewrite si_sq; ring].
  - exact si_sq.
  - intros l Hl. apply u_Sinv_mirrored; assumption.
  - exact u_innov_mirrored.
Qed.

Lemma state_mirrored : mirrored_state p (@vadd RScalar (fb_state f) (@mvmul RScalar (u_n u) (u_K u) (u_innov u)))
  (@vadd RScalar (fb_state f') (@mvmul RScalar (u_n u') (u_K u') (u_innov u'))).
Proof.
  destruct u_n_same as (-> & ->). unfold vadd. toR. intros k.
  rewrite (mv_signs n sg si (u_K u) (u_K u') (u_innov u) (u_innov u') k); [|exact si_sq|intros; apply u_K_mirrored; assumption|exact u_innov_mirrored].
  generalize (rmv n (u_K u) (u_innov u) k). intros w. specialize (Hx k). clearbody u u'. clear - Hx.
  split; intros Hk.
  - replace (sg k * (fb_state f k + w)) with (sg k * fb_state f k + sg k * w) by ring.
    apply same_angle_plus; [exact (proj1 Hx Hk)|reflexivity].
  - rewrite (proj2 Hx Hk). ring.
Qed.

Lemma u_R_mirrored i j : (i < n)%nat -> (j < n)%nat -> u_R u' i j = si i * si j * u_R u i j.
Proof.
  intros Hi Hj.
  assert (ER : u_R u i j = repaired_cov m (nth i idx 0%nat) (nth j idx 0%nat)).
  { pose proof (S_entry m Hlen (fun _ _ => 0) i j Hi Hj) as H. cbv beta in H.
    rewrite (HP_entry m Hlen) in H by exact Hi. rewrite (pht_entry m Hlen) in H by exact Hj.
    unfold innovation_cov in H. change (u_R u i j) with (@cov_subset RScalar (update_indices m) m i j). fold idx in H. toR. lra. }
  assert (ER' : u_R u' i j = repaired_cov m' (nth i idx 0%nat) (nth j idx 0%nat)).
  { pose proof (S_entry m' Hlen' (fun _ _ => 0) i j) as H. rewrite selected_same in H. specialize (H Hi Hj). cbv beta in H.
    rewrite (HP_entry m' Hlen') in H by (rewrite selected_same; exact Hi). rewrite (pht_entry m' Hlen') in H by (rewrite selected_same; exact Hj).
    unfold innovation_cov in H. rewrite selected_same in H. change (u_R u' i j) with (@cov_subset RScalar (update_indices m') m' i j). toR. lra. }
  rewrite ER', ER. apply repaired_mirrored; apply idx_sel; assumption.
Qed.

Lemma joseph_mirrored : @joseph RScalar (u_n u') (u_K u') (u_H u') (u_R u') (fb_P f') = mm (@joseph RScalar (u_n u) (u_K u) (u_H u) (u_R u) (fb_P f)).
Proof.
  destruct u_n_same as (-> & ->).
  assert (EH : u_H u' = u_H u).
  { change (@state_to_meas RScalar (update_indices m') = @state_to_meas RScalar (update_indices m)). f_equal.
    rewrite !update_indices_R, upd_same. reflexivity. }
  assert (HH : forall k j, (k < n)%nat -> u_H u k j = si k * sg j * u_H u k j).
  { intros k j Hk. change (u_H u k j) with (@state_to_meas RScalar (update_indices m) k j).
    rewrite (H_row m Hlen k j Hk). fold idx. unfold si. change (sc RScalar) with R. destruct (Nat.eqb_spec j (nth k idx 0%nat)) as [->|_]; [rewrite sign_sq; ring|ring]. }
  rewrite EH, HP. exact (joseph_signs n si _ _ _ _ _ _ si_sq u_K_mirrored u_R_mirrored HH).
Qed.
End Correct.

Lemma correct_mirrored eig m m' (f f' : ekf RScalar) : eigen_inverse_ok eig -> good_meas m -> mirrored_meas p m m' -> noisy m ->
  no_tie (fb_state f) m -> psd 15 (fb_P f) -> Rm f f' -> Rm (ekf_correct eig f m) (ekf_correct eig f' m').
Proof.
  intros Heig (Hlen & _) HM Hn HT Hpsd (HA & Hx & HP).
  unfold ekf_correct. cbv zeta. rewrite (gate_mirrored m m' Hlen HM eig Heig f f' Hx HP Hpsd Hn HT).
  destruct (checkMahalanobisThreshold _ _ _ _); [|split; [exact HA|split; [exact Hx|exact HP]]].
  split; [exact HA|split]; cbn [fb_state fb_P wrapStateAngles set_P set_state].
  - apply mirrored_wrap. exact (state_mirrored m m' Hlen HM eig Heig f f' Hx HP Hpsd Hn HT).
  - exact (joseph_mirrored m m' Hlen HM eig Heig f f' HP Hpsd Hn).
Qed.

Lemma init_mirrored m m' (f f' : ekf RScalar) : good_meas m -> mirrored_meas p m m' -> Rm f f' -> Rm (init_from f m) (init_from f' m').
Proof.
  intros (Hlen & _) (v & C & w & E & HV & HC) (HA & Hx & HP). cbv beta zeta in *.
  split; [|split].
  - destruct HA as (A1 & A2). split; [reflexivity|exact A2].
  - rewrite E. unfold init_from. cbv zeta. cbn [fb_state set_initialized set_P set_state m_upd m_value]. intros k. specialize (HV k).
    unfold flag. destruct (Nat.ltb k (length (m_upd m))); cbn [andb]; [|exact (Hx k)].
    destruct (nth k (m_upd m) false); [apply HV; reflexivity|exact (Hx k)].
  - rewrite E. unfold init_from. cbv zeta. cbn [fb_P set_initialized set_P set_state m_upd m_cov]. rewrite HP.
    extensionality i. extensionality j. specialize (HC i j). unfold mirror_mat at 1 2. unfold flag.
    destruct (Nat.ltb i _ && Nat.ltb j _)%bool; cbn [andb]; [|reflexivity].
    destruct (nth i (m_upd m) false); cbn [andb]; [|reflexivity]. destruct (nth j (m_upd m) false); [|reflexivity].
    rewrite HC by reflexivity. reflexivity.
Qed.

Lemma process_mirrored eig dyn m m' (f f' : ekf RScalar) : eigen_inverse_ok eig -> inv dyn f -> good_meas m -> mirrored_meas p m m' -> noisy m ->
  (fb_initialized f = true -> no_tie (expected (ekf_vtbl eig) f m) m) -> Rm f f' ->
  Rm (processMeasurement (ekf_vtbl eig) f m) (processMeasurement (ekf_vtbl eig) f' m').
Proof.
  intros Heig Hinv Hg HM Hn HS HR. unfold processMeasurement.
  assert (E1 : fb_initialized f' = fb_initialized f) by apply HR.
  assert (E2 : fb_last_time f' = fb_last_time f) by (destruct HR as ((_ & _ & _ & _ & E & _) & _); exact E).
  assert (ET : m_time m' = m_time m) by (destruct HM as (v & C & u & -> & _); reflexivity). rewrite E1, E2, ET.
  assert (TM : forall g g' t, Rm g g' -> Rm (set_last_time g t) (set_last_time g' t)).
  { intros g g' t ((B1 & B2 & B3 & B4 & B5 & B6) & HR2). split; [|exact HR2]. repeat split; try assumption; try apply B6. }
  destruct (fb_initialized f) eqn:EI; [|apply TM, init_mirrored; auto]. specialize (HS eq_refl).
  cbv zeta. cbn [v_predict v_correct ekf_vtbl].
  set (s1 := if (_ >? 0)%Z then set_predicted (ekf_predict f _ _) _ else f).
  set (s1' := if (_ >? 0)%Z then set_predicted (ekf_predict f' _ _) _ else f').
  assert (H1 : Rm s1 s1' /\ inv dyn s1 /\ fb_state s1 = expected (ekf_vtbl eig) f m).
  { subst s1 s1'. unfold expected. cbn [v_predict ekf_vtbl].
    assert (Ec : (m_time m >? fb_last_time f)%Z = (m_time m - fb_last_time f >? 0)%Z)
      by (destruct (Z.gtb_spec (m_time m) (fb_last_time f)), (Z.gtb_spec (m_time m - fb_last_time f) 0); try reflexivity; lia).
    rewrite Ec. clear Ec.
    destruct (m_time m - fb_last_time f >? 0)%Z eqn:Ed; [|split; [exact HR|split; [assumption|reflexivity]]].
    assert (Hd : (0 <= m_time m - fb_last_time f)%Z) by lia.
    pose proof (predict_mirrored f f' (m_time m) (m_time m - fb_last_time f) HR) as HP.
    pose proof (ekf_predict_inv dyn f (m_time m) (m_time m - fb_last_time f) Hd Hinv) as HI1.
    revert HP HI1. generalize (ekf_predict f (m_time m) (m_time m - fb_last_time f)) (ekf_predict f' (m_time m) (m_time m - fb_last_time f)).
    intros g g' HP HI1. split; [exact HP|split; [exact HI1|reflexivity]]. }
  destruct H1 as (H1 & H2 & H3). clearbody s1 s1'. rewrite <- H3 in HS.
  pose proof (correct_mirrored eig m m' s1 s1' Heig Hg HM Hn HS (proj1 H2) H1) as HC.
  destruct (_ >=? 0)%Z; [apply TM|]; exact HC.
Qed.

Lemma default_mirrored : @default_Q RScalar = mm (@default_Q RScalar).
Proof.
  symmetry. apply mm_diag. intros i j Hij. unfold default_Q. apply Nat.eqb_neq in Hij. rewrite Hij. reflexivity.
Qed.
Lemma fresh_P_mirrored : mscale (@lit RScalar 1 9) meye = mm (mscale (@lit RScalar 1 9) meye).
Proof.
  symmetry. apply mm_diag. intros i j Hij. unfold mscale, meye. apply Nat.eqb_neq in Hij. rewrite Hij. toR. ring.
Qed.
Lemma zero_mirrored : mirrored_state p (fun _ => 0) (fun _ => 0).
Proof. intros k. split; intros _; [exists 0%Z|]; ring. Qed.

Lemma reset_mirrored (f f' : ekf RScalar) : alike f f' -> Rm (fb_reset f) (fb_reset f').
Proof.
  intros (A1 & A2 & A3 & A4 & A5 & A6 & A7 & A8 & A9 & A10 & A11 & A12 & A13 & _ & _ & A16 & _).
  split; [|split].
  - unfold alike. cbn [fb_initialized fb_use_control fb_use_dyn fb_control_timeout fb_last_time fb_control_time fb_sensor_timeout fb_acc_gains fb_acc_limits
      fb_dec_gains fb_dec_limits fb_control_upd fb_control fb_Q fb_dynQ fb_F fb_reset].
    repeat (split; [assumption || reflexivity || apply default_mirrored|]). split; apply meye_F_ok.
  - exact zero_mirrored.
  - exact fresh_P_mirrored.
Qed.

Lemma exec_mirrored eig dyn (f f' : ekf RScalar) o o' : eigen_inverse_ok eig -> inv dyn f -> op_ok dyn f o -> mirrored_op p (ekf_vtbl eig) f o o' -> Rm f f' ->
  Rm (fb_exec (ekf_vtbl eig) f o) (fb_exec (ekf_vtbl eig) f' o').
Proof.
  intros Heig Hinv Ho HT HR.
  pose proof HR as ((A1 & A2 & A3 & A4 & A5 & A6 & A7 & A8 & A9 & A10 & A11 & A12 & A13 & A14 & A15 & A16 & A17) & HE).
  destruct o.
  - cbn [mirrored_op] in HT; subst o'. cbn [fb_exec v_predict ekf_vtbl]. apply predict_mirrored; assumption.
  - destruct o'; cbn [mirrored_op] in HT; try contradiction. destruct HT as (HM & Hn & HI).
    cbn [fb_exec v_correct ekf_vtbl]. apply correct_mirrored; try assumption. apply Hinv.
  - destruct o'; cbn [mirrored_op] in HT; try contradiction. destruct HT as (HM & Hn & HS).
    cbn [fb_exec]. destruct Ho as (Hg & _). apply process_mirrored with (dyn := dyn); assumption.
  - destruct o'; cbn [mirrored_op] in HT; try contradiction. destruct HT as (-> & HU).
    cbn [fb_exec]. split; [|exact HE]. repeat split; assumption || apply A16 || apply A17.
  - cbn [mirrored_op] in HT. destruct HT as (-> & N1 & N2). cbn [fb_exec]. split; [|exact HE]. repeat split; assumption || apply A17.
  - cbn [mirrored_op] in HT; subst o'. cbn [fb_exec]. split; [|exact HE]. repeat split; assumption || apply A16 || apply A17.
  - destruct o'; cbn [mirrored_op] in HT; try contradiction. cbn [fb_exec].
    split; [repeat split; assumption || apply A16 || apply A17|]. split; [exact (proj1 HE)|]. extensionality i; extensionality j; apply HT.
  - cbn [mirrored_op] in HT; subst o'. cbn [fb_exec]. split; [|exact HE]. repeat split; assumption || apply A16 || apply A17.
  - destruct o'; cbn [mirrored_op] in HT; try contradiction. cbn [fb_exec].
    assert (EQ : Q0 = mm Q) by (extensionality i; extensionality j; apply HT).
    split; [|exact HE]. repeat split; assumption || apply A16 || apply A17.
  - cbn [mirrored_op] in HT; subst o'. cbn [fb_exec]. split; [|exact HE]. repeat split; assumption || apply A16 || apply A17.
  - destruct o'; cbn [mirrored_op] in HT; try contradiction. cbn [fb_exec].
    split; [repeat split; assumption || apply A16 || apply A17|]. split; [exact HT|exact (proj2 HE)].
  - cbn [mirrored_op] in HT; subst o'. cbn [fb_exec]. apply reset_mirrored. exact (proj1 HR).
Qed.

Lemma run_mirrored eig dyn : eigen_inverse_ok eig -> forall os os' (f f' : ekf RScalar), inv dyn f -> run_ok dyn (ekf_vtbl eig) f os -> mirrored_ops p (ekf_vtbl eig) f os os' ->
  Rm f f' -> Rm (fb_run (ekf_vtbl eig) f os) (fb_run (ekf_vtbl eig) f' os').
Proof.
  intros Heig. induction os as [|o os IH]; intros os' f f' Hinv Hok HT HR; destruct os' as [|o' os']; try contradiction; [exact HR|].
  destruct Hok as (Ho & Hok). destruct HT as (HT & HTs). cbn [fb_run fold_left].
  apply (IH os'); [apply inv_exec; assumption|exact Hok|exact HTs|]. apply exec_mirrored with (dyn := dyn); assumption.
Qed.

Lemma init_run_mirrored eig dyn g os os' : eigen_inverse_ok eig -> run_ok dyn (ekf_vtbl eig) (fb_init g tt) os ->
  mirrored_ops p (ekf_vtbl eig) (fb_init g tt) os os' ->
  mirrored_filter p (fb_run (ekf_vtbl eig) (fb_init g tt) os) (fb_run (ekf_vtbl eig) (@fb_init RScalar unit (mirror_vec p g) tt) os').
Proof.
  intros Heig Hok HT.
  assert (H0 : Rm (fb_init g tt) (@fb_init RScalar unit (mirror_vec p g) tt)).
  { split; [|split].
    - unfold alike. cbn [fb_initialized fb_use_control fb_use_dyn fb_control_timeout fb_last_time fb_control_time fb_sensor_timeout fb_acc_gains fb_acc_limits
      fb_dec_gains fb_dec_limits fb_control_upd fb_control fb_Q fb_dynQ fb_F fb_reset fb_init].
      repeat (split; [reflexivity || apply default_mirrored|]). split; [split; repeat constructor; toR; apply Rle_refl|]. split; apply meye_F_ok.
    - exact zero_mirrored.
    - exact fresh_P_mirrored. }
  pose proof (run_mirrored eig dyn Heig os os' _ _ (inv_init g dyn) Hok HT H0) as ((B1 & _ & _ & _ & B5 & _) & HE1 & HE2).
  split; [exact B1|split; [exact B5|split; [exact HE1|]]]. intros i j. rewrite HE2. reflexivity.
Qed.
End Filter.
