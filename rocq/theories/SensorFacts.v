(** * Messages that tell the truth make measurements that do (C107) *)

From Coq Require Import Reals ZArith List Bool Lia Lra String Arith Permutation.
From Verif Require Import Scalar Mat FilterBase FilterOps Ekf StrMap Tf Diagnostics RosFilter RosConfig ForceTwoD RosPrepare
  SpecConfig SpecNode SpecTf SpecLin SpecFilter SpecPrepare SpecStart SpecMotion SpecTurn SpecPublished SpecTruth SpecLevel SpecSensor
  RBridge RLin Angles Motion Trig TfReal TfRot TfQuat NodeProofs NodeInv NodeFacts PrepareProofs PrepareReal PrepareFacts PrepareSeq PrepareThm
  PrepareMotion PreparePsd PrepareWit NodeCarry ConfigFacts StartFacts AccessFacts LevelPrepare TurnFilter TruthFacts TruthNode.
Import ListNotations.
Local Open Scope R_scope.

(** ** Flags of turned variables *)
Lemma row_reached (r : M3) u o i : (i < 3)%nat -> @significant RScalar (@m3mul RScalar r (mask3 u o)) i = true -> reached r u o i.
Proof.
  intros Hi H.
  assert (D : forall j, (j < 3)%nat -> reached r u o i \/ at3 (turn r (axis j)) i * (if nth (o + j) u false then 1 else 0) = 0).
  { intros j Hj. destruct (nth (o + j) u false) eqn:F; [|right; ring].
    destruct (Req_EM_T (at3 (turn r (axis j)) i) 0) as [Z|Z]; [right; rewrite Z; ring|left; exists j; auto]. }
  destruct (D 0%nat) as [G|D0]; [lia|exact G|]. destruct (D 1%nat) as [G|D1]; [lia|exact G|]. destruct (D 2%nat) as [G|D2]; [lia|exact G|].
  exfalso. clear D. revert H. unfold significant, v3length.
  assert (O : forall b, @of_flag RScalar b = if b then 1 else 0) by (intros []; reflexivity).
  assert (S0 : @s_leb RScalar (@lit RScalar 1 6) (@s_sqrt RScalar 0) = true -> False).
  { unfold lit. toR. rewrite sqrt_0. intros H. apply Rleb_true in H. change (10 ^ 6)%Z with 1000000%Z in H. lra. }
  destruct r as [[a b c] [d e f] [g h k]]. unfold at3, turn, axis, inner, v3 in D0, D1, D2. cbn in D0, D1, D2. unfold X, Y, Z3 in *. cbn in D0, D1, D2.
  rewrite Nat.add_0_r in *.
  destruct i as [|[|[|i]]]; [| | |lia]; cbn in D0, D1, D2;
    (match goal with |- s_leb _ (s_sqrt ?q) = true -> False => enough (q = 0) as -> by exact S0 end);
    unfold v3dot, m3mul, mask3, m3mv, flag; cbn; rewrite ?O; unfold flag; toR; change (sc RScalar) with R in *; nra.
Qed.

Lemma turned_flag (r : M3) u o i : (i < 3)%nat -> (o + i < List.length u)%nat ->
  nth (o + i) (rotated_flags r o u) false = true -> reached r u o i.
Proof. intros Hi Hu. unfold rotated_flags. rewrite unmask_at by assumption. apply row_reached. exact Hi. Qed.
Lemma turned_flag2 (r : M3) u o k : List.length u = 15%nat -> (o + 6 <= 15)%nat ->
  nth k (rotated_flags2 r o u) false = true ->
  (exists i, (i < 3)%nat /\ k = (o + i)%nat /\ reached r u o i) \/
  (exists i, (i < 3)%nat /\ k = (o + 3 + i)%nat /\ reached r u (o + 3) i) \/ (k < o \/ o + 6 <= k)%nat /\ nth k u false = true.
Proof.
  intros Hu Ho H. unfold rotated_flags2 in H.
  destruct (Nat.lt_ge_cases k o) as [A|A]; [right; right; split; [lia|]; revert H; unfold rotated_flags; rewrite !unmask_other by lia; auto|].
  destruct (Nat.lt_ge_cases k (o + 3)) as [B|B].
  - left. exists (k - o)%nat. split; [lia|]. split; [lia|]. rewrite unmask_other in H by lia. apply turned_flag; [lia|lia|].
    replace (o + (k - o))%nat with k by lia. exact H.
  - destruct (Nat.lt_ge_cases k (o + 6)) as [C|C].
    + right. left. exists (k - (o + 3))%nat. split; [lia|]. split; [lia|].
      apply row_reached; [lia|]. rewrite <- H. symmetry. replace k with (o + 3 + (k - (o + 3)))%nat at 1 by lia. apply unmask_at; [lia|].
      unfold rotated_flags. rewrite unmask_length. lia.
    + right; right; split; [lia|]. revert H; unfold rotated_flags; rewrite !unmask_other by lia; auto.
Qed.
Lemma set3_at (v : rvec) o (x : V3) i : (i < 3)%nat -> @set_vec3 RScalar v o x (o + i)%nat = at3 x i.
Proof.
  intros Hi. destruct (set_vec3_at (K := RScalar) v o x) as (A & B & C & _).
  destruct i as [|[|[|i]]]; [rewrite Nat.add_0_r; exact A|exact B|exact C|lia].
Qed.
Lemma set3_other (v : rvec) o (x : V3) k : (k < o \/ o + 3 <= k)%nat -> @set_vec3 RScalar v o x k = v k.
Proof. apply (set_vec3_at (K := RScalar) v o x). Qed.

(** ** Preparations *)
Definition tells (r : prepared RScalar) (y : rvec) : Prop :=
  pr_ok r = true -> List.length (pr_upd r) = 15%nat /\
  forall k, nth k (pr_upd r) false = true -> same_value k (pr_val r k) (y k).

Lemma kept_or (b : bool) k : kept b k \/ b = true /\ flattened k.
Proof.
  destruct b; [|left; left; reflexivity]. unfold kept, flattened.
  destruct (in_dec Nat.eq_dec k [2; 3; 4; 8; 9; 10; 14]%nat); auto.
Qed.
Lemma flattened_vertical k : flattened k -> vertical k = true.
Proof. unfold flattened. cbn. intuition; subst; reflexivity. Qed.

Lemma tells_kept (two_d : bool) (r : prepared RScalar) y : (two_d = true -> forced_result r) ->
  (two_d = true -> forall k, flattened k -> same_value k 0 (y k)) ->
  (pr_ok r = true -> List.length (pr_upd r) = 15%nat) ->
  (forall k, kept two_d k -> nth k (pr_upd r) false = true -> same_value k (pr_val r k) (y k)) -> tells r y.
Proof.
  intros HF HY HL HK OK. split; [exact (HL OK)|]. intros k Hk. destruct (kept_or two_d k) as [H|(H & F)]; [apply HK; assumption|].
  destruct (HF H OK k (flattened_vertical k F)) as (-> & _). exact (HY H k F).
Qed.

Lemma lookup_found (e : penv RScalar) target source s t : exact_clock e -> stamp_range s ->
  lookupTransformSafe e target source s = Some t -> answer (e_buffer e) target source s (Some t).
Proof.
  intros HE HS H. pose proof (lookup_answer e target source s) as A. rewrite H, toSec_R, (proj1 (HE s HS)) in A. exact A.
Qed.
Lemma pose_found (e : penv RScalar) target source s t : exact_clock e -> stamp_range s ->
  lookupTransformSafe e target source (pose_lookup_time e s) = Some t -> answer (e_buffer e) target source (s / 1000000000) (Some t).
Proof.
  intros HE HS H. rewrite (pose_time e s HE HS) in H. apply lookup_found; [exact HE|apply range_seconds; exact HS|exact H].
Qed.
Lemma cross_swap (a b x : V3) : plus3 x (cross3 a b) = minus3 x (cross3 b a).
Proof. tf_ring. Qed.

Section Prep.
Context {E : Type} (c : config RScalar) (e : penv RScalar).

Lemma twist_tells cd stamp frame lin ang cov topic (n : node RScalar E) y : angular_velocity n = part (K := RScalar) y 9 ->
  true_twist c e cd stamp frame lin ang y ->
  tells (prepareTwist e c (mkTwist stamp frame lin ang cov) topic (c_base c) n (cd_upd cd) vzero mzero) y.
Proof.
  intros HW ((HE & HL & HO & HY) & HS & HT). set (msg := mkTwist _ _ _ _ _).
  destruct (lookupTransformSafe e (c_base c) (frame_or frame (c_base c)) stamp) as [t|] eqn:Lk.
  2:{ intros OK. exfalso. revert OK. unfold prepareTwist, msg. cbn [tw_frame tw_stamp].
      replace (if String.eqb frame "" then c_base c else frame) with (frame_or frame (c_base c)) by (destruct frame; reflexivity).
      rewrite Lk. discriminate. }
  destruct (HT t (lookup_found _ _ _ _ _ HE HS Lk)) as (HR & AL & AA).
  pose proof (twist_ready e c msg topic (c_base c) n (cd_upd cd) vzero mzero t Lk HR) as (R1 & R2 & R3 & _).
  apply (tells_kept (e_two_d e)); [intros H2; apply twist_forced; exact H2|exact HY|intros _; rewrite twist_len; exact HL|].
  intros k Hk Hf. destruct (R3 k Hk) as (RV & RF). rewrite RF in Hf. rewrite RV. clear R1 R2 R3 RV RF.
  cbn [tw_linear tw_angular msg]. rewrite HW, cross_swap.
  apply turned_flag2 in Hf; [|exact HL|lia]. destruct Hf as [(i & Hi & -> & Hr)|[(i & Hi & -> & Hr)|(Hk' & Hu)]].
  - rewrite set3_other by lia. rewrite set3_at by exact Hi. apply AL; assumption.
  - change (6 + 3)%nat with 9%nat in *. rewrite set3_at by exact Hi. apply AA; assumption.
  - apply HO in Hu. lia.
Qed.

Lemma acceleration_tells cd (msg : imu_msg RScalar) topic (n : node RScalar E) al y : angular_velocity n = part (K := RScalar) y 9 ->
  a_acc (n_ang n) = al -> topic = cd_topic cd -> true_acceleration c e cd msg al y ->
  tells (prepareAcceleration e c msg topic (c_base c) (cd_relative cd) n (cd_upd cd) vzero mzero) y.
Proof.
  intros HW HAl Htop ((HE & HL & HO & HY) & HS & HT).
  destruct (lookupTransformSafe e (c_base c) (frame_or (im_frame msg) (c_base c)) (im_stamp msg)) as [t|] eqn:Lk.
  2:{ intros OK. exfalso. revert OK. unfold prepareAcceleration.
      replace (if String.eqb (im_frame msg) "" then c_base c else im_frame msg) with (frame_or (im_frame msg) (c_base c)) by (destruct (im_frame msg); reflexivity).
      rewrite Lk. discriminate. }
  destruct (HT t (lookup_found _ _ _ _ _ HE HS Lk)) as (HR & AG).
  pose proof (acceleration_ready e c msg topic (c_base c) (cd_relative cd) n (cd_upd cd) vzero mzero t Lk HR) as (R1 & R2 & R3 & _).
  apply (tells_kept (e_two_d e)); [intros H2; apply acceleration_forced; exact H2|exact HY|intros _; rewrite acceleration_len; exact HL|].
  intros k Hk Hf. destruct (R3 k Hk) as (RV & RF). rewrite RF in Hf. rewrite RV. clear R1 R2 R3 RV RF.
  assert (B : exists i, (i < 3)%nat /\ k = (12 + i)%nat /\ reached (t_basis t) (cd_upd cd) 12 i).
  { destruct (Nat.lt_ge_cases k 12) as [A|A].
    - unfold rotated_flags in Hf. rewrite unmask_other in Hf by lia. apply HO in Hf. lia.
    - destruct (Nat.lt_ge_cases k 15) as [B|B].
      + exists (k - 12)%nat. split; [lia|]. split; [lia|]. apply turned_flag; [lia|lia|]. replace (12 + (k - 12))%nat with k by lia. exact Hf.
      + unfold rotated_flags in Hf. rewrite unmask_other in Hf by lia. apply HO in Hf. lia. }
  destruct B as (i & Hi & -> & Hr). rewrite set3_at by exact Hi. rewrite HW, HAl. rewrite Htop.
  set (w := part (K := RScalar) y 9) in *. set (o := t_origin t) in *.
  assert (EQ : minus3 (plus3 (turn (t_basis t) (im_linear msg)) (cross3 o al)) (cross3 (cross3 o w) w) =
    minus3 (turn (t_basis t) (im_linear msg)) (plus3 (cross3 al o) (cross3 w (cross3 w o)))).
  { generalize (turn (t_basis t) (im_linear msg)). clearbody w o. clear. intros u. tf_ring. }
  rewrite EQ. destruct (sm_find (e_remove e) (cd_topic cd)) as [[|]|]; [|apply AG; assumption|apply AG; assumption].
  destruct AG as (B & HA & HU & re & Hre & AG).
  assert (I : imu_attitude n msg (@m3eye RScalar) (spin (im_orientation msg))).
  { apply from_message; [|exact HU]. unfold declared_absent in HA. apply Rltb_false in HA. rewrite lit_1_9 in HA. revert HA. toR. lra. }
  rewrite B in *. change (t_basis no_motion) with (@m3eye RScalar) in *. rewrite (gravity_aligned e n msg (cd_relative cd) _ re I Hre).
  rewrite turn_eye. apply AG; assumption.
Qed.
Lemma angles_found (m r : M3) upd att y : (forall v, turn m v = att v) -> agreeing_angles r upd att y -> agrees r upd 3 (rpy_of m) y.
Proof.
  intros Hm (a & Ha & HD & AG).
  destruct (normalize_angle_spec (X a)) as (Rx & _). destruct (normalize_angle_spec (Z3 a)) as (Rz & _).
  assert (Eq : rpy_of m = v3 (@normalize_angle RScalar (X a)) (Y a) (@normalize_angle RScalar (Z3 a))).
  { apply rpy_exact; [exact Rx|exact Ha|exact Rz|]. intros v. rewrite Hm, <- (HD v).
    destruct (same_angle_trig _ _ (wrap_same_angle (X a))) as (C1 & S1). destruct (same_angle_trig _ _ (wrap_same_angle (Z3 a))) as (C2 & S2).
    unfold oriented, about_x, about_y, about_z. rewrite C1, S1, C2, S2. reflexivity. }
  rewrite Eq. intros i Hi Hr. specialize (AG i Hi Hr). revert AG.
  assert (A : forall k u v w, In k [3; 4; 5]%nat -> same_angle u v -> same_value k v w -> same_value k u w).
  { intros k u v w Hk H (H1 & H2). assert (B : angular k) by (unfold angular; cbn in Hk; lia).
    split; intros G; [|contradiction]. exact (same_angle_trans _ _ _ H (H1 G)). }
  destruct i as [|[|[|i]]]; [| | |lia]; cbn [at3 nth v3 X Y Z3 v3x v3y v3z Nat.add].
  - apply A; [cbn; tauto|apply wrap_same_angle].
  - auto.
  - apply A; [cbn; tauto|apply wrap_same_angle].
Qed.
Lemma reached_any r upd o i : reached r upd o i -> any_of upd o.
Proof. intros (j & Hj & H & _). exists j. auto. Qed.

Lemma pose_tells cd (msg : pose_msg RScalar) topic source (n : node RScalar E) y : true_pose c e cd msg source y ->
  tells (preparePose e c msg topic (c_world c) source (cd_differential cd) (cd_relative cd) false n (cd_upd cd) vzero mzero) y.
Proof.
  intros ((HE & HL & HO & HY) & HS & HWd & -> & -> & HT).
  assert (HFr : pose_frames c (ps_frame msg) (c_world c) false false = (c_world c, ps_frame msg)).
  { unfold pose_frames. destruct (String.eqb_spec (c_world c) ""); [contradiction|reflexivity]. }
  destruct (lookupTransformSafe e (c_world c) (ps_frame msg) (pose_lookup_time e (ps_stamp msg))) as [t|] eqn:Lk.
  2:{ intros OK. exfalso. revert OK. unfold preparePose. rewrite HFr, Lk. discriminate. }
  destruct (HT t (pose_found _ _ _ _ _ HE HS Lk)) as (HR & s & HM & HU & AP & AA).
  assert (SRC : let src := source_of e c source (pose_lookup_time e (ps_stamp msg)) in
    (src = None /\ s = no_motion /\ source = c_base c) \/ (src = Some s /\ rigid s /\ source <> c_base c)).
  { cbv zeta. unfold source_of. inversion HM as [Eb Es|s' Nb HA Hs Es]; subst.
    - left. rewrite String.eqb_refl. auto.
    - right. destruct (String.eqb_spec source (c_base c)); [contradiction|]. rewrite (pose_lookup e _ _ _ _ HE HS HA). auto. }
  cbv zeta in SRC.
  pose proof (pose_ready e c msg topic (c_world c) source false false n (cd_upd cd) vzero mzero t _ _ HFr Lk HR) as RR. cbv zeta in RR.
  set (src := source_of e c source (pose_lookup_time e (ps_stamp msg))) in *. clearbody src.
  set (p2 := to_base src (base_pose t false msg)) in *.
  assert (H2r : rigid p2).
  { unfold p2, base_pose. pose proof (pose_rigid msg) as PR. destruct SRC as [(-> & _)|(-> & Hs & _)]; cbn [to_base]; [exact PR|apply rigid_mult; assumption]. }
  assert (HB : forall s', src = Some s' -> rigid s') by (intros s' Hs'; destruct SRC as [(-> & _)|(-> & Hs & _)]; congruence).
  destruct (RR HB (rigid_mult _ _ HR H2r)) as (R1 & _ & R3 & _). clear RR.
  assert (PO : t_origin (t_mult t p2) = move t (t_origin p2)) by (generalize p2; clear; intros p2; tf_ring).
  assert (PB : forall v, turn (t_basis (t_mult t p2)) v = turn (t_basis t) (turn (t_basis p2) v)) by (generalize p2; clear; intros p2 v; tf_ring).
  assert (EO : t_origin p2 = plus3 (ps_position msg) (spin (ps_orientation msg) (t_origin s))).
  { unfold p2, base_pose. destruct SRC as [(-> & -> & _)|(-> & _ & Ns)]; cbn [to_base].
    - unfold pose_of. cbn [t_origin]. generalize (ps_orientation msg) (ps_position msg). clear. intros q p. unfold no_motion. tf_ring.
    - rewrite <- attitude_unit by (apply HU; right; exact Ns). unfold pose_of. generalize (pose_attitude msg) (ps_position msg). clear. intros a p. tf_ring. }
  assert (EB : any_of (cd_upd cd) 3 -> forall v, turn (t_basis p2) v = spin (ps_orientation msg) (turn (t_basis s) v)).
  { intros An v. rewrite <- attitude_unit by (apply HU; left; exact An). unfold p2, base_pose.
    destruct SRC as [(-> & -> & _)|(-> & _ & Ns)]; cbn [to_base].
    - change (t_basis no_motion) with (@m3eye RScalar). rewrite turn_eye. reflexivity.
    - unfold pose_of. generalize (pose_attitude msg) (ps_position msg). clear. intros a p. tf_ring. }
  apply (tells_kept (e_two_d e)); [intros H2; apply pose_forced; exact H2|exact HY|intros _; apply pose_len; exact HL|].
  intros k Hk Hf. destruct (R3 k Hk) as (RV & RF). rewrite RF in Hf. rewrite RV. clear R1 R3 RV RF.
  apply turned_flag2 in Hf; [|exact HL|lia]. destruct Hf as [(i & Hi & -> & Hr)|[(i & Hi & -> & Hr)|(Hk' & Hu)]].
  - rewrite set3_other by lia. rewrite set3_at by exact Hi. rewrite PO, EO. apply AP; assumption.
  - change (0 + 3)%nat with 3%nat in *. rewrite set3_at by exact Hi. pose proof (reached_any _ _ _ _ Hr) as An.
    refine (angles_found _ _ _ _ _ _ (AA An) i Hi Hr). intros v. rewrite PB, (EB An). reflexivity.
  - apply HO in Hu. lia.
Qed.

Lemma attitude_tells cd (msg : imu_msg RScalar) topic (n : node RScalar E) y : true_attitude c e cd msg y ->
  tells (preparePose e c (imu_pose msg) topic (c_base c) (c_base c) (cd_differential cd) (cd_relative cd) true n (cd_upd cd) vzero mzero) y.
Proof.
  intros ((HE & HL & HO & HY) & HS & HWd & -> & -> & HT). pose proof PI_RGT_0 as PIp.
  assert (HFr : pose_frames c (ps_frame (imu_pose msg)) (c_base c) false true = (c_base c, im_frame msg)).
  { unfold pose_frames. destruct (String.eqb_spec (c_base c) ""); [contradiction|reflexivity]. }
  destruct (lookupTransformSafe e (c_base c) (im_frame msg) (pose_lookup_time e (im_stamp msg))) as [t|] eqn:Lk.
  2:{ intros OK. exfalso. revert OK. unfold preparePose. rewrite HFr. cbn [ps_stamp imu_pose]. rewrite Lk. discriminate. }
  destruct (HT t (pose_found _ _ _ _ _ HE HS Lk)) as (-> & AA).
  pose proof (pose_ready e c (imu_pose msg) topic (c_base c) (c_base c) false true n (cd_upd cd) vzero mzero no_motion _ _ HFr Lk no_motion_rigid) as RR.
  cbv zeta in RR. rewrite source_base in RR. cbn [to_base base_pose] in RR. rewrite t_mult_identity_l in RR.
  destruct RR as (R1 & _ & R3 & _); [intros s h; discriminate h|apply imu_basis_rotation|].
  assert (EYE : @m3_setRPY RScalar 0 0 0 = m3eye).
  { apply turn_inj. intros v. rewrite setRPY_oriented, turn_eye. unfold oriented. destruct v as [vx vy vz].
    unfold about_x, about_y, about_z. cbn. rewrite ?sin_0, ?cos_0. apply v3_eq; unfold X, Y, Z3; cbn; ring. }
  assert (G0 : @m3_getRPY RScalar m3eye = (0, 0, 0)).
  { rewrite <- EYE. apply getRPY_setRPY_exact; lra. }
  assert (MT : yaw_turn (t_basis no_motion) = t_basis (@no_motion RScalar)).
  { unfold PrepareReal.yaw_turn, m3_yaw. change (t_basis no_motion) with (@m3eye RScalar). rewrite G0. exact EYE. }
  apply (tells_kept (e_two_d e)); [intros H2; apply pose_forced; exact H2|exact HY|intros _; apply pose_len; exact HL|].
  intros k Hk Hf. destruct (R3 k Hk) as (RV & RF). rewrite RF in Hf. rewrite RV. clear R1 R3 RV RF. rewrite MT, no_motion_flags in Hf.
  pose proof (HO k Hf) as Hb. set (i := (k - 3)%nat). assert (Ek : k = (3 + i)%nat) by (unfold i; lia). assert (Hi : (i < 3)%nat) by (unfold i; lia).
  clearbody i. subst k. rewrite set3_at by exact Hi. unfold imu_pose_of. cbn [t_basis].
  assert (An : any_of (cd_upd cd) 3) by (exists i; auto). destruct (AA An) as (U & a & Ha & HD & AG).
  assert (Hr : reached (t_basis (@no_motion RScalar)) (cd_upd cd) 3 i).
  { exists i. split; [exact Hi|]. split; [exact Hf|]. change (t_basis no_motion) with (@m3eye RScalar). rewrite turn_eye.
    destruct i as [|[|[|i]]]; [| | |lia]; cbn; unfold X, Y, Z3; cbn; lra. }
  destruct (normalize_angle_spec (X a)) as (Rx & _). destruct (normalize_angle_spec (Z3 a)) as (Rz & _).
  set (r := @normalize_angle RScalar (X a)) in *. set (z := @normalize_angle RScalar (Z3 a)) in *.
  assert (ATT : pose_attitude (imu_pose msg) = @m3_setRPY RScalar r (Y a) z).
  { apply turn_inj. intros v. rewrite attitude_unit by exact U. rewrite setRPY_oriented. cbn [ps_orientation imu_pose]. rewrite <- (HD v).
    destruct (same_angle_trig _ _ (wrap_same_angle (X a))) as (C1 & S1). destruct (same_angle_trig _ _ (wrap_same_angle (Z3 a))) as (C2 & S2).
    fold r in C1, S1. fold z in C2, S2. unfold oriented, about_x, about_y, about_z. rewrite C1, S1, C2, S2. reflexivity. }
  assert (BAS : @imu_basis RScalar (t_basis no_motion) (pose_attitude (imu_pose msg)) = @m3_setRPY RScalar r (Y a) z).
  { unfold imu_basis. change (t_basis no_motion) with (@m3eye RScalar). rewrite quatToRPY_rotation by apply rotation_eye. rewrite G0.
    rewrite ATT. rewrite quatToRPY_rotation by apply setRPY_rotation. rewrite getRPY_setRPY_exact by assumption.
    cbv zeta. toR. rewrite EYE. rewrite !Rminus_0_r. rewrite !normalize_angle_id by lra. rewrite m3mv_turn, turn_eye. reflexivity. }
  rewrite BAS, <- ATT. refine (angles_found _ (t_basis (@no_motion RScalar)) _ (spin (im_orientation msg)) _ _ _ i Hi Hr).
  - intros v. exact (attitude_unit (imu_pose msg) v U).
  - exists a. split; [exact Ha|]. split; assumption.
Qed.
End Prep.

(** ** Callbacks *)
Section Calls.
Context {E : Type} (pq : pqueue RScalar).
Hypothesis Hpq : pq_ok pq.
Variable y : rvec.
Variable al : V3.
Variable stamp : Z.
Definition stands (n : node RScalar E) : Prop := angular_velocity n = part (K := RScalar) y 9 /\ a_acc (n_ang n) = al.
Definition says (m : meas RScalar) : Prop := m_time m = stamp /\ truthful m y.
Definition settled (n n' : node RScalar E) : Prop :=
  n_filter n' = n_filter n /\ n_meas_hist n' = n_meas_hist n /\ n_state_hist n' = n_state_hist n /\
  n_toggled n' = n_toggled n /\ n_ang n' = n_ang n.
Definition taken (n : node RScalar E) (r : node RScalar E * list (output RScalar E)) : Prop :=
  settled n (fst r) /\ Permutation (n_queue (fst r)) (n_queue n ++ queued (snd r)) /\ fused (snd r) = [] /\ Forall says (queued (snd r)).
Definition reports (f : node RScalar E -> node RScalar E * list (output RScalar E)) : Prop :=
  forall n, stands n -> taken n (f n).
Lemma settled_stands n n' : settled n n' -> stands n -> stands n'.
Proof. unfold stands, angular_velocity. intros (-> & _ & _ & _ & ->) H. exact H. Qed.
Lemma taken_nothing n n' : settled n n' -> n_queue n' = n_queue n -> taken n (n', []).
Proof. intros S Q. split; [exact S|]. cbn [fst snd queued]. rewrite app_nil_r, Q. split; [apply Permutation_refl|]. split; [reflexivity|constructor]. Qed.
Lemma settled_refl n : settled n n.
Proof. repeat split. Qed.
Lemma reports_skip : reports skip_callback.
Proof. intros n Hn. apply taken_nothing; [apply settled_refl|reflexivity]. Qed.
Lemma reports_then a b : reports a -> reports b -> reports (andthen a b).
Proof.
  intros Ha Hb n Hn. unfold andthen. destruct (Ha n Hn) as (A1 & A2 & A3 & A4). destruct (a n) as [n1 o1]. cbn [fst snd] in *.
  destruct (Hb n1 (settled_stands _ _ A1 Hn)) as (B1 & B2 & B3 & B4). destruct (b n1) as [n2 o2]. unfold taken. cbn [fst snd] in *.
  split. { unfold settled in *. intuition congruence. }
  rewrite queued_app, fused_app, A3, B3. split; [|split; [reflexivity|apply Forall_app; split; assumption]].
  rewrite app_assoc. etransitivity; [exact B2|]. apply Permutation_app_tail. exact A2.
Qed.
Lemma sensor_reports warn topic upd thresh (prep : prepfun RScalar E) :
  (forall n, stands n -> tells (prep n upd vzero mzero) y) -> reports (sensorCallback pq warn topic stamp upd thresh prep).
Proof.
  intros HL n Hn.
  destruct (sensor_queue pq Hpq warn topic stamp upd thresh prep n) as (Q1 & Q2 & _). cbv zeta in Q1, Q2.
  destruct (sensor_fields pq warn topic stamp upd thresh prep n) as (S1 & S2 & S3 & _ & S4 & _). cbv zeta in S1, S2, S3, S4.
  assert (SA : n_ang (fst (sensorCallback pq warn topic stamp upd thresh prep n)) = n_ang n).
  { unfold sensorCallback. destruct (Z.geb (n_set_pose n) stamp); [destruct warn; reflexivity|]. cbv zeta.
    set (n1 := if sm_mem (n_last_msg n) topic then n else _).
    assert (E1 : n_ang n1 = n_ang n) by (unfold n1; destruct (sm_mem _ _); reflexivity). clearbody n1.
    destruct (sm_find (n_last_msg n1) topic); [|exact E1]. destruct (Z.leb _ stamp); [|exact E1]. destruct (pr_ok _); exact E1. }
  split; [repeat split; assumption|]. split; [exact Q1|]. split; [exact Q2|]. clear - HL Hn.
  unfold sensorCallback. destruct (Z.geb (n_set_pose n) stamp); [constructor|]. cbv zeta.
  set (n1 := if sm_mem (n_last_msg n) topic then n else _).
  assert (H1 : stands n1) by (unfold n1; destruct (sm_mem _ _); exact Hn). clearbody n1. specialize (HL n1 H1).
  destruct (sm_find (n_last_msg n1) topic); [|constructor].
  destruct (Z.leb _ stamp); [|constructor].
  destruct (pr_ok (prep n1 upd vzero mzero)) eqn:OK; [|constructor].
  cbn [snd queued]. constructor; [|constructor]. split; [reflexivity|]. exact (HL OK).
Qed.
End Calls.

Lemma receive_reports {E : Type} (pq : pqueue RScalar) (c : config RScalar) (e : penv RScalar) s m al y :
  pq_ok pq -> true_message c e s m al y -> reports (E := E) y al (stamp_of m) (receive pq e c s m).
Proof.
  intros Hpq H.
  assert (HP : forall cd p, true_pose c e cd p (c_base c) y -> reports (E := E) y al (ps_stamp p) (poseCallback pq e c cd p (c_world c) (c_base c) false)).
  { intros cd p Hp. apply (sensor_reports pq Hpq). intros n _. apply pose_tells. exact Hp. }
  destruct s as [t a b|a|a|t a b d], m as [x|x|x|x]; try exact (reports_skip y al _); cbn [true_message stamp_of receive] in *.
  - intros n Hn. unfold receive, odometryCallback. destruct (Z.geb (n_set_pose n) (o_stamp x)); [apply taken_nothing; [repeat split|reflexivity]|].
    destruct H as (HA & HB). refine (reports_then y al _ _ _ _ _ n Hn).
    + destruct (Z.gtb (cd_sum a) 0) eqn:G; [|apply reports_skip]. rewrite Z.gtb_ltb in G. apply Z.ltb_lt in G.
      apply (sensor_reports pq Hpq). intros n' _. apply pose_tells. exact (HA G).
    + destruct (Z.gtb (cd_sum b) 0) eqn:G; [|apply reports_skip]. rewrite Z.gtb_ltb in G. apply Z.ltb_lt in G.
      apply (sensor_reports pq Hpq). intros n' (Hw & _). apply twist_tells; [exact Hw|]. exact (HB G).
  - exact (HP a x H).
  - apply (sensor_reports pq Hpq). intros n' (Hw & _). destruct x as [ts tf tl ta tc]. apply twist_tells; [exact Hw|exact H].
  - intros n Hn. unfold receive, imuCallback. destruct (Z.geb (n_set_pose n) (im_stamp x)); [apply taken_nothing; [repeat split|reflexivity]|].
    destruct H as (HA & HB & HD).
    assert (S : forall (cd : callback_data RScalar) (cov : nat -> R), (Z.gtb (cd_sum cd) 0 && negb (@absent RScalar cov))%bool = true ->
      (0 < cd_sum cd)%Z /\ @declared_absent RScalar cov = false).
    { intros cd cov G. apply andb_true_iff in G. destruct G as (G1 & G2). rewrite Z.gtb_ltb in G1. apply Z.ltb_lt in G1.
      split; [exact G1|]. apply negb_true_iff in G2. exact G2. }
    refine (reports_then y al _ _ _ _ _ n Hn); [|apply reports_then].
    + destruct (_ && _)%bool eqn:G; [|apply reports_skip]. destruct (S _ _ G) as (G1 & G2).
      apply (sensor_reports pq Hpq). intros n' _. apply attitude_tells. exact (HA G1 G2).
    + destruct (_ && _)%bool eqn:G; [|apply reports_skip]. destruct (S _ _ G) as (G1 & G2).
      apply (sensor_reports pq Hpq). intros n' (Hw & _). apply twist_tells; [exact Hw|]. exact (HB G1 G2).
    + destruct (_ && _)%bool eqn:G; [|apply reports_skip]. destruct (S _ _ G) as (G1 & G2).
      apply (sensor_reports pq Hpq). intros n' (Hw & Ha). eapply acceleration_tells; [exact Hw|exact Ha|reflexivity|]. exact (HD G1 G2).
Qed.
