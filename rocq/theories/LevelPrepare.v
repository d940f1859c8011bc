(** * Measurements in two_d_mode (C94) *)

From Coq Require Import Reals ZArith List Bool Lia Lra String Arith.
From Verif Require Import Scalar Mat FilterBase StrMap Tf Diagnostics RosFilter RosConfig ForceTwoD RosPrepare
  SpecConfig SpecNode SpecTf SpecLin SpecFilter SpecPrepare SpecLevel NodeProofs NodeFacts OutputProofs Trig TfReal TfRot TfQuat RBridge RLin
  Pdef EkfPsd TwoD FilterExtra PrepareProofs PrepareReal PrepareFacts PrepareSeq PrepareThm PrepareMotion PreparePsd PublishedFacts EkfUpdate LevelCov.
Import ListNotations.
Local Open Scope R_scope.

(** ** Whatever the arithmetic *)
Section Forced.
Context {K : Scalar} {E : Type}.
Variable pq : pqueue K.

Definition forced_result (r : prepared K) : Prop :=
  pr_ok r = true -> forall i, vertical i = true ->
    pr_val r i = s_ofZ 0 /\ pr_cov r i i = lit 1 6 /\ (List.length (pr_upd r) = 15%nat -> nth i (pr_upd r) false = true).

Lemma finish_forced (v : vec K) c u v' c' u' : finish true v c u = (v', c', u') -> forall i, vertical i = true ->
  v' i = s_ofZ 0 /\ c' i i = lit 1 6 /\ (List.length u' = 15%nat -> nth i u' false = true).
Proof.
  intros F i Hi. cbn [finish] in F.
  set (m := mkMeas EmptyString 0%Z v c u (s_ofZ 0) vzero 0%Z).
  pose proof (force_value m i) as A. pose proof (force_cov m i i) as B. pose proof (force_flags m i) as C. pose proof (force_length m) as L.
  unfold force_meas in A, B, C, L. cbn [m_value m_cov m_upd m] in A, B, C, L. rewrite F in A, B, C, L. cbn in A, B, C, L.
  rewrite Hi in A, B, C. rewrite Nat.eqb_refl in B. cbn in B. split; [exact A|]. split; [exact B|].
  intros H. rewrite C by congruence. reflexivity.
Qed.

Variables (e : penv K) (c : config K).
Hypothesis H2 : e_two_d e = true.

Lemma twist_forced msg topic target (n : node K E) upd v0 c0 : forced_result (prepareTwist e c msg topic target n upd v0 c0).
Proof.
  unfold prepareTwist. destruct (lookupTransformSafe e _ _ _) as [t|]; [|intros H; discriminate H]. cbv zeta. rewrite H2.
  match goal with |- context [finish ?d ?v ?cv ?u] => destruct (finish d v cv u) as [[v' c'] u'] eqn:F end.
  intros _. exact (finish_forced _ _ _ _ _ _ F).
Qed.
Lemma acceleration_forced msg topic target relative (n : node K E) upd v0 c0 :
  forced_result (prepareAcceleration e c msg topic target relative n upd v0 c0).
Proof.
  unfold prepareAcceleration. destruct (lookupTransformSafe e _ _ _) as [t|]; [|intros H; discriminate H]. cbv zeta. rewrite H2.
  match goal with |- context [finish ?d ?v ?cv ?u] => destruct (finish d v cv u) as [[v' c'] u'] eqn:F end.
  intros _. exact (finish_forced _ _ _ _ _ _ F).
Qed.
Lemma pose_forced msg topic target source (differential relative imu : bool) (n : node K E) upd v0 c0 :
  forced_result (preparePose e c msg topic target source differential relative imu n upd v0 c0).
Proof.
  unfold preparePose. destruct (pose_frames c (ps_frame msg) target differential imu) as [ft pf]. cbv zeta.
  destruct (lookupTransformSafe e ft pf _) as [t|]; [|intros H; discriminate H].
  destruct differential.
  - destruct (sm_find (st_previous (n_streams n)) topic); [|intros H; discriminate H].
    destruct (sm_find (st_prev_cov (n_streams n)) topic); [|intros H; discriminate H].
    match goal with |- context [quatToRPY ?q] => destruct (quatToRPY q) as [[? ?] ?] end.
    match goal with |- forced_result (mkPrep (pr_ok ?r) _ _ _ _ _) => exact (twist_forced _ _ _ _ _ _ _ : forced_result r) end.
  - match goal with |- context [if relative then ?a else ?b] => destruct (if relative then a else b) as [pose3 st'] end.
    match goal with |- context [quatToRPY ?q] => destruct (quatToRPY q) as [[? ?] ?] end.
    rewrite H2. match goal with |- context [finish ?d ?v ?cv ?u] => destruct (finish d v cv u) as [[v' c'] u'] eqn:F end.
    intros _. exact (finish_forced _ _ _ _ _ _ F).
Qed.

Definition forces (f : node K E -> node K E * list (output K E)) : Prop := forall n, Forall forced (queued (snd (f n))).
Lemma forces_sensor warn topic stamp upd thresh (prep : prepfun K E) :
  (forall n v c0, forced_result (prep n upd v c0)) -> forces (sensorCallback pq warn topic stamp upd thresh prep).
Proof.
  intros HL n. unfold sensorCallback. destruct (Z.geb (n_set_pose n) stamp); [constructor|]. cbv zeta.
  set (n1 := if sm_mem (n_last_msg n) topic then n else _). specialize (HL n1 vzero mzero).
  destruct (sm_find (n_last_msg n1) topic); [|constructor]. destruct (Z.leb _ stamp); [|constructor].
  destruct (pr_ok (prep n1 upd vzero mzero)) eqn:Ok; [|constructor]. cbn. constructor; [|constructor]. exact (HL Ok).
Qed.
Lemma forces_skip : forces skip_callback.
Proof. intros n. constructor. Qed.
Lemma forces_then a b : forces a -> forces b -> forces (andthen a b).
Proof.
  intros Ha Hb n. unfold andthen. specialize (Ha n). destruct (a n) as [n1 o1]. specialize (Hb n1).
  destruct (b n1) as [n2 o2]. cbn [snd] in *. rewrite queued_app. apply Forall_app. split; assumption.
Qed.
Lemma receive_forces s m : forces (receive pq e c s m).
Proof.
  assert (HP : forall a x t so i, forces (poseCallback pq e c a x t so i)) by (intros; apply forces_sensor; intros; apply pose_forced).
  assert (HT : forall a x t, forces (twistCallback pq e c a x t)) by (intros; apply forces_sensor; intros; apply twist_forced).
  assert (HA : forall a x t, forces (accelerationCallback pq e c a x t)) by (intros; apply forces_sensor; intros; apply acceleration_forced).
  destruct s as [t a b|a|a|t a b d], m as [x|x|x|x]; try (exact forces_skip).
  - intros n. unfold receive, odometryCallback. destruct (Z.geb (n_set_pose n) (o_stamp x)); [constructor|].
    apply forces_then; (destruct (Z.gtb _ 0); [solve [apply HP|apply HT]|apply forces_skip]).
  - apply HP.
  - apply HT.
  - intros n. unfold receive, imuCallback. destruct (Z.geb (n_set_pose n) (im_stamp x)); [constructor|].
    apply forces_then; [|apply forces_then]; (destruct (_ && _)%bool; [solve [apply HP|apply HT|apply HA]|apply forces_skip]).
Qed.
End Forced.

(** ** Level covariances *)
Definition level_streams (s : streams RScalar) : Prop :=
  sound_streams s /\ forall k C, sm_find (st_prev_cov s) k = Some C -> level_cov 6 C.

Lemma level_identity : levelled (@no_motion RScalar).
Proof. split; [apply no_motion_rigid|]. unfold turn, inner, no_motion, v3, X, Y, Z3. cbn. f_equal; lra. Qed.
Lemma lookup_level (e : penv RScalar) a b t x : level_buffer (e_buffer e) -> lookupTransformSafe e a b x = Some t -> levelled t.
Proof.
  intros H L. pose proof (lookup_answer e a b x) as A. rewrite L in A. inversion A; subst; eauto. apply level_identity.
Qed.
Lemma level_rigid b : level_buffer b -> rigid_buffer b.
Proof. intros H x y z t Ht. apply (H _ _ _ _ Ht). Qed.
Lemma yaw_turn_up m : rotation (yaw_turn m) /\ turn (yaw_turn m) (v3 0 0 1) = v3 0 0 1.
Proof.
  split; [apply setRPY_rotation|]. unfold yaw_turn. rewrite setRPY_oriented.
  unfold oriented, about_x, about_y, about_z, v3, X, Y, Z3. cbn. rewrite ?sin_0, ?cos_0. f_equal; ring.
Qed.
Lemma mask_turn_up t (imu : bool) : levelled t -> rotation (mask_turn t imu) /\ turn (mask_turn t imu) (v3 0 0 1) = v3 0 0 1.
Proof. intros H. destruct imu; [apply yaw_turn_up|exact H]. Qed.
Lemma level_psd n C : level_cov n C -> psd n C.
Proof. intros H. apply H. Qed.

Lemma kept_vertical i : kept true i <-> vertical i = false.
Proof.
  unfold kept, flattened. split.
  - intros [H|H]; [discriminate|]. do 15 (destruct i as [|i]; [try reflexivity; exfalso; apply H; cbn; tauto|]). reflexivity.
  - intros H. right. intros Hin. cbn in Hin. repeat (destruct Hin as [<-|Hin]; [discriminate|]). exact Hin.
Qed.

Section Level.
Context {E : Type} (pq : pqueue RScalar) (e : penv RScalar) (c : config RScalar).
Hypothesis H2 : e_two_d e = true.
Hypothesis HB : level_buffer (e_buffer e).

Definition laid_cov (A : rmat) : Prop := exists o n B, fits o n /\ level_cov n B /\ laid o n B A.
Definition level_result (r : prepared RScalar) : Prop :=
  level_streams (pr_streams r) /\ (pr_ok r = true -> laid_cov (pr_cov r)).

Lemma laid_of (r : prepared RScalar) o n B : fits o n -> level_cov n B -> forced_result r -> pr_ok r = true ->
  (forall i j, kept (e_two_d e) i \/ i <> j -> pr_cov r i j = @set_block RScalar mzero o n B i j) -> laid_cov (pr_cov r).
Proof.
  intros Hf HBl HF Hok H. exists o, n, B. split; [exact Hf|]. split; [exact HBl|]. intros i j Hi Hj.
  destruct (vertical i) eqn:Vi; cbn [andb].
  - destruct (Nat.eqb_spec i j) as [<-|Hne]; [|apply H; auto].
    destruct (HF Hok i Vi) as (_ & -> & _). apply lit_1_6_R.
  - apply H. left. rewrite H2. apply kept_vertical, Vi.
Qed.

Lemma twist_level (msg : twist_msg RScalar) topic target (n : node RScalar E) upd v0 : level_streams (n_streams n) ->
  level_cov 6 (as_matrix 6 (tw_cov msg)) -> level_result (prepareTwist e c msg topic target n upd v0 mzero).
Proof.
  intros HS HP. pose proof (twist_forced e c H2 msg topic target n upd v0 mzero) as HF.
  destruct (lookupTransformSafe e target (frame_or (tw_frame msg) target) (tw_stamp msg)) as [t|] eqn:L.
  - destruct (lookup_level _ _ _ _ _ HB L) as [HR HU].
    destruct (twist_ready e c msg topic target n upd v0 mzero t L HR) as (R1 & R2 & _ & R4).
    split; [rewrite R2; exact HS|]. intros Hok.
    refine (laid_of _ 6 6 _ _ (proj1 (level_rotate6 _ _ HR HU HP)) HF Hok R4). right; left; auto.
  - unfold level_result. clear HF. unfold prepareTwist.
    replace (if String.eqb (tw_frame msg) "" then target else tw_frame msg) with (frame_or (tw_frame msg) target)
      by (destruct (tw_frame msg); reflexivity).
    rewrite L. cbn. split; [exact HS|discriminate].
Qed.
Lemma acceleration_level (msg : imu_msg RScalar) topic target relative (n : node RScalar E) upd v0 : level_streams (n_streams n) ->
  level_cov 3 (as_matrix 3 (im_acc_cov msg)) -> level_result (prepareAcceleration e c msg topic target relative n upd v0 mzero).
Proof.
  intros HS HP. pose proof (acceleration_forced e c H2 msg topic target relative n upd v0 mzero) as HF.
  destruct (lookupTransformSafe e target (frame_or (im_frame msg) (c_base c)) (im_stamp msg)) as [t|] eqn:L.
  - destruct (lookup_level _ _ _ _ _ HB L) as [HR HU].
    destruct (acceleration_ready e c msg topic target relative n upd v0 mzero t L HR) as (R1 & R2 & _ & R4).
    split; [rewrite R2; exact HS|]. intros Hok.
    refine (laid_of _ 12 3 _ _ (level_rotate3 _ _ HR HU HP) HF Hok R4). right; right; auto.
  - unfold level_result. clear HF. unfold prepareAcceleration.
    replace (if String.eqb (im_frame msg) "" then c_base c else im_frame msg) with (frame_or (im_frame msg) (c_base c))
      by (destruct (im_frame msg); reflexivity).
    rewrite L. cbn. split; [exact HS|discriminate].
Qed.
Lemma source_cov_level source x C : level_cov 6 C -> level_cov 6 (source_cov (source_of e c source x) C).
Proof.
  intros H. unfold source_cov. destruct (source_of e c source x) as [s|] eqn:ES; [|exact H].
  assert (HL : levelled s).
  { unfold source_of in ES. destruct (String.eqb source (c_base c)); [discriminate|]. eapply lookup_level; eassumption. }
  exact (proj2 (level_rotate6 _ _ (proj1 HL) (proj2 HL) H)).
Qed.
Lemma level_set_previous s k p C : level_streams s -> rigid p -> level_cov 6 C ->
  level_streams (mkStreams (st_initial s) (sm_set (st_previous s) k p) (sm_set (st_prev_cov s) k C)).
Proof.
  intros [A B] Hp HC. split; [apply sound_set_previous; auto using level_psd|]. intros k' t Ht; cbn in Ht.
  destruct (String.eqb_spec k' k) as [->|N]; [rewrite sm_find_set in Ht; injection Ht as <-; assumption|
     rewrite sm_find_set_other in Ht by exact N; eauto].
Qed.
Lemma level_set_initial s k p : level_streams s -> rigid p ->
  level_streams (mkStreams (sm_set (st_initial s) k p) (st_previous s) (st_prev_cov s)).
Proof. intros [A B] Hp. split; [apply sound_set_initial; auto|exact B]. Qed.

Lemma pose_level (msg : pose_msg RScalar) topic target source (differential relative imu : bool) (n : node RScalar E) upd v0 :
  level_streams (n_streams n) -> level_cov 6 (as_matrix 6 (ps_cov msg)) ->
  (match sm_find (n_last_msg n) topic with Some x => x | None => 0%Z end <= ps_stamp msg)%Z ->
  level_result (preparePose e c msg topic target source differential relative imu n upd v0 mzero).
Proof.
  intros HS HP HT. pose proof (pose_forced e c H2 msg topic target source differential relative imu n upd v0 mzero) as HFo.
  destruct (pose_frames c (ps_frame msg) target differential imu) as [ft pf] eqn:HF.
  destruct (lookupTransformSafe e ft pf (pose_lookup_time e (ps_stamp msg))) as [t|] eqn:L.
  2:{ unfold level_result, preparePose. rewrite HF. cbv zeta. rewrite L. cbn. split; [exact HS|discriminate]. }
  pose proof (lookup_level _ _ _ _ _ HB L) as HLt. pose proof (proj1 HLt) as HR.
  pose proof (source_rigid e c (level_rigid _ HB) source (pose_lookup_time e (ps_stamp msg))) as HSrc.
  pose proof (source_cov_level source (pose_lookup_time e (ps_stamp msg)) _ HP) as HPs.
  pose proof (base_pose_rigid t imu msg) as HBP.
  destruct (mask_turn_up t imu HLt) as [MR MU].
  destruct differential.
  - destruct (differential_ready e c msg topic target source relative imu n upd v0 mzero t ft pf HF L HR HSrc) as [RS RD].
    split.
    + rewrite RS. apply level_set_previous; assumption.
    + destruct (sm_find (st_previous (n_streams n)) topic) as [prev|] eqn:EP; [|rewrite RD; discriminate].
      destruct (sm_find (st_prev_cov (n_streams n)) topic) as [pcov|] eqn:EC; [|rewrite RD; discriminate].
      pose proof HS as [(S1 & S2 & S3) S4].
      cbv zeta in RD. destruct RD as (D1 & _ & D3 & _).
      { apply rotation_mul; [destruct imu; [apply rotation_eye|exact HR]|]. rewrite inverseTimes_eq.
        apply rigid_mult; [apply rigid_inverse, (S2 _ _ EP)|exact HBP]. }
      rewrite D1, D3. apply twist_level; [exact HS|].
      cbn [delta_twist tw_cov].
      set (dt := IZR (ps_stamp msg - _) / 1000000000).
      assert (Hdt : 0 <= dt).
      { unfold dt. apply Rmult_le_pos; [apply IZR_le; lia|lra]. }
      eapply level_ext; [lia| |apply (level_sum 6
        (@rotateCov RScalar 6 (@rot6 RScalar (mask_turn t imu))
                 (source_cov (source_of e c source (pose_lookup_time e (ps_stamp msg))) (as_matrix 6 (ps_cov msg))))
        (@rotateCov RScalar 6 (@rot6 RScalar (mask_turn t imu)) pcov) dt)].
      * intros i j Hi Hj. unfold as_matrix at 2, uncopyCovariance.
        assert (DI : ((6 * i + j) / 6 = i)%nat).
        { rewrite Nat.mul_comm, Nat.div_add_l by lia. rewrite Nat.div_small by exact Hj. lia. }
        assert (DM : ((6 * i + j) mod 6 = j)%nat).
        { rewrite Nat.add_comm, Nat.mul_comm, Nat.mod_add by lia. apply Nat.mod_small, Hj. }
        rewrite DI, DM. toR. ring.
      * lia.
      * exact Hdt.
      * exact (proj1 (level_rotate6 _ _ MR MU HPs)).
      * exact (proj1 (level_rotate6 _ _ MR MU (S4 _ _ EC))).
  - pose proof (pose_ready e c msg topic target source relative imu n upd v0 mzero t ft pf HF L HR HSrc) as PR.
    cbv zeta in PR.
    set (p2 := to_base (source_of e c source (pose_lookup_time e (ps_stamp msg))) (base_pose t imu msg)) in *.
    assert (H2r : rigid p2).
    { unfold p2, to_base. destruct (source_of e c source (pose_lookup_time e (ps_stamp msg))) as [s|];
        [apply rigid_mult; [exact HBP|apply HSrc; reflexivity]|exact HBP]. }
    pose proof HS as [(S1 & S2 & S3) S4].
    destruct PR as (P1 & P2 & _ & P4).
    { apply rigid_mult; [destruct imu; [apply rigid_identity|exact HR]|].
      destruct relative; [|exact H2r]. rewrite inverseTimes_eq. apply rigid_mult; [apply rigid_inverse|exact H2r].
      destruct (sm_find (st_initial (n_streams n)) topic) as [i|] eqn:EI; [exact (S1 _ _ EI)|exact H2r]. }
    split.
    + rewrite P2. destruct relative; [|exact HS].
      destruct (sm_find (st_initial (n_streams n)) topic) as [i|]; [exact HS|]. apply level_set_initial; assumption.
    + intros Hok. refine (laid_of _ 0 6 _ _ (proj1 (level_rotate6 _ _ MR MU HPs)) HFo Hok P4). left; auto.
Qed.

Lemma sensor_level warn topic stamp upd thresh (prep : prepfun RScalar E) (n : node RScalar E) :
  level_streams (n_streams n) ->
  (forall m v, level_streams (n_streams m) ->
     (match sm_find (n_last_msg m) topic with Some x => x | None => 0%Z end <= stamp)%Z ->
     level_result (prep m upd v mzero)) ->
  let x := sensorCallback pq warn topic stamp upd thresh prep n in
  level_streams (n_streams (fst x)) /\ Forall (fun m : meas RScalar => laid_cov (m_cov m)) (queued (snd x)).
Proof.
  intros HS HG x. unfold x, sensorCallback. clear x.
  destruct (n_set_pose n >=? stamp)%Z; [destruct warn; split; [exact HS|constructor|exact HS|constructor]|].
  fold (seen n topic stamp). cbv zeta.
  destruct (seen_fields n topic stamp) as (F1 & F2 & F3 & F4 & F5 & F6 & F7 & F8 & F9 & F10).
  set (n1 := seen n topic stamp) in *. clearbody n1. rewrite F9.
  destruct (Z.leb_spec (match sm_find (n_last_msg n) topic with Some t => t | None => stamp end) stamp) as [Hle|_].
  2:{ cbn. rewrite F3. split; [exact HS|constructor]. }
  destruct (HG n1 vzero) as [G1 G2]; [rewrite F3; exact HS|rewrite F9; exact Hle|].
  destruct (prep n1 upd vzero mzero) as [ok u v cv st ds]. cbn [pr_ok pr_upd pr_val pr_cov pr_streams pr_diag] in *.
  destruct ok; cbn; (split; [exact G1|]); constructor; [|constructor]. cbn. apply G2. reflexivity.
Qed.

Definition levels (f : node RScalar E -> node RScalar E * list (output RScalar E)) : Prop :=
  forall n, level_streams (n_streams n) ->
    level_streams (n_streams (fst (f n))) /\ Forall (fun m : meas RScalar => laid_cov (m_cov m)) (queued (snd (f n))).
Lemma levels_then a b : levels a -> levels b -> levels (andthen a b).
Proof.
  intros Ha Hb n Hn. unfold andthen. destruct (Ha n Hn) as [A1 A2]. destruct (a n) as [n1 o1]. cbn [fst snd] in *.
  destruct (Hb n1 A1) as [B1 B2]. destruct (b n1) as [n2 o2]. cbn [fst snd] in *. split; [exact B1|].
  rewrite queued_app. apply Forall_app. split; assumption.
Qed.
Lemma levels_skip : levels skip_callback.
Proof. intros n Hn. split; [exact Hn|constructor]. Qed.
Lemma pose_levels cd (msg : pose_msg RScalar) target source imu : level_cov 6 (as_matrix 6 (ps_cov msg)) ->
  levels (poseCallback pq e c cd msg target source imu).
Proof. intros HP n Hn. apply sensor_level; [exact Hn|]. intros m v Hm Ht. apply pose_level; assumption. Qed.
Lemma twist_levels cd (msg : twist_msg RScalar) target : level_cov 6 (as_matrix 6 (tw_cov msg)) -> levels (twistCallback pq e c cd msg target).
Proof. intros HP n Hn. apply sensor_level; [exact Hn|]. intros m v Hm Ht. apply twist_level; assumption. Qed.
Lemma acceleration_levels cd (msg : imu_msg RScalar) target : level_cov 3 (as_matrix 3 (im_acc_cov msg)) -> levels (accelerationCallback pq e c cd msg target).
Proof. intros HP n Hn. apply sensor_level; [exact Hn|]. intros m v Hm Ht. apply acceleration_level; assumption. Qed.

Lemma angular_block_level (cov : nat -> R) : level_cov 6 (angular_part (as_matrix 3 cov)) -> level_cov 6 (as_matrix 6 (@angular_block RScalar cov)).
Proof.
  intros H. eapply level_ext; [lia| |exact H].
  intros i j Hi Hj. unfold as_matrix, angular_part, angular_block, uncopyCovariance.
  rewrite (Nat.mul_comm 6 i), Nat.div_add_l by lia. rewrite Nat.div_small by exact Hj. rewrite Nat.add_0_r.
  rewrite (Nat.add_comm (i * 6) j), Nat.mod_add by lia. rewrite Nat.mod_small by exact Hj.
  destruct (Nat.leb 3 i), (Nat.leb 3 j); reflexivity.
Qed.

Lemma receive_levels s m : message_level m -> levels (receive pq e c s m).
Proof.
  intros HM n Hn. destruct s as [t a b|a|a|t a b d], m as [x|x|x|x]; cbn [receive message_level] in *;
    try (split; [exact Hn|constructor]).
  - unfold odometryCallback. destruct (_ >=? _)%Z; [split; [exact Hn|constructor]|]. destruct HM as [M1 M2].
    apply levels_then; [| |exact Hn].
    + destruct (Z.gtb _ _); [apply pose_levels; exact M1|apply levels_skip].
    + destruct (Z.gtb _ _); [apply twist_levels; exact M2|apply levels_skip].
  - apply pose_levels; assumption.
  - apply twist_levels; assumption.
  - unfold imuCallback. destruct (_ >=? _)%Z; [split; [exact Hn|constructor]|]. destruct HM as (M1 & M2 & M3).
    assert (PR : forall cov, @absent RScalar cov = false -> present cov).
    { intros cov Ha. apply Bool.not_true_iff_false in Ha. rewrite absent_R in Ha. unfold present. lra. }
    apply levels_then; [|apply levels_then|exact Hn].
    + destruct (absent (im_ori_cov x)) eqn:A; [rewrite Bool.andb_false_r; apply levels_skip|].
      destruct (Z.gtb _ _); [apply pose_levels, angular_block_level, M1, PR, A|apply levels_skip].
    + destruct (absent (im_ang_cov x)) eqn:A; [rewrite Bool.andb_false_r; apply levels_skip|].
      destruct (Z.gtb _ _); [apply twist_levels, angular_block_level, M2, PR, A|apply levels_skip].
    + destruct (absent (im_acc_cov x)) eqn:A; [rewrite Bool.andb_false_r; apply levels_skip|].
      destruct (Z.gtb _ _); [apply acceleration_levels, M3, PR, A|apply levels_skip].
Qed.

(** ** The set_pose request *)
Lemma set_pose_level (msg : pose_msg RScalar) (n : node RScalar E) upd :
  level_streams (n_streams n) -> level_cov 6 (as_matrix 6 (ps_cov msg)) ->
  let r := preparePose e c msg "set_pose"%string (c_world c) (c_base c) false false false n upd vzero (mscale (lit 1 6) meye) in
  level_streams (pr_streams r) /\ planar_state (pr_val r) /\ psd 15 (pr_cov r) /\ decoupled 15 vertical (pr_cov r).
Proof.
  intros HS HP r.
  pose proof (pose_forced e c H2 msg "set_pose"%string (c_world c) (c_base c) false false false n upd vzero (mscale (lit 1 6) meye)) as HF.
  fold r in HF. unfold r in *. clear r.
  destruct (pose_frames c (ps_frame msg) (c_world c) false false) as [ft pf] eqn:HFr.
  destruct (lookupTransformSafe e ft pf (pose_lookup_time e (ps_stamp msg))) as [t|] eqn:L.
  2:{ unfold preparePose. rewrite HFr. cbv zeta. rewrite L. cbn [pr_streams pr_cov pr_val]. split; [exact HS|].
      split; [intros i _; reflexivity|].
      assert (EM : forall i j, @mscale RScalar (lit 1 6) meye i j = if Nat.eqb i j then / 1000000 else 0).
      { intros i j. unfold mscale, meye. rewrite lit_1_6_R. destruct (Nat.eqb i j); toR; change (sc RScalar) with R in *; ring. }
      split.
      - eapply psd_ext; [intros i j _ _; symmetry; apply EM|]. apply (psd_diag 15 (fun _ => / 1000000)). intros; lra.
      - apply (diag_decoupled vertical (fun _ => / 1000000)). exact EM. }
  pose proof (lookup_level _ _ _ _ _ HB L) as HLt. pose proof (proj1 HLt) as HR.
  pose proof (source_rigid e c (level_rigid _ HB) (c_base c) (pose_lookup_time e (ps_stamp msg))) as HSrc.
  pose proof (source_cov_level (c_base c) (pose_lookup_time e (ps_stamp msg)) _ HP) as HPs.
  pose proof (base_pose_rigid t false msg) as HBP.
  pose proof (pose_ready e c msg "set_pose"%string (c_world c) (c_base c) false false n upd vzero (mscale (lit 1 6) meye) t ft pf HFr L HR HSrc) as PR.
  cbv zeta in PR.
  set (p2 := to_base (source_of e c (c_base c) (pose_lookup_time e (ps_stamp msg))) (base_pose t false msg)) in *.
  assert (H2r : rigid p2).
  { unfold p2, to_base. destruct (source_of e c (c_base c) (pose_lookup_time e (ps_stamp msg))) as [s|];
      [apply rigid_mult; [exact HBP|apply HSrc; reflexivity]|exact HBP]. }
  destruct PR as (P1 & P2 & _ & P4).
  { apply rigid_mult; assumption. }
  specialize (HF P1).
  set (B := @rotateCov RScalar 6 (@rot6 RScalar (t_basis t)) (source_cov (source_of e c (c_base c) (pose_lookup_time e (ps_stamp msg))) (as_matrix 6 (ps_cov msg)))) in *.
  assert (HBl : level_cov 6 B) by exact (proj1 (level_rotate6 _ _ (proj1 HLt) (proj2 HLt) HPs)).
  (* the block laid into zeros, plus the variances of the other variables *)
  set (A0 := fun i j => if (vertical i && Nat.eqb i j)%bool then / 1000000 else @set_block RScalar mzero 0 6 B i j).
  assert (HL0 : laid 0 6 B A0) by (intros i j _ _; reflexivity).
  assert (F06 : fits 0 6) by (left; auto).
  set (d := fun i : nat => if (vertical i || Nat.ltb i 6)%bool then 0 else / 1000000).
  assert (EA : forall i j, (i < 15)%nat -> (j < 15)%nat ->
     A0 i j + (if Nat.eqb i j then d i else 0) = pr_cov (preparePose e c msg "set_pose"%string (c_world c) (c_base c) false false false n upd vzero (mscale (lit 1 6) meye)) i j).
  { intros i j Hi Hj. unfold A0. destruct (vertical i) eqn:Vi; cbn [andb].
    - destruct (Nat.eqb_spec i j) as [<-|Hne].
      + destruct (HF i Vi) as (_ & -> & _). unfold d. rewrite Vi. cbn [orb]. rewrite lit_1_6_R. ring.
      + rewrite P4 by auto. rewrite Rplus_0_r. unfold set_block. destruct (_ && _)%bool; [reflexivity|].
        unfold mscale, meye. apply Nat.eqb_neq in Hne. rewrite Hne. unfold mzero. toR. change (sc RScalar) with R in *. ring.
    - rewrite P4 by (left; rewrite H2; apply kept_vertical, Vi). unfold set_block, d. rewrite Vi. cbn [orb Nat.leb andb]. rewrite !Nat.sub_0_r, Nat.add_0_l.
      unfold mscale, meye, mzero. rewrite lit_1_6_R.
      destruct (Nat.ltb_spec i 6); destruct (Nat.ltb_spec j 6); cbn [andb]; destruct (Nat.eqb_spec i j); try lia;
        toR; change (sc RScalar) with R in *; ring. }
  split; [rewrite P2; exact HS|]. split; [intros i Vi; apply (HF i Vi)|]. split.
  - eapply psd_ext; [exact EA|]. apply psd_plus; [exact (laid_psd 0 6 B A0 F06 HBl HL0)|].
    apply psd_diag. intros i _. unfold d. destruct (_ || _)%bool; lra.
  - intros i j Hi Hj Hne. rewrite <- EA by assumption. rewrite (laid_decoupled 0 6 B A0 F06 HBl HL0) by assumption.
    destruct (Nat.eqb_spec i j) as [->|]; [congruence|]. ring.
Qed.
End Level.

(** ** From the covariance to the measurement *)
Lemma laid_meas (m : meas RScalar) : laid_cov (m_cov m) -> forced m -> List.length (m_upd m) = 15%nat ->
  good_meas m /\ planar_meas m /\ forall i, vertical i = true -> nth i (m_upd m) false = true.
Proof.
  intros (o & n & B & Hf & HB & HA) HF HL. split; [|split].
  - split; [exact HL|]. exact (laid_psd o n B _ Hf HB HA).
  - split; [exact HL|]. split; [intros i Vi; apply (HF i Vi)|]. split; [exact (laid_decoupled o n B _ Hf HB HA)|].
    eapply FilterExtra.pdef_ext; [|apply (pdef_sub (selected m) (fun i j => if Nat.eqb i j then Rmax (Rabs (m_cov m i i)) (/ 1000000000) else m_cov m i j) 15)].
    + intros a b Ha Hb. unfold repaired_cov. reflexivity.
    + apply nodup_selected.
    + intros a Ha. destruct (In_nth _ _ 0%nat Ha) as (q & Hq & <-). apply selected_lt. assumption.
    + exact (laid_pdef o n B _ Hf HB HA).
  - intros i Vi. apply (HF i Vi), HL.
Qed.
