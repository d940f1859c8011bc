(** * Covariances of measurements stay positive semi-definite (C53) *)

From Coq Require Import Reals ZArith List Bool Lia Lra String Arith FunctionalExtensionality.
From Verif Require Import Scalar Mat FilterBase StrMap Tf Diagnostics RosFilter RosConfig ForceTwoD RosPrepare
  SpecConfig SpecNode SpecTf SpecLin SpecPrepare NodeProofs NodeFacts OutputProofs Trig TfReal TfRot TfQuat RBridge RLin Angles
  PrepareProofs PrepareReal PrepareFacts PrepareSeq PrepareThm PrepareMotion.
Import ListNotations.
Local Open Scope R_scope.

Lemma lookup_rigid (e : penv RScalar) a b t x : rigid_buffer (e_buffer e) ->
  lookupTransformSafe e a b x = Some t -> rigid t.
Proof.
  intros H L. pose proof (lookup_answer e a b x) as A. rewrite L in A. inversion A; subst; eauto.
  apply no_motion_rigid.
Qed.
Lemma imu_basis_rotation (a b : M3) : rotation (@imu_basis RScalar a b).
Proof.
  unfold imu_basis. destruct (quatToRPY _) as [[? ?] ?]. destruct (quatToRPY _) as [[? ?] ?]. cbv zeta. apply setRPY_rotation.
Qed.
Lemma base_pose_rigid t (imu : bool) msg : rigid (base_pose t imu msg).
Proof. destruct imu; [apply imu_basis_rotation|apply pose_rigid]. Qed.
Lemma mask_turn_rotation t (imu : bool) : rigid t -> rotation (mask_turn t imu).
Proof. intros H. destruct imu; [apply setRPY_rotation|exact H]. Qed.

Lemma sound_set_previous s k p C : sound_streams s -> rigid p -> psd 6 C ->
  sound_streams (mkStreams (st_initial s) (sm_set (st_previous s) k p) (sm_set (st_prev_cov s) k C)).
Proof.
  intros (A & B & D) Hp HC. split; [exact A|]. split; intros k' t Ht; cbn in Ht;
    (destruct (String.eqb_spec k' k) as [->|N]; [rewrite sm_find_set in Ht; injection Ht as <-; assumption|
     rewrite sm_find_set_other in Ht by exact N; eauto]).
Qed.
Lemma sound_set_initial s k p : sound_streams s -> rigid p ->
  sound_streams (mkStreams (sm_set (st_initial s) k p) (st_previous s) (st_prev_cov s)).
Proof.
  intros (A & B & D) Hp. split; [|split; [exact B|exact D]]. intros k' t Ht; cbn in Ht.
  destruct (String.eqb_spec k' k) as [->|N]; [rewrite sm_find_set in Ht; injection Ht as <-; assumption|
     rewrite sm_find_set_other in Ht by exact N; eauto].
Qed.

Section Psd.
Context {E : Type} (pq : pqueue RScalar) (e : penv RScalar) (c : config RScalar).
Hypothesis H2 : e_two_d e = false.
Hypothesis HB : rigid_buffer (e_buffer e).

Definition good_result (r : prepared RScalar) : Prop :=
  sound_streams (pr_streams r) /\ (pr_ok r = true -> psd 15 (pr_cov r)).

Lemma covariance_of (A : rmat) o n (B : rmat) : (o + n <= 15)%nat -> psd n B ->
  (forall i j, kept (e_two_d e) i \/ i <> j -> A i j = @set_block RScalar mzero o n B i j) -> psd 15 A.
Proof.
  intros Ho HP HA. eapply psd_ext; [intros i j _ _; symmetry; apply HA; left; rewrite H2; apply kept_false|].
  apply set_block_psd; assumption.
Qed.

Lemma twist_good (msg : twist_msg RScalar) topic target (n : node RScalar E) upd v0 : sound_streams (n_streams n) ->
  psd 6 (as_matrix 6 (tw_cov msg)) -> good_result (prepareTwist e c msg topic target n upd v0 mzero).
Proof.
  intros HS HP. destruct (lookupTransformSafe e target (frame_or (tw_frame msg) target) (tw_stamp msg)) as [t|] eqn:L.
  - destruct (twist_ready e c msg topic target n upd v0 mzero t L (lookup_rigid _ _ _ _ _ HB L)) as (R1 & R2 & _ & R4).
    split; [rewrite R2; exact HS|]. intros _. eapply covariance_of; [|apply rotate_psd, HP|exact R4]. lia.
  - unfold good_result, prepareTwist.
    replace (if String.eqb (tw_frame msg) "" then target else tw_frame msg) with (frame_or (tw_frame msg) target)
      by (destruct (tw_frame msg); reflexivity).
    rewrite L. cbn. split; [exact HS|discriminate].
Qed.
Lemma acceleration_good (msg : imu_msg RScalar) topic target relative (n : node RScalar E) upd v0 : sound_streams (n_streams n) ->
  psd 3 (as_matrix 3 (im_acc_cov msg)) -> good_result (prepareAcceleration e c msg topic target relative n upd v0 mzero).
Proof.
  intros HS HP. destruct (lookupTransformSafe e target (frame_or (im_frame msg) (c_base c)) (im_stamp msg)) as [t|] eqn:L.
  - destruct (acceleration_ready e c msg topic target relative n upd v0 mzero t L (lookup_rigid _ _ _ _ _ HB L)) as (R1 & R2 & _ & R4).
    split; [rewrite R2; exact HS|]. intros _. eapply covariance_of; [|apply rotate_psd, HP|exact R4]. lia.
  - unfold good_result, prepareAcceleration.
    replace (if String.eqb (im_frame msg) "" then c_base c else im_frame msg) with (frame_or (im_frame msg) (c_base c))
      by (destruct (im_frame msg); reflexivity).
    rewrite L. cbn. split; [exact HS|discriminate].
Qed.
Lemma source_rigid source x : forall s, source_of e c source x = Some s -> rigid s.
Proof. unfold source_of. destruct (String.eqb source (c_base c)); [discriminate|]. intros s. apply lookup_rigid, HB. Qed.
Lemma source_cov_psd source x C : psd 6 C -> psd 6 (source_cov (source_of e c source x) C).
Proof. intros H. unfold source_cov. destruct (source_of e c source x); [apply rotate_psd, H|exact H]. Qed.

Lemma pose_good (msg : pose_msg RScalar) topic target source (differential relative imu : bool) (n : node RScalar E) upd v0 :
  sound_streams (n_streams n) -> psd 6 (as_matrix 6 (ps_cov msg)) ->
  (match sm_find (n_last_msg n) topic with Some x => x | None => 0%Z end <= ps_stamp msg)%Z ->
  good_result (preparePose e c msg topic target source differential relative imu n upd v0 mzero).
Proof.
  intros HS HP HT.
  destruct (pose_frames c (ps_frame msg) target differential imu) as [ft pf] eqn:HF.
  destruct (lookupTransformSafe e ft pf (pose_lookup_time e (ps_stamp msg))) as [t|] eqn:L.
  2:{ unfold good_result, preparePose. rewrite HF. cbv zeta. rewrite L. cbn. split; [exact HS|discriminate]. }
  pose proof (lookup_rigid _ _ _ _ _ HB L) as HR.
  pose proof (source_rigid source (pose_lookup_time e (ps_stamp msg))) as HSrc.
  pose proof (source_cov_psd source (pose_lookup_time e (ps_stamp msg)) _ HP) as HPs.
  pose proof (base_pose_rigid t imu msg) as HBP.
  destruct differential.
  - destruct (differential_ready e c msg topic target source relative imu n upd v0 mzero t ft pf HF L HR HSrc) as [RS RD].
    split.
    + rewrite RS. apply sound_set_previous; assumption.
    + destruct (sm_find (st_previous (n_streams n)) topic) as [prev|] eqn:EP; [|rewrite RD; discriminate].
      destruct (sm_find (st_prev_cov (n_streams n)) topic) as [pcov|] eqn:EC; [|rewrite RD; discriminate].
      destruct HS as (S1 & S2 & S3).
      cbv zeta in RD. destruct RD as (D1 & _ & D3 & _).
      { apply rotation_mul; [destruct imu; [apply rotation_eye|exact HR]|]. rewrite inverseTimes_eq.
        apply rigid_mult; [apply rigid_inverse, (S2 _ _ EP)|exact HBP]. }
      rewrite D1, D3. apply twist_good; [split; [exact S1|split; [exact S2|exact S3]]|].
      cbn [delta_twist tw_cov].
      set (dt := IZR (ps_stamp msg - _) / 1000000000).
      assert (Hdt : 0 <= dt).
      { unfold dt. apply Rmult_le_pos; [apply IZR_le; lia|lra]. }
      apply psd_ext with (A := fun i j => dt * (@rotateCov RScalar 6 (@rot6 RScalar (mask_turn t imu))
                 (source_cov (source_of e c source (pose_lookup_time e (ps_stamp msg))) (as_matrix 6 (ps_cov msg))) i j +
               @rotateCov RScalar 6 (@rot6 RScalar (mask_turn t imu)) pcov i j)).
      * intros i j Hi Hj. unfold as_matrix at 2, uncopyCovariance.
        assert (DI : ((6 * i + j) / 6 = i)%nat).
        { rewrite Nat.mul_comm, Nat.div_add_l by lia. rewrite Nat.div_small by exact Hj. lia. }
        assert (DM : ((6 * i + j) mod 6 = j)%nat).
        { rewrite Nat.add_comm, Nat.mul_comm, Nat.mod_add by lia. apply Nat.mod_small, Hj. }
        rewrite DI, DM. toR. ring.
      * apply psd_scale; [exact Hdt|]. apply psd_plus; apply rotate_psd; [exact HPs|exact (S3 _ _ EC)].
  - pose proof (pose_ready e c msg topic target source relative imu n upd v0 mzero t ft pf HF L HR HSrc) as PR.
    cbv zeta in PR.
    set (p2 := to_base (source_of e c source (pose_lookup_time e (ps_stamp msg))) (base_pose t imu msg)) in *.
    assert (H2r : rigid p2).
    { unfold p2, to_base. destruct (source_of e c source (pose_lookup_time e (ps_stamp msg))) as [s|];
        [apply rigid_mult; [exact HBP|apply HSrc; reflexivity]|exact HBP]. }
    pose proof HS as (S1 & S2 & S3).
    destruct PR as (P1 & P2 & _ & P4).
    { apply rigid_mult; [destruct imu; [apply rigid_identity|exact HR]|].
      destruct relative; [|exact H2r]. rewrite inverseTimes_eq. apply rigid_mult; [apply rigid_inverse|exact H2r].
      destruct (sm_find (st_initial (n_streams n)) topic) as [i|] eqn:EI; [exact (S1 _ _ EI)|exact H2r]. }
    split.
    + rewrite P2. destruct relative; [|exact HS].
      destruct (sm_find (st_initial (n_streams n)) topic) as [i|]; [exact HS|]. apply sound_set_initial; assumption.
    + intros _. eapply covariance_of; [|apply rotate_psd, HPs|exact P4]. lia.
Qed.

Lemma sensor_good warn topic stamp upd thresh (prep : prepfun RScalar E) (n : node RScalar E) :
  sound_streams (n_streams n) ->
  (forall m v, sound_streams (n_streams m) ->
     (match sm_find (n_last_msg m) topic with Some x => x | None => 0%Z end <= stamp)%Z ->
     good_result (prep m upd v mzero)) ->
  let x := sensorCallback pq warn topic stamp upd thresh prep n in
  sound_streams (n_streams (fst x)) /\ Forall (fun m : meas RScalar => psd 15 (m_cov m)) (queued (snd x)).
Proof.
  intros HS HG x. unfold x, sensorCallback. clear x.
  destruct (n_set_pose n >=? stamp)%Z; [destruct warn; split; [exact HS|constructor|exact HS|constructor]|].
  fold (seen n topic stamp). cbv zeta.
  destruct (seen_fields n topic stamp) as (F1 & F2 & F3 & F4 & F5 & F6 & F7 & F8 & F9 & F10).
  set (n1 := seen n topic stamp) in *. clearbody n1. rewrite F9.
  destruct (Z.leb_spec (match sm_find (n_last_msg n) topic with Some t => t | None => stamp end) stamp) as [Hle|_].
  2:{ cbn. rewrite F3. split; [exact HS|constructor]. }
  destruct (HG n1 vzero) as [G1 G2]; [rewrite F3; exact HS|rewrite F9; exact Hle|].
  destruct (prep n1 upd vzero mzero) as [ok u v cv st ds]. cbn [pr_ok pr_upd pr_val pr_cov pr_streams pr_diag] in *.
  destruct ok; cbn; (split; [exact G1|]); constructor; [|constructor]. cbn. apply G2. reflexivity.
Qed.

Definition keeps (f : node RScalar E -> node RScalar E * list (output RScalar E)) : Prop :=
  forall n, sound_streams (n_streams n) ->
    sound_streams (n_streams (fst (f n))) /\ Forall (fun m : meas RScalar => psd 15 (m_cov m)) (queued (snd (f n))).
Lemma keeps_then a b : keeps a -> keeps b -> keeps (andthen a b).
Proof.
  intros Ha Hb n Hn. unfold andthen. destruct (Ha n Hn) as [A1 A2]. destruct (a n) as [n1 o1]. cbn [fst snd] in *.
  destruct (Hb n1 A1) as [B1 B2]. destruct (b n1) as [n2 o2]. cbn [fst snd] in *. split; [exact B1|].
  rewrite queued_app. apply Forall_app. split; assumption.
Qed.
Lemma keeps_skip : keeps skip_callback.
Proof. intros n Hn. split; [exact Hn|constructor]. Qed.
Lemma pose_keeps cd (msg : pose_msg RScalar) target source imu : psd 6 (as_matrix 6 (ps_cov msg)) ->
  keeps (poseCallback pq e c cd msg target source imu).
Proof. intros HP n Hn. apply sensor_good; [exact Hn|]. intros m v Hm Ht. apply pose_good; assumption. Qed.
Lemma twist_keeps cd (msg : twist_msg RScalar) target : psd 6 (as_matrix 6 (tw_cov msg)) -> keeps (twistCallback pq e c cd msg target).
Proof. intros HP n Hn. apply sensor_good; [exact Hn|]. intros m v Hm Ht. apply twist_good; assumption. Qed.
Lemma acceleration_keeps cd (msg : imu_msg RScalar) target : psd 3 (as_matrix 3 (im_acc_cov msg)) -> keeps (accelerationCallback pq e c cd msg target).
Proof. intros HP n Hn. apply sensor_good; [exact Hn|]. intros m v Hm Ht. apply acceleration_good; assumption. Qed.

Lemma angular_block_psd (cov : nat -> R) : psd 3 (as_matrix 3 cov) -> psd 6 (as_matrix 6 (@angular_block RScalar cov)).
Proof.
  intros H. apply psd_ext with (A := @set_block RScalar mzero 3 3 (as_matrix 3 cov)); [|apply set_block_psd; [lia|exact H]].
  intros i j Hi Hj. unfold as_matrix, angular_block, uncopyCovariance, set_block.
  rewrite (Nat.mul_comm 6 i), Nat.div_add_l by lia. rewrite Nat.div_small by exact Hj. rewrite Nat.add_0_r.
  rewrite (Nat.add_comm (i * 6) j), Nat.mod_add by lia. rewrite Nat.mod_small by exact Hj.
  assert (Nat.ltb i (3 + 3) = true) as -> by (apply Nat.ltb_lt; lia).
  assert (Nat.ltb j (3 + 3) = true) as -> by (apply Nat.ltb_lt; lia).
  destruct (Nat.leb 3 i), (Nat.leb 3 j); reflexivity.
Qed.

Lemma receive_keeps s m : message_psd m -> keeps (receive pq e c s m).
Proof.
  intros HM n Hn. destruct s as [t a b|a|a|t a b d], m as [x|x|x|x]; cbn [receive message_psd] in *;
    try (split; [exact Hn|constructor]).
  - unfold odometryCallback. destruct (_ >=? _)%Z; [split; [exact Hn|constructor]|]. destruct HM as [M1 M2].
    apply keeps_then; [| |exact Hn].
    + destruct (Z.gtb _ _); [apply pose_keeps; exact M1|apply keeps_skip].
    + destruct (Z.gtb _ _); [apply twist_keeps; exact M2|apply keeps_skip].
  - apply pose_keeps; assumption.
  - apply twist_keeps; assumption.
  - unfold imuCallback. destruct (_ >=? _)%Z; [split; [exact Hn|constructor]|]. destruct HM as (M1 & M2 & M3).
    assert (PR : forall cov, @absent RScalar cov = false -> present cov).
    { intros cov Ha. apply Bool.not_true_iff_false in Ha. rewrite absent_R in Ha. unfold present. lra. }
    apply keeps_then; [|apply keeps_then|exact Hn].
    + destruct (absent (im_ori_cov x)) eqn:A; [rewrite Bool.andb_false_r; apply keeps_skip|].
      destruct (Z.gtb _ _); [apply pose_keeps, angular_block_psd, M1, PR, A|apply keeps_skip].
    + destruct (absent (im_ang_cov x)) eqn:A; [rewrite Bool.andb_false_r; apply keeps_skip|].
      destruct (Z.gtb _ _); [apply twist_keeps, angular_block_psd, M2, PR, A|apply keeps_skip].
    + destruct (absent (im_acc_cov x)) eqn:A; [rewrite Bool.andb_false_r; apply keeps_skip|].
      destruct (Z.gtb _ _); [apply acceleration_keeps, M3, PR, A|apply keeps_skip].
Qed.
End Psd.

Section Run.
Context {E : Type} (pq : pqueue RScalar) (vt : vtbl RScalar E) (c : config RScalar).
Hypothesis Hpq : pq_ok pq.

Lemma event_keeps ev (n : node RScalar E) : ordinary ev \/ ev = EvReset -> sound_streams (n_streams n) ->
  sound_streams (n_streams (fst (node_step pq vt c n ev))) /\ queued (snd (node_step pq vt c n ev)) = [].
Proof.
  intros [HO| ->] HS.
  2:{ cbn. split; [|reflexivity]. split; [|split]; intros k x Hx; discriminate Hx. }
  destruct ev as [? ? ? ? ? ?|frame ctl stamp|on| | |? ? ?| |cur later lookup]; cbn [ordinary node_step] in *; try contradiction.
  - unfold controlStampedCallback. destruct (_ || _)%bool; split; solve [exact HS|reflexivity].
  - unfold toggleFilterProcessingCallback. destruct (Bool.eqb on (n_toggled n)); split; solve [exact HS|reflexivity].
  - unfold enableFilterSrvCallback. destruct (n_enabled n); split; solve [exact HS|reflexivity].
  - destruct (aggregateDiagnostics (n_diag n)) as [r d]. split; solve [exact HS|reflexivity].
  - destruct (n_enabled n) eqn:He.
    2:{ rewrite cycle_disabled by exact He. split; solve [exact HS|reflexivity]. }
    destruct (cycle_obs pq vt c cur later lookup n He) as (_ & HQ & _).
    rewrite (cycle_eq pq vt c cur later lookup n He) in *.
    destruct (working_post pq vt c Hpq cur later n) as [W (_ & _ & _ & _ & _ & K3 & _)].
    destruct (working pq vt c cur later n) as [nw ow]. cbn [fst snd] in *. split.
    + cbn. rewrite K3. exact HS.
    + rewrite HQ. destruct W as [(_ & _ & _ & _ & _ & -> & _)|(_ & -> & _)]; reflexivity.
Qed.

Lemma run_psd is : forall n : node RScalar E, sound_streams (n_streams n) -> Forall sound_input is ->
  Forall (fun m : meas RScalar => psd 15 (m_cov m)) (queued (snd (respond pq vt c n is))).
Proof.
  induction is as [|i is IH]; intros n HS HI; [constructor|].
  inversion HI as [|i' is' Hi HI']; subst.
  rewrite (proj2 (respond_cons pq vt c EmptyString is n)). cbn [snd]. rewrite queued_app. apply Forall_app.
  assert (D : sound_streams (n_streams (fst (deliver pq vt c n i))) /\
              Forall (fun m : meas RScalar => psd 15 (m_cov m)) (queued (snd (deliver pq vt c n i)))).
  { destruct i as [e s m|ev]; cbn [deliver].
    - destruct Hi as (A & B & C). apply receive_keeps; assumption.
    - destruct (event_keeps ev n) as [K1 K2]; [destruct ev; cbn in Hi |- *; auto|exact HS|].
      split; [exact K1|]. rewrite K2. constructor. }
  destruct D as [D1 D2]. split; [exact D2|]. apply IH; assumption.
Qed.
End Run.
