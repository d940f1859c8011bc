(** * Cases in which preparation goes wrong, and IMU orientations (C49-C57) *)

From Coq Require Import Reals ZArith List Bool Lia Lra String Arith Floats Uint63.
From Verif Require Import Scalar FloatScalar Mat FilterBase StrMap Tf Diagnostics RosFilter RosConfig ForceTwoD RosPrepare
  SpecConfig SpecNode SpecTf SpecLin SpecPrepare NodeProofs NodeFacts OutputProofs Trig TfReal TfRot TfQuat RBridge RLin Angles
  PrepareProofs PrepareReal PrepareFacts PrepareSeq PrepareThm PrepareMotion PrepareGoals PreparePsd PrepareRun EkfPsd NodeMore.
Import ListNotations.

(** ** Streams of an IMU message *)
Section Streams.
Context {K : Scalar} {E : Type} (pq : pqueue K).
Lemma sensor_topic warn topic stamp upd thresh (prep : prepfun K E) (n : node K E) :
  Forall (fun m : meas K => m_topic m = topic) (queued (snd (sensorCallback pq warn topic stamp upd thresh prep n))).
Proof.
  unfold sensorCallback. destruct (_ >=? _)%Z; [constructor|]. cbv zeta. destruct (sm_find _ _); [|constructor].
  destruct (_ <=? _)%Z; [|constructor]. destruct (pr_ok _); repeat constructor.
Qed.
Lemma stream_all topic (l : list (meas K)) : Forall (fun m : meas K => m_topic m = topic) l ->
  filter (fun m : meas K => String.eqb (m_topic m) topic) l = l.
Proof. induction 1 as [|m l H _ IH]; [reflexivity|]. cbn. rewrite H, String.eqb_refl, IH. reflexivity. Qed.
Lemma stream_none topic k (l : list (meas K)) : k <> topic -> Forall (fun m : meas K => m_topic m = k) l ->
  filter (fun m : meas K => String.eqb (m_topic m) topic) l = [].
Proof. intros N. induction 1 as [|m l H _ IH]; [reflexivity|]. cbn. rewrite H. destruct (String.eqb_spec k topic); [contradiction|exact IH]. Qed.

Lemma imu_streams (c : config K) (topic : string) (pa pb pd : callback_data K) (e : penv K) (msg : imu_msg K) (n : node K E) :
  NoDup [cd_topic pa; cd_topic pb; cd_topic pd] -> (n_set_pose n < im_stamp msg)%Z ->
  let used cd cov := (Z.gtb (cd_sum cd) 0 && negb (declared_absent cov))%bool in
  let r := imuCallback pq e c topic pa pb pd msg n in
  let pose := poseCallback pq e c pa (imu_pose msg) (c_base c) (c_base c) true n in
  let twist := twistCallback pq e c pb (imu_twist msg) (c_base c) n in
  let accel := accelerationCallback pq e c pd msg (c_base c) n in
  let outcome cd cov single :=
    if used cd cov
    then of_stream (cd_topic cd) (snd r) = queued (snd single) /\ memory (cd_topic cd) (fst r) = memory (cd_topic cd) (fst single)
    else of_stream (cd_topic cd) (snd r) = [] /\ memory (cd_topic cd) (fst r) = memory (cd_topic cd) n in
  outcome pa (im_ori_cov msg) pose /\ outcome pb (im_ang_cov msg) twist /\ outcome pd (im_acc_cov msg) accel /\
  queued (snd r) = of_stream (cd_topic pa) (snd r) ++ of_stream (cd_topic pb) (snd r) ++ of_stream (cd_topic pd) (snd r).
Proof.
  intros ND HB used r pose twist accel outcome.
  destruct (parts_run pq c topic pa pb pd e msg n ND HB) as (Q & M1 & M2 & M3). fold r in Q, M1, M2, M3.
  inversion ND as [|? ? NA ND1]; subst. inversion ND1 as [|? ? NB ND2]; subst. cbn [In] in NA, NB.
  cbv beta in Q, M1, M2, M3.
  fold (used pa (im_ori_cov msg)) in Q, M1. fold (used pb (im_ang_cov msg)) in Q, M2. fold (used pd (im_acc_cov msg)) in Q, M3.
  set (qa := queued (snd (part_of (used pa (im_ori_cov msg)) _ n))) in Q.
  set (qb := queued (snd (part_of (used pb (im_ang_cov msg)) _ n))) in Q.
  set (qd := queued (snd (part_of (used pd (im_acc_cov msg)) _ n))) in Q.
  assert (TA : Forall (fun m : meas K => m_topic m = cd_topic pa) qa).
  { unfold qa, part_of. destruct (used pa _); [apply sensor_topic|constructor]. }
  assert (TB : Forall (fun m : meas K => m_topic m = cd_topic pb) qb).
  { unfold qb, part_of. destruct (used pb _); [apply sensor_topic|constructor]. }
  assert (TD : Forall (fun m : meas K => m_topic m = cd_topic pd) qd).
  { unfold qd, part_of. destruct (used pd _); [apply sensor_topic|constructor]. }
  assert (SA : of_stream (cd_topic pa) (snd r) = qa).
  { unfold of_stream. rewrite Q, !filter_app, (stream_all (cd_topic pa) qa TA), (stream_none (cd_topic pa) (cd_topic pb) qb), (stream_none (cd_topic pa) (cd_topic pd) qd);
      try assumption; rewrite ?app_nil_r; try reflexivity; intuition congruence. }
  assert (SB : of_stream (cd_topic pb) (snd r) = qb).
  { unfold of_stream. rewrite Q, !filter_app, (stream_all (cd_topic pb) qb TB), (stream_none (cd_topic pb) (cd_topic pa) qa), (stream_none (cd_topic pb) (cd_topic pd) qd);
      try assumption; rewrite ?app_nil_r; try reflexivity; intuition congruence. }
  assert (SD : of_stream (cd_topic pd) (snd r) = qd).
  { unfold of_stream. rewrite Q, !filter_app, (stream_all (cd_topic pd) qd TD), (stream_none (cd_topic pd) (cd_topic pa) qa), (stream_none (cd_topic pd) (cd_topic pb) qb);
      try assumption; rewrite ?app_nil_r; try reflexivity; intuition congruence. }
  rewrite <- SA, <- SB, <- SD in Q.
  split; [|split; [|split; [|exact Q]]]; unfold outcome.
  - unfold qa, part_of in *. destruct (used pa _); split; assumption.
  - unfold qb, part_of in *. destruct (used pb _); split; assumption.
  - unfold qd, part_of in *. destruct (used pd _); split; assumption.
Qed.
End Streams.

Local Open Scope R_scope.

Section Wit.
Context {E : Type} (pq : pqueue RScalar) (c : config RScalar).

(** ** IMU orientation of an aligned sensor (C52) *)
Lemma imu_aligned e cd (msg : imu_msg RScalar) (n : node RScalar E) r p y :
  cd_differential cd = false -> cd_relative cd = false -> c_base c <> ""%string ->
  exact_clock e -> stamp_range (im_stamp msg) -> unit_quat (im_orientation msg) ->
  fresh n (cd_topic cd) (im_stamp msg) ->
  answer (e_buffer e) (c_base c) (im_frame msg) (im_stamp msg / 1000000000) (Some no_motion) ->
  - PI < r <= PI -> - (PI / 2) < p < PI / 2 -> - PI < y <= PI ->
  describes (v3 r p y) (spin (im_orientation msg)) ->
  exists m, queued (snd (poseCallback pq e c cd (imu_pose msg) (c_base c) (c_base c) true n)) = [m] /\
    m_topic m = cd_topic cd /\ m_time m = im_stamp msg /\ m_thresh m = cd_thresh cd /\
    measures (e_two_d e) (m_value m) 0 (v3 0 0 0) /\ measures (e_two_d e) (m_value m) 3 (v3 r p y) /\
    same_flags (e_two_d e) (m_upd m) (cd_upd cd) /\
    measures_cov (e_two_d e) (m_cov m) 3 3 (as_matrix 3 (im_ori_cov msg)) /\
    only (e_two_d e) (m_value m) (m_cov m) 3 3.
Proof.
  intros HD HRl HB HE HS U HF HA Hr Hp Hy HDs.
  pose proof (pose_lookup e _ _ _ _ HE HS HA) as HL.
  assert (HFr : pose_frames c (im_frame msg) (c_base c) false true = (c_base c, im_frame msg)).
  { unfold pose_frames. destruct (String.eqb_spec (c_base c) ""); [contradiction|reflexivity]. }
  pose proof (pose_measured pq e c cd (imu_pose msg) (c_base c) (c_base c) true n no_motion _ _ HF HD HFr HL no_motion_rigid) as PM.
  cbv zeta in PM. rewrite source_base in PM. rewrite HRl in PM. cbn [to_base base_pose source_cov] in PM.
  destruct PM as (m & Q & T1 & T2 & T3 & M0 & M3 & FL & CV & ON & _).
  { intros s h. discriminate h. }
  { apply rigid_mult; [apply rigid_identity|]. unfold rigid, imu_pose_of. cbn [t_basis]. apply imu_basis_rotation. }
  assert (PI_pos := PI_RGT_0).
  assert (ATT : pose_attitude (imu_pose msg) = @m3_setRPY RScalar r p y).
  { apply turn_inj. intros v. rewrite attitude_unit by exact U. rewrite setRPY_oriented. symmetry. apply HDs. }
  assert (EYE : @m3_setRPY RScalar 0 0 0 = m3eye).
  { apply turn_inj. intros v. rewrite setRPY_oriented, turn_eye. unfold oriented. destruct v as [vx vy vz].
    unfold about_x, about_y, about_z. cbn. rewrite ?sin_0, ?cos_0. apply v3_eq; unfold X, Y, Z3; cbn; ring. }
  assert (G0 : @m3_getRPY RScalar m3eye = (0, 0, 0)).
  { rewrite <- EYE. apply getRPY_setRPY_exact; lra. }
  assert (BAS : @imu_basis RScalar (t_basis no_motion) (pose_attitude (imu_pose msg)) = @m3_setRPY RScalar r p y).
  { unfold imu_basis. change (t_basis no_motion) with (@m3eye RScalar). rewrite quatToRPY_rotation by apply rotation_eye. rewrite G0.
    rewrite ATT. rewrite quatToRPY_rotation by apply setRPY_rotation. rewrite getRPY_setRPY_exact by assumption.
    cbv zeta. toR. rewrite EYE. rewrite !Rminus_0_r. rewrite !normalize_angle_id by lra. rewrite m3mv_turn, turn_eye. reflexivity. }
  exists m. split; [exact Q|]. split; [exact T1|]. split; [exact T2|]. split; [exact T3|].
  rewrite t_mult_identity_l in M0, M3. unfold imu_pose_of in M0, M3. cbn [t_basis t_origin] in M0, M3. rewrite BAS in M3.
  replace (rpy_of (@m3_setRPY RScalar r p y)) with (v3 r p y) in M3
    by (unfold rpy_of; rewrite getRPY_setRPY_exact by assumption; reflexivity).
  split; [exact M0|]. split; [exact M3|].
  assert (MT : mask_turn no_motion true = t_basis (@no_motion RScalar)).
  { unfold mask_turn, PrepareReal.yaw_turn, m3_yaw. change (t_basis no_motion) with (@m3eye RScalar). rewrite G0. exact EYE. }
  rewrite MT in FL, CV. rewrite no_motion_flags in FL.
  split; [exact FL|].
  assert (CV' : measures_cov (e_two_d e) (m_cov m) 0 6 (as_matrix 6 (ps_cov (imu_pose msg)))).
  { eapply cov_ext; [|exact CV]. intros i j Hi Hj. apply no_motion_cov6; assumption. }
  split.
  - intros i j Hi Hj Hk. pose proof (CV' (3 + i)%nat (3 + j)%nat ltac:(lia) ltac:(lia)) as H. cbn [Nat.add] in H |- *.
    rewrite H by (destruct Hk; [left; assumption|right; lia]). unfold as_matrix, imu_pose, angular_block. cbn [ps_cov].
    destruct i as [|[|[|i]]]; [| | |lia]; (destruct j as [|[|[|j]]]; [reflexivity|reflexivity|reflexivity|lia]).
  - assert (Z0 : forall i j, (i < 6)%nat -> (j < 6)%nat -> (i < 3 \/ j < 3)%nat -> as_matrix 6 (ps_cov (imu_pose msg)) i j = 0).
    { intros i j Hi Hj Hij. unfold as_matrix, imu_pose, angular_block. cbn [ps_cov].
      destruct i as [|[|[|[|[|[|i]]]]]]; try lia; (destruct j as [|[|[|[|[|[|j]]]]]]; try lia; reflexivity). }
    intros i j Hi. destruct (Nat.lt_ge_cases i 6) as [H6|H6].
    + assert (Hi3 : (i < 3)%nat) by lia. split.
      * intros Hk. destruct M0 as (A0 & A1 & A2). cbn [Nat.add] in *.
        destruct i as [|[|[|i]]]; [exact (A0 Hk)|exact (A1 Hk)|exact (A2 Hk)|lia].
      * intros Hk. destruct (Nat.lt_ge_cases j 6) as [J6|J6].
        { pose proof (CV' i j H6 J6) as P1. pose proof (CV' j i J6 H6) as P2. cbn [Nat.add] in P1, P2.
          rewrite Z0 in P1, P2 by lia. split; [apply P1; exact Hk|]. apply P2.
          destruct (Nat.eq_dec i j) as [<-|N]; [destruct Hk; [left; assumption|congruence]|right; congruence]. }
        { destruct (ON j i ltac:(lia)) as [_ H]. destruct H; [|split; assumption].
          destruct (Nat.eq_dec i j) as [<-|N]; [lia|right; congruence]. }
    + apply ON. lia.
Qed.

(** ** Covariances in two dimensions (C53) *)
Lemma flattened_cov e cd msg (n : node RScalar E) m i : e_two_d e = true -> flattened i ->
  In m (queued (snd (twistCallback pq e c cd msg (c_base c) n))) -> m_cov m i i = 1 / 1000000.
Proof.
  intros H2 Hi. unfold twistCallback, sensorCallback. destruct (_ >=? _)%Z; [intros []|]. cbv zeta.
  destruct (sm_find _ _); [|intros []]. destruct (_ <=? _)%Z; [|intros []].
  match goal with |- context [prepareTwist ?a ?b ?x ?y ?z ?w ?f ?v ?cv] =>
    set (r := prepareTwist a b x y z w f v cv); assert (Er : r = prepareTwist a b x y z w f v cv) by reflexivity end.
  clearbody r. unfold prepareTwist in Er. cbv zeta in Er.
  destruct (lookupTransformSafe _ _ _ _) as [t|]; [|rewrite Er; intros []].
  match type of Er with context [finish ?d ?v ?cv ?u] => set (vv := v) in Er; set (cc := cv) in Er; set (uu := u) in Er end.
  rewrite H2 in Er. unfold finish in Er. clearbody vv cc uu.
  assert (EC : pr_ok r = true /\ pr_cov r i i = 1 / 1000000).
  { rewrite Er. unfold forceTwoD, two_d_members. cbn [pr_ok pr_cov fold_left]. split; [reflexivity|].
    assert (L : @lit RScalar 1 6 = 1 / 1000000) by (unfold lit; toR; change (10 ^ 6)%Z with 1000000%Z; lra).
    unfold flattened in Hi. cbn in Hi.
    destruct Hi as [<-|[<-|[<-|[<-|[<-|[<-|[<-|[]]]]]]]]; unfold mset; cbn [Nat.eqb andb]; exact L. }
  destruct EC as [-> EC]. intros [<-|[]]. exact EC.
Qed.

Definition skew_cov : nat -> R := fun i => match i with 0%nat | 2%nat | 12%nat | 14%nat => 1 | _ => 0 end.
Definition skew_msg : twist_msg RScalar := mkTwist 1 "" (v3 0 0 0) (v3 0 0 0) skew_cov.

Lemma skew_psd : psd 6 (as_matrix 6 skew_cov).
Proof.
  split.
  - intros i j Hi Hj. unfold as_matrix, skew_cov.
    destruct i as [|[|[|[|[|[|i]]]]]]; try lia; destruct j as [|[|[|[|[|[|j]]]]]]; try lia; reflexivity.
  - intros x. unfold rdot, rmv, as_matrix, skew_cov. cbn. 
    match goal with |- 0 <= ?a => replace a with ((x 0%nat + x 2%nat) * (x 0%nat + x 2%nat)) by ring end. exact (Rle_0_sqr _).
Qed.
End Wit.

(** ** A small node *)
Definition plain_env (two_d : bool) (g : R) (remove : smap bool) (b : tf_buffer RScalar) : penv RScalar :=
  @mkEnv RScalar two_d g remove b (fun x => Rtrunc (x * 1000000000)) (fun t => IZR t / 1000000000).
Lemma trunc_Z t : (0 <= t)%Z -> Rtrunc (IZR t) = t.
Proof.
  intros H. unfold Rtrunc. destruct (Rle_dec 0 (IZR t)) as [h|h]; [|exfalso; apply h; apply IZR_le; exact H].
  pose proof (Int_part_bounds (IZR t)) as [I1 I2]. apply Z.le_antisymm; apply Zlt_succ_le; unfold Z.succ; apply lt_IZR; rewrite plus_IZR; lra.
Qed.
Lemma plain_clock two_d g remove b : exact_clock (plain_env two_d g remove b).
Proof.
  intros t [H _]. unfold plain_env. cbn [e_from_sec e_to_sec]. split; [|reflexivity].
  replace (IZR t / 1000000000 * 1000000000) with (IZR t) by lra. apply trunc_Z, H.
Qed.

Definition prep_cfg : config RScalar :=
  mkConfig false false false true true true false 100 20 0 10 mzero mzero "odom" "map" "odom" "base_link" "base_link".
Definition prep_node : node RScalar unit :=
  node_init (setSensorTimeout (@fb_init RScalar unit (fun _ => 0) tt) 20)
    (@mkAng RScalar v3zero mzero v3zero 0) (fun _ => 0) false 0.
Definition prep_still : vtbl RScalar unit := mkVtbl (fun s _ _ => s) (fun s _ => s).
Definition prep_cd (topic : string) (differential relative : bool) : callback_data RScalar :=
  @mkCb RScalar topic (repeat true 15) 15 differential relative false 5.
Lemma prep_fresh topic s : (0 < s)%Z -> fresh prep_node topic s.
Proof. intros H. split; [exact H|]. intros t h. discriminate h. Qed.
Lemma prep_unseen topic : unseen prep_node topic.
Proof. split; reflexivity. Qed.

Definition no_buffer : tf_buffer RScalar := fun _ _ _ => None.
Definition always (t : T4) : tf_buffer RScalar := fun _ _ _ => Some t.
Lemma no_buffer_self f s : answer no_buffer f f s (Some no_motion).
Proof. apply same_frame; reflexivity. Qed.
Lemma always_answer t f g s : answer (always t) f g s (Some t).
Proof. apply at_time. reflexivity. Qed.

(** ** Two dimensions: the diagonal is overwritten, the rest is not (C53) *)
Lemma two_d_not_psd : exists (pq : pqueue RScalar) (e : penv RScalar) (c : config RScalar) (cd : callback_data RScalar) (msg : twist_msg RScalar) (n : node RScalar unit) (m : meas RScalar),
  e_two_d e = true /\ psd 6 (as_matrix 6 (tw_cov msg)) /\
  queued (snd (receive pq e c (SubTwist cd) (MsgTwist msg) n)) = [m] /\ ~ psd 15 (m_cov m).
Proof.
  set (e := plain_env true 0 [] no_buffer). set (cd := prep_cd "twist" false false).
  destruct (twist_aligned (list_pq RScalar) e prep_cfg cd skew_msg prep_node (plain_clock _ _ _ _)
    ltac:(unfold stamp_range; cbn; lia) (prep_fresh _ 1 ltac:(lia)) (no_buffer_self _ _))
    as (m & Q & _ & _ & _ & _ & _ & _ & CV & _).
  exists (list_pq RScalar), e, prep_cfg, cd, skew_msg, prep_node, m.
  split; [reflexivity|]. split; [exact skew_psd|]. split; [exact Q|]. intros HP.
  assert (K : forall i, kept true (6 + i) \/ i <> i -> kept true (6 + i)) by tauto.
  pose proof (CV 0%nat 0%nat ltac:(lia) ltac:(lia)) as C00. pose proof (CV 0%nat 2%nat ltac:(lia) ltac:(lia)) as C02.
  pose proof (CV 2%nat 0%nat ltac:(lia) ltac:(lia)) as C20. cbn [Nat.add] in C00, C02, C20.
  assert (C22 : m_cov m 8%nat 8%nat = 1 / 1000000).
  { apply (flattened_cov (list_pq RScalar) prep_cfg e cd skew_msg prep_node); [reflexivity|unfold flattened; cbn; tauto|].
    cbn [receive] in Q. rewrite Q. left. reflexivity. }
  specialize (C00 ltac:(left; right; unfold flattened; cbn; lia)). specialize (C02 ltac:(right; lia)). specialize (C20 ltac:(right; lia)).
  pose proof (psd_sub [6; 8]%nat (m_cov m) 15 ltac:(cbn; intros a [<-|[<-|[]]]; lia) HP) as [_ HQ].
  specialize (HQ (fun i => match i with O => 1 | _ => -1 end)). unfold quad in HQ. cbn in HQ.
  rewrite C00, C02, C20, C22 in HQ. unfold as_matrix, skew_cov in HQ. cbn in HQ. lra.
Qed.

(** ** An IMU mounted upside down (C55) *)
Definition flip : T4 := mkTrans (mkM3 (v3 1 0 0) (v3 0 (-1) 0) (v3 0 0 (-1))) (v3 0 0 0).
Definition flip_msg (g : R) : imu_msg RScalar :=
  mkImu 1 "imu" (@mkQuat RScalar 1 0 0 0) (v3 0 0 0) (v3 0 0 (- g)) (fun _ => 1) (fun _ => 1) (fun _ => 1).
Lemma flip_rigid : rigid flip.
Proof. unfold rigid, rotation, flip, inner, cross3, X, Y, Z3. cbn. repeat split; try ring; f_equal; ring. Qed.
Lemma upside_down (g : R) : exists (pq : pqueue RScalar) (e : penv RScalar) (c : config RScalar) (cd : callback_data RScalar) (msg : imu_msg RScalar) (n : node RScalar unit) (m : meas RScalar),
  e_gravity e = g /\ e_two_d e = false /\ at_rest n /\ rigid flip /\ e_buffer e = always flip /\ sm_find (e_remove e) (cd_topic cd) = Some true /\
  imu_attitude n msg (t_basis flip) (spin (im_orientation msg)) /\
  spin (im_orientation msg) (im_linear msg) = up g /\ turn (t_basis flip) (im_linear msg) = up g /\
  queued (snd (accelerationCallback pq e c cd msg (c_base c) n)) = [m] /\ m_value m 14%nat = 2 * g.
Proof.
  set (e := plain_env false g [("imu"%string, true)] (always flip)). set (cd := prep_cd "imu" false false).
  assert (IA : imu_attitude prep_node (flip_msg g) (t_basis flip) (spin (im_orientation (flip_msg g)))).
  { apply from_message; [cbn; rewrite Rabs_right by lra; lra|unfold unit_quat; cbn; ring]. }
  assert (SU : spin (im_orientation (flip_msg g)) (im_linear (flip_msg g)) = up g).
  { unfold spin, flip_msg, up, plus3, times3, cross3, X, Y, Z3. cbn. apply v3_eq; unfold X, Y, Z3; cbn; ring. }
  assert (TU : turn (t_basis flip) (im_linear (flip_msg g)) = up g).
  { unfold turn, flip, inner, flip_msg, up, X, Y, Z3. cbn. apply v3_eq; unfold X, Y, Z3; cbn; ring. }
  destruct (gravity_general (list_pq RScalar) prep_cfg e cd (flip_msg g) prep_node flip _ (im_linear (flip_msg g)) _ (plain_clock _ _ _ _)
    ltac:(unfold stamp_range; cbn; lia) (prep_fresh _ 1 ltac:(lia)) eq_refl eq_refl (always_answer _ _ _ _) flip_rigid
    (conj eq_refl eq_refl) IA SU eq_refl eq_refl) as (m & Q & (_ & _ & M)).
  exists (list_pq RScalar), e, prep_cfg, cd, (flip_msg g), prep_node, m.
  split; [reflexivity|]. split; [reflexivity|]. split; [split; reflexivity|]. split; [exact flip_rigid|]. split; [reflexivity|].
  split; [reflexivity|]. split; [exact IA|]. split; [exact SU|]. split; [exact TU|]. split; [exact Q|].
  cbn [Nat.add] in M. rewrite M by (left; reflexivity). rewrite TU. unfold minus3, up, flip_msg, Z3. cbn. ring.
Qed.

(** ** The transform at the stamp is available but another one is used (C57) *)
Definition two_times : tf_buffer RScalar := fun _ _ t =>
  if Z.eqb t 5000000000 then Some (mkTrans m3eye (v3 1 0 0)) else if Z.eqb t 5 then Some (mkTrans m3eye (v3 2 0 0)) else None.
Definition five_msg : pose_msg RScalar := mkPose 5000000000 "map" (v3 0 0 0) (@mkQuat RScalar 0 0 0 1) (fun _ => 0).
Lemma shift_rigid x : rigid (mkTrans (@m3eye RScalar) (v3 x 0 0)).
Proof. apply rotation_eye. Qed.
Lemma one_unit : unit_quat (@mkQuat RScalar 0 0 0 1).
Proof. unfold unit_quat. cbn. ring. Qed.
Lemma one_spin v : spin (@mkQuat RScalar 0 0 0 1) v = v.
Proof. destruct v as [a b d]. change (sc RScalar) with R in *. unfold spin, plus3, times3, cross3, X, Y, Z3. cbn. apply v3_eq; unfold X, Y, Z3; cbn; ring. Qed.
Lemma wrong_time : exists (pq : pqueue RScalar) (e : penv RScalar) (c : config RScalar) (cd : callback_data RScalar) (msg : pose_msg RScalar) (n : node RScalar unit) t (m : meas RScalar),
  exact_clock e /\ e_two_d e = false /\ e_buffer e (c_world c) (ps_frame msg) (ps_stamp msg) = Some t /\ rigid t /\
  queued (snd (receive pq e c (SubPose cd) (MsgPose msg) n)) = [m] /\ X (move t (ps_position msg)) = 1 /\ m_value m 0%nat = 2.
Proof.
  set (e := plain_env false 0 [] two_times). set (cd := prep_cd "pose" false false).
  destruct (pose_transformed (list_pq RScalar) e prep_cfg cd five_msg prep_node (mkTrans m3eye (v3 2 0 0)) eq_refl eq_refl
    ltac:(discriminate) (plain_clock _ _ _ _) ltac:(unfold stamp_range; cbn; lia) one_unit (prep_fresh _ 5000000000 ltac:(lia))
    ltac:(apply at_time; reflexivity) (shift_rigid 2)) as (m & a & Q & _ & _ & _ & (M & _) & _).
  exists (list_pq RScalar), e, prep_cfg, cd, five_msg, prep_node, (mkTrans m3eye (v3 1 0 0)), m.
  split; [apply plain_clock|]. split; [reflexivity|]. split; [reflexivity|]. split; [apply shift_rigid|]. split; [exact Q|].
  split; [|rewrite M by (left; reflexivity)]; unfold move, plus3, turn, inner, five_msg, X, Y, Z3; cbn; toR; ring.
Qed.

(** ** A relative stream whose frame is not the world frame (C51) *)
Definition one_input (e : penv RScalar) (p : pose_msg RScalar) : list (@stream_input RScalar unit) := [Own e p].
Lemma one_follows e p topic : (0 < ps_stamp p)%Z -> follows prep_node topic (own_of (one_input e p)).
Proof.
  intros H. split.
  - intros x [<-|[]]. apply prep_fresh, H.
  - repeat constructor.
Qed.
Lemma relative_start : exists (pq : pqueue RScalar) (vt : vtbl RScalar unit) (e : penv RScalar) (c : config RScalar) (cd : callback_data RScalar) (msg : pose_msg RScalar) (n : node RScalar unit) (m : meas RScalar),
  exact_clock e /\ cd_differential cd = false /\ cd_relative cd = true /\ unseen n (cd_topic cd) /\ e_two_d e = false /\
  of_stream (cd_topic cd) (snd (respond pq vt c n [Message e (SubPose cd) (MsgPose msg)])) = [m] /\ m_value m 0%nat = 1.
Proof.
  set (e := plain_env false 0 [] (always (mkTrans m3eye (v3 1 0 0)))). set (cd := prep_cd "pose" false true).
  pose (tr := fun _ : penv RScalar * pose_msg RScalar => mkTrans m3eye (v3 1 0 0) : T4).
  pose proof (relative_run (list_pq RScalar) prep_still prep_cfg (list_pq_ok RScalar) cd eq_refl eq_refl ltac:(discriminate) tr (one_input e five_msg) prep_node
    (prep_unseen _) ltac:(intros i [h|[]]; discriminate h) (one_follows e five_msg (cd_topic cd) eq_refl)) as RR.
  cbn [own_of one_input map as_input] in RR.
  assert (H : Forall2 (fun y m => motion_from (tr y) (e, five_msg) y m) [(e, five_msg)]
    (of_stream (cd_topic cd) (snd (respond (list_pq RScalar) prep_still prep_cfg prep_node [Message e (SubPose cd) (MsgPose five_msg)])))).
  { apply RR. intros x [<-|[]]. split; [apply plain_clock|]. split; [unfold stamp_range; cbn; lia|]. split; [exact one_unit|].
    split; [apply always_answer|apply shift_rigid]. }
  clear RR. remember (of_stream (cd_topic cd) _) as ms eqn:Em. inversion H as [|? m ? l' M F]; subst. inversion F; subst. 
  exists (list_pq RScalar), prep_still, e, prep_cfg, cd, five_msg, prep_node, m.
  split; [apply plain_clock|]. split; [reflexivity|]. split; [reflexivity|]. split; [apply prep_unseen|]. split; [reflexivity|].
  split; [symmetry; assumption|].
  destruct M as (_ & d & a & D & (M & _) & _). cbn [snd ps_orientation ps_position five_msg fst] in D, M.
  rewrite M by (left; reflexivity).
  replace (spin (@mkQuat RScalar 0 0 0 1) d) with d in D.
  2:{ clear. destruct d as [dx dy dz]. change (sc RScalar) with R in *. unfold spin, plus3, times3, cross3, X, Y, Z3. cbn. apply v3_eq; unfold X, Y, Z3; cbn; ring. }
  rewrite D. unfold tr, move, plus3, turn, inner, minus3, X, Y, Z3; cbn; toR; ring.
Qed.

(** ** Two poses of a differential stream with one stamp (C50), doubles *)
(** the conversion of 63-bit integers *)
Definition round_ofZ (z : Z) : float :=
  if Z.ltb z 0 then PrimFloat.opp (PrimFloat.of_uint63 (Uint63.of_Z (- z))) else PrimFloat.of_uint63 (Uint63.of_Z z).
Section SameStamp.
Variables (ls lc la : float -> float) (lt lf : float -> float -> float) (ltr : float -> Z).
Definition ss_lm : LibM := mkLibM ls lc la lt lf round_ofZ ltr.
Definition ss_zero : nat -> FScalar ss_lm := fun _ => 0%float.
Definition ss_node : node (FScalar ss_lm) unit :=
  node_init (@fb_init (FScalar ss_lm) unit ss_zero tt) (@mkAng (FScalar ss_lm) v3zero mzero v3zero 0%float) ss_zero false 0%Z.
Definition ss_cfg : config (FScalar ss_lm) :=
  @mkConfig (FScalar ss_lm) false false false true true true false 100 20 0 10 mzero mzero "odom" "map" "odom" "base_link" "base_link".
Definition ss_cd : callback_data (FScalar ss_lm) := @mkCb (FScalar ss_lm) "pose" (repeat true 15) 15 true false false 5%float.
Definition ss_env : penv (FScalar ss_lm) := @mkEnv (FScalar ss_lm) false 0%float [] (fun _ _ _ => None) (fun _ => 0%Z) (fun _ => 0%float).
Definition ss_msg : pose_msg (FScalar ss_lm) :=
  @mkPose (FScalar ss_lm) 1 "odom" (@mkV3 (FScalar ss_lm) 0%float 0%float 0%float) (@mkQuat (FScalar ss_lm) 0%float 0%float 0%float 1%float) ss_zero.
Local Notation ss_one := (receive (list_pq _) ss_env ss_cfg (SubPose ss_cd) (MsgPose ss_msg) ss_node).
Local Notation ss_two := (receive (list_pq _) ss_env ss_cfg (SubPose ss_cd) (MsgPose ss_msg) (fst ss_one)).
Lemma ss_length : List.length (queued (snd ss_one)) = 0%nat.
Proof. vm_compute. reflexivity. Qed.
Lemma ss_first : queued (snd ss_one) = [].
Proof. apply length_zero_iff_nil. exact ss_length. Qed.
Lemma ss_second : map (fun m : meas (FScalar ss_lm) => s_isnan (m_value m 6%nat)) (queued (snd ss_two)) = [true].
Proof. vm_compute. reflexivity. Qed.
Lemma same_stamp : exists (e : penv (FScalar ss_lm)) c cd (msg : pose_msg (FScalar ss_lm)) (n : node (FScalar ss_lm) unit),
  cd_differential cd = true /\ queued (snd (receive (list_pq _) e c (SubPose cd) (MsgPose msg) n)) = [] /\
  map (fun m : meas (FScalar ss_lm) => s_isnan (m_value m 6%nat))
    (queued (snd (receive (list_pq _) e c (SubPose cd) (MsgPose msg) (fst (receive (list_pq _) e c (SubPose cd) (MsgPose msg) n))))) = [true].
Proof.
  exists ss_env, ss_cfg, ss_cd, ss_msg, ss_node. split; [exact (eq_refl true)|].
  split; [exact ss_first|exact ss_second].
Qed.
End SameStamp.

(** ** The first pose of an aligned relative stream (C51) *)
Lemma relative_zero {E : Type} (pq : pqueue RScalar) (vt : vtbl RScalar E) (c : config RScalar) : pq_ok pq ->
  forall cd : callback_data RScalar, cd_differential cd = false -> cd_relative cd = true -> c_world c <> ""%string ->
  forall (tr : posed -> T4) l (n : node RScalar E) x r,
  unseen n (cd_topic cd) -> all_foreign (cd_topic cd) l -> follows n (cd_topic cd) (own_of l) ->
  (forall y, In y (own_of l) -> rel_ok c tr y) -> own_of l = x :: r -> tr x = no_motion ->
  exists m ms, of_stream (cd_topic cd) (snd (respond pq vt c n (map (as_input cd) l))) = m :: ms /\
    measures (e_two_d (fst x)) (m_value m) 0 (v3 0 0 0) /\ measures (e_two_d (fst x)) (m_value m) 3 (v3 0 0 0).
Proof.
  intros Hpq cd Hd Hr Hw tr l n x r HU HA HF HO Eo HT.
  pose proof (relative_run pq vt c Hpq cd Hd Hr Hw tr l n HU HA HF HO) as R. rewrite Eo in R.
  inversion R as [|? m ? ms M F]; subst. exists m, ms. split; [reflexivity|].
  rewrite HT in M. destruct M as (_ & d & a & D & M0 & M3 & _ & Z & _).
  rewrite (Z eq_refl eq_refl) in M3. split; [|exact M3].
  assert (U : unit_quat (ps_orientation (snd x))) by (apply (HO x); rewrite Eo; left; reflexivity).
  assert (d = v3 0 0 0) as ->.
  { apply (spin_inj (ps_orientation (snd x))); [exact U|]. rewrite D. clear. destruct x as [e p]. cbn [snd]. 
    generalize (ps_position p) (ps_orientation p). intros [a b c] [q0 q1 q2 q3]. change (sc RScalar) with R in *.
    unfold spin, minus3, plus3, times3, cross3, X, Y, Z3. cbn. apply v3_eq; unfold X, Y, Z3; cbn; ring. }
  replace (move no_motion (v3 0 0 0)) with (v3 0 0 0) in M0; [exact M0|].
  unfold move, plus3, turn, inner, no_motion, X, Y, Z3. cbn. apply v3_eq; unfold X, Y, Z3; cbn; toR; ring.
Qed.

(** ** Turning back (C53) *)
Lemma cov_back {E : Type} (pq : pqueue RScalar) (c : config RScalar) (e e' : penv RScalar) cd (msg msg' : pose_msg RScalar) (n n' : node RScalar E) t t' (m : meas RScalar) :
  cd_differential cd = false -> cd_relative cd = false -> c_world c <> ""%string ->
  exact_clock e -> exact_clock e' -> e_two_d e = false -> e_two_d e' = false ->
  stamp_range (ps_stamp msg) -> stamp_range (ps_stamp msg') ->
  unit_quat (ps_orientation msg) -> unit_quat (ps_orientation msg') ->
  fresh n (cd_topic cd) (ps_stamp msg) -> fresh n' (cd_topic cd) (ps_stamp msg') ->
  answer (e_buffer e) (c_world c) (ps_frame msg) (ps_stamp msg / 1000000000) (Some t) -> rigid t ->
  answer (e_buffer e') (c_world c) (ps_frame msg') (ps_stamp msg' / 1000000000) (Some t') -> rigid t' ->
  (forall v, turn (t_basis t') (turn (t_basis t) v) = v) ->
  queued (snd (receive pq e c (SubPose cd) (MsgPose msg) n)) = [m] ->
  meq 6 6 (as_matrix 6 (ps_cov msg')) (block 0 (m_cov m)) ->
  exists m' : meas RScalar, queued (snd (receive pq e' c (SubPose cd) (MsgPose msg') n')) = [m'] /\
    meq 6 6 (block 0 (m_cov m')) (as_matrix 6 (ps_cov msg)).
Proof.
  intros HD HRl HW HE HE' E2 E2' HS HS' U U' HF HF' HA HR HA' HR' HT Q HC.
  destruct (pose_transformed pq e c cd msg n t HD HRl HW HE HS U HF HA HR) as (m1 & a & Q1 & _ & _ & _ & _ & _ & _ & _ & _ & CV & _).
  rewrite Q in Q1. injection Q1 as <-.
  destruct (pose_transformed pq e' c cd msg' n' t' HD HRl HW HE' HS' U' HF' HA' HR') as (m' & a' & Q' & _ & _ & _ & _ & _ & _ & _ & _ & CV' & _).
  rewrite E2 in CV. rewrite E2' in CV'. exists m'. split; [exact Q'|].
  apply (turned6_back (t_basis t) (t_basis t') (as_matrix 6 (ps_cov msg)) (block 0 (m_cov m))); [exact HT|apply measured_turned6; [exact HR|exact CV]|].
  intros u v u' v'. rewrite (measured_turned6 (t_basis t') (m_cov m') _ 0 HR' CV').
  apply bilinear_ext; [exact HC|intros i _; reflexivity|intros i _; reflexivity].
Qed.

(** ** A body driving a circle (C54) *)
Definition circle_attitude (t : R) : M3 := mkM3 (v3 (cos t) (- sin t) 0) (v3 (sin t) (cos t) 0) (v3 0 0 1).
Definition circle (r t : R) : V3 := v3 (r * cos t) (r * sin t) 0.
Definition circle_d (r t : R) : V3 := v3 (- r * sin t) (r * cos t) 0.
Definition circle_dd (r t : R) : V3 := v3 (- r * cos t) (- r * sin t) 0.
Definition steady (t : R) : V3 := v3 0 0 1.

Lemma dl_eq f x l l' : l = l' -> derivable_pt_lim f x l -> derivable_pt_lim f x l'.
Proof. intros ->. auto. Qed.
Lemma dl_wave a b (f : R -> R) x : (forall t, f t = a * cos t + b * sin t) -> derivable_pt_lim f x (b * cos x - a * sin x).
Proof.
  intros H. apply (Jacobian.derivable_ext (fun t => a * cos t + b * sin t)); [intros t; symmetry; apply H|].
  apply (dl_eq _ _ (a * - sin x + b * cos x)); [ring|].
  apply (derivable_pt_lim_plus (fun t => a * cos t) (fun t => b * sin t)).
  - apply (derivable_pt_lim_scal cos a). apply derivable_pt_lim_cos.
  - apply (derivable_pt_lim_scal sin b). apply derivable_pt_lim_sin.
Qed.
Lemma dl_flat a (f : R -> R) x : (forall t, f t = a) -> derivable_pt_lim f x 0.
Proof.
  intros H. apply (Jacobian.derivable_ext (fun _ => a)); [intros t; symmetry; apply H|]. apply derivable_pt_lim_const.
Qed.
Lemma circle_1 r : derivative (circle r) (circle_d r).
Proof.
  intros t. unfold circle, circle_d, X, Y, Z3. cbn. split; [|split].
  - apply (dl_eq _ _ (0 * cos t - r * sin t)); [ring|]. apply dl_wave. intros; ring.
  - apply (dl_eq _ _ (r * cos t - 0 * sin t)); [ring|]. apply dl_wave. intros; ring.
  - apply (dl_flat 0). reflexivity.
Qed.
Lemma circle_2 r : derivative (circle_d r) (circle_dd r).
Proof.
  intros t. unfold circle_d, circle_dd, X, Y, Z3. cbn. split; [|split].
  - apply (dl_eq _ _ (- r * cos t - 0 * sin t)); [ring|]. apply dl_wave. intros; ring.
  - apply (dl_eq _ _ (0 * cos t - r * sin t)); [ring|]. apply dl_wave. intros; ring.
  - apply (dl_flat 0). reflexivity.
Qed.
Lemma circle_rates : body_rates circle_attitude steady.
Proof.
  intros [a b d] t. change (sc RScalar) with R in *. unfold circle_attitude, steady, turn, inner, cross3, X, Y, Z3. cbn. split; [|split].
  - apply (dl_eq _ _ (- b * cos t - a * sin t)); [ring|]. apply dl_wave. intros; ring.
  - apply (dl_eq _ _ (a * cos t - b * sin t)); [ring|]. apply dl_wave. intros; ring.
  - apply (dl_eq _ _ 0); [ring|]. apply (dl_flat d). intros; ring.
Qed.
Lemma steady_1 : derivative steady (fun _ => v3 0 0 0).
Proof. intros t. unfold steady, X, Y, Z3. cbn. split; [|split]; eapply dl_flat; reflexivity. Qed.
Lemma derivative_same f g h : (forall t, f t = g t) -> derivative g h -> derivative f h.
Proof.
  intros H D t. destruct (D t) as (A & B & C). split; [|split]; (eapply Jacobian.derivable_ext; [|eassumption]); intros s; cbn; rewrite H; reflexivity.
Qed.
Lemma circle_arm r s t : plus3 (circle r t) (turn (circle_attitude t) (v3 s 0 0)) = circle (r + s) t.
Proof. unfold circle, circle_attitude, plus3, turn, inner, X, Y, Z3. cbn. apply v3_eq; unfold X, Y, Z3; cbn; ring. Qed.

(** ** Short forms *)
Section Short.
Context {E : Type} (pq : pqueue RScalar) (e : penv RScalar) (c : config RScalar).
Lemma pose_turned cd (msg : pose_msg RScalar) (n : node RScalar E) t :
  cd_differential cd = false -> cd_relative cd = false -> c_world c <> ""%string -> e_two_d e = false ->
  exact_clock e -> stamp_range (ps_stamp msg) -> unit_quat (ps_orientation msg) ->
  fresh n (cd_topic cd) (ps_stamp msg) ->
  answer (e_buffer e) (c_world c) (ps_frame msg) (ps_stamp msg / 1000000000) (Some t) -> rigid t ->
  exists m : meas RScalar, queued (snd (receive pq e c (SubPose cd) (MsgPose msg) n)) = [m] /\
    turned6 (t_basis t) (as_matrix 6 (ps_cov msg)) (block 0 (m_cov m)) /\
    (psd 6 (as_matrix 6 (ps_cov msg)) -> psd 15 (m_cov m)).
Proof.
  intros HD HRl HW E2 HE HS U HF HA HR.
  destruct (pose_transformed pq e c cd msg n t HD HRl HW HE HS U HF HA HR) as (m & a & Q & _ & _ & _ & _ & _ & _ & _ & _ & CV & _ & P).
  rewrite E2 in CV. exists m. split; [exact Q|]. split; [apply measured_turned6; assumption|exact (P E2)].
Qed.
Lemma twist_turned cd (msg : twist_msg RScalar) (n : node RScalar E) t : e_two_d e = false ->
  exact_clock e -> stamp_range (tw_stamp msg) -> fresh n (cd_topic cd) (tw_stamp msg) ->
  answer (e_buffer e) (c_base c) (frame_or (tw_frame msg) (c_base c)) (tw_stamp msg) (Some t) -> rigid t ->
  exists m : meas RScalar, queued (snd (receive pq e c (SubTwist cd) (MsgTwist msg) n)) = [m] /\
    turned6 (t_basis t) (as_matrix 6 (tw_cov msg)) (block 6 (m_cov m)) /\
    (psd 6 (as_matrix 6 (tw_cov msg)) -> psd 15 (m_cov m)).
Proof.
  intros E2 HE HS HF HA HR.
  destruct (twist_transformed pq e c cd msg n t HE HS HF HA HR) as (m & Q & _ & _ & _ & _ & _ & _ & CV & _ & P).
  rewrite E2 in CV. exists m. split; [exact Q|]. split; [apply measured_turned6; assumption|exact (P E2)].
Qed.
Lemma acceleration_turned cd (msg : imu_msg RScalar) (n : node RScalar E) t : e_two_d e = false ->
  exact_clock e -> stamp_range (im_stamp msg) -> fresh n (cd_topic cd) (im_stamp msg) ->
  answer (e_buffer e) (c_base c) (frame_or (im_frame msg) (c_base c)) (im_stamp msg) (Some t) -> rigid t ->
  exists m : meas RScalar, queued (snd (accelerationCallback pq e c cd msg (c_base c) n)) = [m] /\
    turned3 (t_basis t) (as_matrix 3 (im_acc_cov msg)) (block 12 (m_cov m)) /\
    (psd 3 (as_matrix 3 (im_acc_cov msg)) -> psd 15 (m_cov m)).
Proof.
  intros E2 HE HS HF HA HR.
  destruct (acceleration_transformed pq e c cd msg n t HE HS HF HA HR) as (m & Q & _ & _ & _ & _ & _ & CV & _ & P).
  rewrite E2 in CV. exists m. split; [exact Q|]. split; [apply measured_turned3; assumption|exact (P E2)].
Qed.
Lemma pose_seconds cd (msg : pose_msg RScalar) (n : node RScalar E) t :
  cd_differential cd = false -> cd_relative cd = false -> c_world c <> ""%string ->
  exact_clock e -> stamp_range (ps_stamp msg) -> (0 < ps_stamp msg)%Z -> unit_quat (ps_orientation msg) ->
  fresh n (cd_topic cd) (ps_stamp msg) ->
  answer (e_buffer e) (c_world c) (ps_frame msg) (ps_stamp msg / 1000000000) (Some t) -> rigid t ->
  (ps_stamp msg / 1000000000 <> ps_stamp msg)%Z /\
  exists m : meas RScalar, queued (snd (receive pq e c (SubPose cd) (MsgPose msg) n)) = [m] /\
    measures (e_two_d e) (m_value m) 0 (move t (ps_position msg)).
Proof.
  intros HD HRl HW HE HS H0 U HF HA HR. split.
  - intros h. pose proof (Z.div_lt (ps_stamp msg) 1000000000 H0 ltac:(lia)). lia.
  - destruct (pose_transformed pq e c cd msg n t HD HRl HW HE HS U HF HA HR) as (m & a & Q & _ & _ & _ & M & _). exists m. auto.
Qed.
End Short.

Lemma rest_zero {E : Type} (pq : pqueue RScalar) (c : config RScalar) e cd (msg : imu_msg RScalar) (n : node RScalar E) t att :
  exact_clock e -> stamp_range (im_stamp msg) -> fresh n (cd_topic cd) (im_stamp msg) ->
  sm_find (e_remove e) (cd_topic cd) = Some true ->
  answer (e_buffer e) (c_base c) (frame_or (im_frame msg) (c_base c)) (im_stamp msg) (Some t) ->
  t_basis t = t_basis no_motion -> at_rest n -> imu_attitude n msg (t_basis t) att ->
  att (im_linear msg) = up (e_gravity e) ->
  exists m : meas RScalar, queued (snd (accelerationCallback pq e c cd msg (c_base c) n)) = [m] /\
    measures (e_two_d e) (m_value m) 12 (v3 0 0 0).
Proof.
  intros HE HS HF HG HA HT [R1 R2] HI HU.
  assert (HR : rigid t) by (unfold rigid; rewrite HT; apply rotation_eye).
  destruct (acceleration_transformed pq e c cd msg n t HE HS HF HA HR) as (m & Qm & _ & _ & _ & M12 & _).
  cbv zeta in M12. rewrite HG in M12. rewrite HT in M12, HI. rewrite no_motion_turn in M12.
  change (t_basis no_motion) with (@m3eye RScalar) in M12, HI.
  rewrite (gravity_aligned e n msg (cd_relative cd) att _ HI HU), R1, R2 in M12.
  exists m. split; [exact Qm|].
  match type of M12 with measures _ _ _ ?v => replace (v3 0 0 0) with v; [exact M12|] end.
  generalize (t_origin t) (im_linear msg). clear. intros o v. tf_ring.
Qed.

Lemma lookup_exact (e : penv RScalar) target source time r : exact_clock e -> stamp_range time ->
  (lookupTransformSafe e target source time = r <-> answer (e_buffer e) target source time r).
Proof.
  intros HE HS. split.
  - intros <-. pose proof (lookup_answer e target source time) as A. rewrite toSec_R in A. rewrite (proj1 (HE time HS)) in A. exact A.
  - intros H. apply lookup_at; assumption.
Qed.

Lemma no_answer {K : Scalar} {E : Type} (pq : pqueue K) (c : config K) (e : penv K) (cd : callback_data K) :
  (forall (msg : twist_msg K) (n : node K E),
     answer (e_buffer e) (c_base c) (frame_or (tw_frame msg) (c_base c)) (e_from_sec e (toSec (tw_stamp msg))) None ->
     queued (snd (receive pq e c (SubTwist cd) (MsgTwist msg) n)) = []) /\
  (forall (msg : imu_msg K) (n : node K E),
     answer (e_buffer e) (c_base c) (frame_or (im_frame msg) (c_base c)) (e_from_sec e (toSec (im_stamp msg))) None ->
     queued (snd (accelerationCallback pq e c cd msg (c_base c) n)) = []) /\
  (forall (msg : pose_msg K) (n : node K E), cd_differential cd = false -> c_world c <> ""%string ->
     answer (e_buffer e) (c_world c) (ps_frame msg) (e_from_sec e (toSec (pose_lookup_time e (ps_stamp msg)))) None ->
     queued (snd (receive pq e c (SubPose cd) (MsgPose msg) n)) = []).
Proof.
  split; [|split].
  - intros msg n A. apply no_twist. apply lookup_is, A.
  - intros msg n A. apply no_acceleration. apply lookup_is, A.
  - intros msg n HD HW A. cbn [receive]. eapply no_pose; [|apply lookup_is, A].
    rewrite HD. unfold pose_frames. destruct (String.eqb_spec (c_world c) ""); [contradiction|]. reflexivity.
Qed.
