(** * Properties of measurement preparation (C41, C49-C57) *)

From Coq Require Import Reals ZArith List Bool Lia Lra String Arith Floats Sorted.
From Verif Require Import Scalar FloatScalar Mat FilterBase Tf StrMap Diagnostics RosFilter RosConfig RosPrepare
  SpecConfig SpecNode SpecTf SpecLin SpecPrepare NodeMore Trig TfReal TfRot TfQuat RBridge
  PrepareProofs PrepareReal PrepareFacts PrepareSeq PrepareThm PrepareMotion PreparePsd PrepareRun PrepareGoals PrepareWit.
Import ListNotations.
Local Open Scope R_scope.

(** ** C41 *)
Theorem C41_set_pose : forall E (c : config RScalar) (e : penv RScalar) (msg : pose_msg RScalar) now (n : node RScalar E) (t : T4),
  c_world c <> ""%string -> exact_clock e -> stamp_range (ps_stamp msg) -> unit_quat (ps_orientation msg) ->
  answer (e_buffer e) (c_world c) (ps_frame msg) (ps_stamp msg / 1000000000) (Some t) -> rigid t ->
  let n' := setPose e c msg now n in
  let s := fb_state (n_filter n') in let P := fb_P (n_filter n') in
  measures (e_two_d e) s 0 (move t (ps_position msg)) /\
  (exists a, measures (e_two_d e) s 3 a /\
     (not_vertical (turn (t_basis t) (spin (ps_orientation msg) (v3 1 0 0))) ->
      describes a (fun v => turn (t_basis t) (spin (ps_orientation msg) v)))) /\
  (forall i, (6 <= i < 15)%nat -> kept (e_two_d e) i -> s i = 0) /\
  (e_two_d e = false -> turned6 (t_basis t) (as_matrix 6 (ps_cov msg)) (block 0 P)) /\
  (forall i j, (6 <= i)%nat \/ (6 <= j)%nat -> kept (e_two_d e) i \/ i <> j ->
     P i j = if Nat.eqb i j then 1 / 1000000 else 0) /\
  n_queue n' = [] /\ n_state_hist n' = [] /\ n_meas_hist n' = [] /\ n_streams n' = no_streams /\
  n_set_pose n' = ps_stamp msg /\ fb_last_time (n_filter n') = now /\
  fb_initialized (n_filter n') = fb_initialized (n_filter n) /\ n_last_msg n' = n_last_msg n.
Proof. exact (fun E c e msg now n t => @set_pose_sets E c e msg now n t). Qed.
Print Assumptions C41_set_pose.

(** The pose cannot be transformed: the node jumps to the origin. *)
Theorem C41_failed : forall E (c : config RScalar) (e : penv RScalar) (msg : pose_msg RScalar) now (n : node RScalar E),
  c_world c <> ""%string -> exact_clock e -> stamp_range (ps_stamp msg) ->
  answer (e_buffer e) (c_world c) (ps_frame msg) (ps_stamp msg / 1000000000) None ->
  let n' := setPose e c msg now n in
  (forall i, fb_state (n_filter n') i = 0) /\
  (forall i j, fb_P (n_filter n') i j = if Nat.eqb i j then 1 / 1000000 else 0) /\
  n_queue n' = [] /\ n_set_pose n' = ps_stamp msg /\ fb_last_time (n_filter n') = now.
Proof. exact (fun E c e msg now n => @set_pose_fails E c e msg now n). Qed.
Print Assumptions C41_failed.

Definition shifted : T4 := mkTrans m3eye (v3 1 0 0).
Example C41_case : c_world prep_cfg <> ""%string /\ exact_clock (plain_env false 0 [] (always shifted)) /\
  stamp_range (ps_stamp five_msg) /\ unit_quat (ps_orientation five_msg) /\
  answer (always shifted) "odom" "map" 5 (Some shifted) /\ rigid shifted /\
  answer no_buffer "odom" "map" 5 None /\
  not_vertical (turn (t_basis shifted) (spin (ps_orientation five_msg) (v3 1 0 0))).
Proof.
  split; [discriminate|]. split; [apply plain_clock|]. split; [unfold stamp_range; cbn; lia|]. split; [exact one_unit|].
  split; [apply always_answer|]. split; [apply shift_rigid|]. split; [apply unavailable; reflexivity || discriminate|].
  unfold shifted, five_msg. cbn [t_basis ps_orientation]. rewrite turn_eye, one_spin. unfold not_vertical, Z3. cbn. lra.
Qed.

(** ** C49 *)
(** Each part is fused under its own stream as if it were alone, if configured
    and not declared absent; otherwise its stream is untouched. *)
Theorem C49_imu_parts : forall (K : Scalar) E (pq : pqueue K) (c : config K) (topic : string)
  (pose_cd twist_cd accel_cd : callback_data K) (e : penv K) (msg : imu_msg K) (n : node K E),
  NoDup [cd_topic pose_cd; cd_topic twist_cd; cd_topic accel_cd] -> (n_set_pose n < im_stamp msg)%Z ->
  let used cd cov := (Z.gtb (cd_sum cd) 0 && negb (declared_absent cov))%bool in
  let r := imuCallback pq e c topic pose_cd twist_cd accel_cd msg n in
  let pose := poseCallback pq e c pose_cd (imu_pose msg) (c_base c) (c_base c) true n in
  let twist := twistCallback pq e c twist_cd (imu_twist msg) (c_base c) n in
  let accel := accelerationCallback pq e c accel_cd msg (c_base c) n in
  let outcome cd cov single :=
    if used cd cov
    then of_stream (cd_topic cd) (snd r) = queued (snd single) /\ memory (cd_topic cd) (fst r) = memory (cd_topic cd) (fst single)
    else of_stream (cd_topic cd) (snd r) = [] /\ memory (cd_topic cd) (fst r) = memory (cd_topic cd) n in
  outcome pose_cd (im_ori_cov msg) pose /\ outcome twist_cd (im_ang_cov msg) twist /\
  outcome accel_cd (im_acc_cov msg) accel /\
  queued (snd r) = of_stream (cd_topic pose_cd) (snd r) ++ of_stream (cd_topic twist_cd) (snd r) ++
                   of_stream (cd_topic accel_cd) (snd r).
Proof. exact (fun K E pq c => @imu_streams K E pq c). Qed.
Print Assumptions C49_imu_parts.

(** Not after the last set_pose: nothing is fused or remembered. *)
Theorem C49_before_set_pose : forall (K : Scalar) E (pq : pqueue K) (c : config K) (topic : string)
  (pose_cd twist_cd accel_cd : callback_data K) (e : penv K) (msg : imu_msg K) (n : node K E),
  (im_stamp msg <= n_set_pose n)%Z ->
  let r := imuCallback pq e c topic pose_cd twist_cd accel_cd msg n in
  snd r = [] /\ forall k, memory k (fst r) = memory k n.
Proof. exact (fun K E pq c => @imu_barrier K E pq c). Qed.
Print Assumptions C49_before_set_pose.

(** A message without orientation. *)
Definition no_orientation : imu_msg RScalar :=
  mkImu 1 "base_link" (@mkQuat RScalar 0 0 0 1) (v3 0 0 1) (v3 0 0 0) (fun _ => -1) (fun _ => 1) (fun _ => 1).
Example C49_case :
  NoDup [cd_topic (prep_cd "imu_pose" false false); cd_topic (prep_cd "imu_twist" false false);
         cd_topic (prep_cd "imu_acceleration" false false)] /\
  (n_set_pose prep_node < im_stamp no_orientation)%Z /\
  declared_absent (im_ori_cov no_orientation) = true /\ declared_absent (im_ang_cov no_orientation) = false.
Proof.
  split; [repeat constructor; cbn; intuition discriminate|]. split; [reflexivity|].
  unfold declared_absent, no_orientation. cbn [im_ori_cov im_ang_cov]. rewrite Rltb_true, Rltb_false. toR.
  rewrite !lit_R. change (10 ^ 9)%Z with 1000000000%Z. split.
  - replace (-1 + 1) with 0 by ring. rewrite Rabs_R0. lra.
  - rewrite Rabs_right; lra.
Qed.

(** ** C50 *)
Theorem C50_velocities : forall E (pq : pqueue RScalar) (vt : vtbl RScalar E) (c : config RScalar), pq_ok pq ->
  forall cd : callback_data RScalar, cd_differential cd = true -> c_world c <> ""%string -> List.length (cd_upd cd) = 15%nat ->
  forall l (n : node RScalar E),
  unseen n (cd_topic cd) -> all_foreign (cd_topic cd) l -> follows n (cd_topic cd) (own_of l) ->
  (forall e p, In (e, p) (own_of l) -> self_known e /\ unit_quat (ps_orientation p)) ->
  pairwise (velocity_between (cd_upd cd)) (own_of l)
    (of_stream (cd_topic cd) (snd (respond pq vt c n (map (as_input cd) l)))).
Proof. exact (fun E pq vt c Hpq cd => @differential_run E pq vt c Hpq cd). Qed.
Print Assumptions C50_velocities.

(** Stamps may repeat: the second message of the same stamp is accepted and
    fused as a velocity that is not a number. Doubles, with the machine's
    conversion of integers and any math library. *)
Theorem C50_same_stamp_refuted : forall ls lc la lt lf ltr,
  let lm := mkLibM ls lc la lt lf round_ofZ ltr in
  exists (e : penv (FScalar lm)) c cd (msg : pose_msg (FScalar lm)) (n : node (FScalar lm) unit),
  cd_differential cd = true /\ queued (snd (receive (list_pq _) e c (SubPose cd) (MsgPose msg) n)) = [] /\
  map (fun m : meas (FScalar lm) => s_isnan (m_value m 6%nat))
    (queued (snd (receive (list_pq _) e c (SubPose cd) (MsgPose msg)
                   (fst (receive (list_pq _) e c (SubPose cd) (MsgPose msg) n))))) = [true].
Proof. exact same_stamp. Qed.
Print Assumptions C50_same_stamp_refuted.

Definition pose_at (s : Z) (x : R) : pose_msg RScalar := mkPose s "odom" (v3 x 0 0) (@mkQuat RScalar 0 0 0 1) (fun _ => 0).
Definition quiet : penv RScalar := plain_env false 0 [] no_buffer.
(** Two poses with a message of another stream and a filter cycle in between. *)
Definition two_poses : list (@stream_input RScalar unit) :=
  [Own quiet (pose_at 1000000000 0);
   Foreign (Message quiet (SubTwist (prep_cd "twist" false false)) (MsgTwist skew_msg));
   Foreign (Event (EvCycle 1 1 None));
   Own quiet (pose_at 3000000000 4)].
Lemma two_poses_ok : unseen prep_node "pose" /\ all_foreign "pose" two_poses /\ follows prep_node "pose" (own_of two_poses) /\
  (forall e p, In (e, p) (own_of two_poses) -> self_known e /\ unit_quat (ps_orientation p)).
Proof.
  split; [apply prep_unseen|]. split.
  - intros i [h|[h|[h|[h|[]]]]]; try discriminate h; injection h as <-; cbn; intuition discriminate.
  - split.
    + split.
      * intros x [<-|[<-|[]]]; apply prep_fresh; cbn; lia.
      * repeat constructor; cbn; lia.
    + intros e p [h|[h|[]]]; injection h as <- <-; (split; [intros f t; left; reflexivity|exact one_unit]).
Qed.
Example C50_case : pq_ok (list_pq RScalar) /\ cd_differential (prep_cd "pose" true false) = true /\
  List.length (cd_upd (prep_cd "pose" true false)) = 15%nat /\
  exists m, of_stream "pose" (snd (respond (list_pq RScalar) prep_still prep_cfg prep_node
    (map (as_input (prep_cd "pose" true false)) two_poses))) = [m] /\ m_value m 6%nat = 2.
Proof.
  split; [apply list_pq_ok|]. split; [reflexivity|]. split; [reflexivity|].
  destruct two_poses_ok as (H1 & H2 & H3 & H4).
  pose proof (C50_velocities unit (list_pq RScalar) prep_still prep_cfg (list_pq_ok _) (prep_cd "pose" true false) eq_refl
    ltac:(discriminate) eq_refl two_poses prep_node H1 H2 H3 H4) as P.
  change (cd_topic (prep_cd "pose" true false)) with "pose"%string in P.
  change (own_of two_poses) with [(quiet, pose_at 1000000000 0); (quiet, pose_at 3000000000 4)] in P.
  revert P. generalize (of_stream "pose" (snd (respond (list_pq RScalar) prep_still prep_cfg prep_node
    (map (as_input (prep_cd "pose" true false)) two_poses)))). intros ms P. cbn [pairwise] in P.
  destruct ms as [|m [|m' ms]]; [destruct P| |destruct P as [_ []]].
  exists m. split; [reflexivity|]. destruct P as [(_ & d & a & D & _ & (M & _) & _) _].
  rewrite M by (left; reflexivity). cbn [snd ps_orientation ps_position ps_stamp pose_at] in *.
  assert (d = v3 4 0 0) as ->.
  { apply (spin_inj (@mkQuat RScalar 0 0 0 1)); [exact one_unit|]. rewrite D.
    unfold spin, minus3, plus3, times3, cross3, X, Y, Z3. cbn. apply v3_eq; unfold X, Y, Z3; cbn; ring. }
  unfold times3, X. cbn [v3 v3x]. change (3000000000 - 1000000000)%Z with 2000000000%Z. lra.
Qed.

(** ** C51 *)
(** [tr] is the transform of each message into the world frame. *)
Theorem C51_motion_from_first : forall E (pq : pqueue RScalar) (vt : vtbl RScalar E) (c : config RScalar), pq_ok pq ->
  forall cd : callback_data RScalar, cd_differential cd = false -> cd_relative cd = true -> c_world c <> ""%string ->
  forall (tr : penv RScalar * pose_msg RScalar -> T4) l (n : node RScalar E),
  unseen n (cd_topic cd) -> all_foreign (cd_topic cd) l -> follows n (cd_topic cd) (own_of l) ->
  (forall x, In x (own_of l) -> rel_ok c tr x) ->
  match own_of l with
  | [] => of_stream (cd_topic cd) (snd (respond pq vt c n (map (as_input cd) l))) = []
  | x :: _ => Forall2 (fun y m => motion_from (tr y) x y m) (own_of l)
                (of_stream (cd_topic cd) (snd (respond pq vt c n (map (as_input cd) l))))
  end.
Proof. exact (fun E pq vt c Hpq cd => @relative_run E pq vt c Hpq cd). Qed.
Print Assumptions C51_motion_from_first.

Theorem C51_starts_at_zero : forall E (pq : pqueue RScalar) (vt : vtbl RScalar E) (c : config RScalar), pq_ok pq ->
  forall cd : callback_data RScalar, cd_differential cd = false -> cd_relative cd = true -> c_world c <> ""%string ->
  forall (tr : penv RScalar * pose_msg RScalar -> T4) l (n : node RScalar E) x r,
  unseen n (cd_topic cd) -> all_foreign (cd_topic cd) l -> follows n (cd_topic cd) (own_of l) ->
  (forall y, In y (own_of l) -> rel_ok c tr y) -> own_of l = x :: r -> tr x = no_motion ->
  exists m ms, of_stream (cd_topic cd) (snd (respond pq vt c n (map (as_input cd) l))) = m :: ms /\
    measures (e_two_d (fst x)) (m_value m) 0 (v3 0 0 0) /\ measures (e_two_d (fst x)) (m_value m) 3 (v3 0 0 0).
Proof. exact (fun E pq vt c Hpq cd => @relative_zero E pq vt c Hpq cd). Qed.
Print Assumptions C51_starts_at_zero.

(** Two executions whose poses differ by one rigid motion of the source. *)
Theorem C51_invariant : forall E (pq : pqueue RScalar) (vt : vtbl RScalar E) (c : config RScalar), pq_ok pq ->
  forall cd : callback_data RScalar, cd_differential cd = false -> cd_relative cd = true -> c_world c <> ""%string ->
  forall g : T4, rigid g ->
  forall l l' (n n' : node RScalar E) (tr tr' : penv RScalar * pose_msg RScalar -> T4),
  unseen n (cd_topic cd) -> all_foreign (cd_topic cd) l -> follows n (cd_topic cd) (own_of l) ->
  (forall x, In x (own_of l) -> rel_ok c tr x) ->
  unseen n' (cd_topic cd) -> all_foreign (cd_topic cd) l' -> follows n' (cd_topic cd) (own_of l') ->
  (forall x, In x (own_of l') -> rel_ok c tr' x) ->
  Forall2 (fun a b => e_two_d (fst b) = e_two_d (fst a) /\ tr' b = tr a /\ moved_pose g (snd a) (snd b)) (own_of l) (own_of l') ->
  Forall2 (fun z m' => same_measurement (fst z) (snd z) m')
    (combine (map (fun a => e_two_d (fst a)) (own_of l))
             (of_stream (cd_topic cd) (snd (respond pq vt c n (map (as_input cd) l)))))
    (of_stream (cd_topic cd) (snd (respond pq vt c n' (map (as_input cd) l')))).
Proof. exact (fun E pq vt c Hpq cd Hd Hr Hw g Hg => @relative_invariant E pq vt c Hpq cd Hd Hr Hw g Hg). Qed.
Print Assumptions C51_invariant.

(** The message frame is not aligned with the world frame: the first pose is
    measured at the offset between them, not at zero. *)
Theorem C51_other_frame_refuted : exists (pq : pqueue RScalar) (vt : vtbl RScalar unit) (e : penv RScalar) (c : config RScalar)
  (cd : callback_data RScalar) (msg : pose_msg RScalar) (n : node RScalar unit) (m : meas RScalar),
  exact_clock e /\ cd_differential cd = false /\ cd_relative cd = true /\ unseen n (cd_topic cd) /\ e_two_d e = false /\
  of_stream (cd_topic cd) (snd (respond pq vt c n [Message e (SubPose cd) (MsgPose msg)])) = [m] /\ m_value m 0%nat = 1.
Proof. exact relative_start. Qed.
Print Assumptions C51_other_frame_refuted.

Definition moved_poses : list (@stream_input RScalar unit) :=
  [Own quiet (pose_at 1000000000 7); Own quiet (pose_at 3000000000 11)].
Example C51_case :
  (forall x, In x (own_of two_poses) -> rel_ok prep_cfg (fun _ => no_motion) x) /\
  (forall x, In x (own_of moved_poses) -> rel_ok prep_cfg (fun _ => no_motion) x) /\
  Forall2 (fun a b => e_two_d (fst b) = e_two_d (fst a) /\
             moved_pose (mkTrans m3eye (v3 7 0 0)) (snd a) (snd b)) (own_of two_poses) (own_of moved_poses) /\
  rigid (mkTrans (@m3eye RScalar) (v3 7 0 0)) /\
  exists m ms, of_stream "pose" (snd (respond (list_pq RScalar) prep_still prep_cfg prep_node
    (map (as_input (prep_cd "pose" false true)) two_poses))) = m :: ms /\ m_value m 0%nat = 0.
Proof.
  assert (OK : forall x, In x (own_of two_poses) -> rel_ok prep_cfg (fun _ => no_motion) x).
  { intros x [<-|[<-|[]]]; (split; [apply plain_clock|split; [unfold stamp_range; cbn; lia|split; [exact one_unit|
      split; [apply same_frame; reflexivity|exact no_motion_rigid]]]]). }
  split; [exact OK|]. split.
  { intros x [<-|[<-|[]]]; (split; [apply plain_clock|split; [unfold stamp_range; cbn; lia|split; [exact one_unit|
      split; [apply same_frame; reflexivity|exact no_motion_rigid]]]]). }
  assert (MV : forall s x y, y = x + 7 -> moved_pose (mkTrans m3eye (v3 7 0 0)) (pose_at s x) (pose_at s y)).
  { intros s x y ->. split; [reflexivity|]. split; [reflexivity|]. split; [reflexivity|]. split.
    - unfold pose_at, move, plus3, turn, inner, X, Y, Z3. cbn. apply v3_eq; unfold X, Y, Z3; cbn; toR; ring.
    - intros v. cbn [t_basis]. rewrite turn_eye. reflexivity. }
  split; [constructor; [split; [reflexivity|apply MV; ring]|constructor; [split; [reflexivity|apply MV; ring]|constructor]]|].
  split; [apply shift_rigid|].
  destruct two_poses_ok as (H1 & H2 & H3 & H4).
  destruct (C51_starts_at_zero unit (list_pq RScalar) prep_still prep_cfg (list_pq_ok _) (prep_cd "pose" false true) eq_refl eq_refl
    ltac:(discriminate) (fun _ => no_motion) two_poses prep_node (quiet, pose_at 1000000000 0) [(quiet, pose_at 3000000000 4)] H1 H2 H3 OK eq_refl eq_refl)
    as (m & ms & Q & (M & _) & _).
  exists m, ms. split; [exact Q|]. rewrite M by (left; reflexivity). reflexivity.
Qed.

(** ** C52 *)
Theorem C52_pose : forall E (pq : pqueue RScalar) (e : penv RScalar) (c : config RScalar) (cd : callback_data RScalar)
  (msg : pose_msg RScalar) (n : node RScalar E),
  cd_differential cd = false -> cd_relative cd = false -> c_world c <> ""%string ->
  exact_clock e -> stamp_range (ps_stamp msg) -> unit_quat (ps_orientation msg) ->
  fresh n (cd_topic cd) (ps_stamp msg) ->
  answer (e_buffer e) (c_world c) (ps_frame msg) (ps_stamp msg / 1000000000) (Some no_motion) ->
  exists (m : meas RScalar) a, queued (snd (receive pq e c (SubPose cd) (MsgPose msg) n)) = [m] /\
    m_topic m = cd_topic cd /\ m_time m = ps_stamp msg /\ m_thresh m = cd_thresh cd /\
    measures (e_two_d e) (m_value m) 0 (ps_position msg) /\
    measures (e_two_d e) (m_value m) 3 a /\
    (not_vertical (spin (ps_orientation msg) (v3 1 0 0)) -> describes a (spin (ps_orientation msg))) /\
    (forall r p y, - PI < r <= PI -> - (PI / 2) < p < PI / 2 -> - PI < y <= PI ->
       describes (v3 r p y) (spin (ps_orientation msg)) -> a = v3 r p y) /\
    same_flags (e_two_d e) (m_upd m) (cd_upd cd) /\
    measures_cov (e_two_d e) (m_cov m) 0 6 (as_matrix 6 (ps_cov msg)) /\
    only (e_two_d e) (m_value m) (m_cov m) 0 6.
Proof. exact (fun E pq e c => @pose_aligned E pq e c). Qed.
Print Assumptions C52_pose.

Theorem C52_twist : forall E (pq : pqueue RScalar) (e : penv RScalar) (c : config RScalar) (cd : callback_data RScalar)
  (msg : twist_msg RScalar) (n : node RScalar E),
  exact_clock e -> stamp_range (tw_stamp msg) -> fresh n (cd_topic cd) (tw_stamp msg) ->
  answer (e_buffer e) (c_base c) (frame_or (tw_frame msg) (c_base c)) (tw_stamp msg) (Some no_motion) ->
  exists m : meas RScalar, queued (snd (receive pq e c (SubTwist cd) (MsgTwist msg) n)) = [m] /\
    m_topic m = cd_topic cd /\ m_time m = tw_stamp msg /\ m_thresh m = cd_thresh cd /\
    measures (e_two_d e) (m_value m) 6 (tw_linear msg) /\
    measures (e_two_d e) (m_value m) 9 (tw_angular msg) /\
    same_flags (e_two_d e) (m_upd m) (cd_upd cd) /\
    measures_cov (e_two_d e) (m_cov m) 6 6 (as_matrix 6 (tw_cov msg)) /\
    only (e_two_d e) (m_value m) (m_cov m) 6 6.
Proof. exact (fun E pq e c => @twist_aligned E pq e c). Qed.
Print Assumptions C52_twist.

Theorem C52_acceleration : forall E (pq : pqueue RScalar) (e : penv RScalar) (c : config RScalar) (cd : callback_data RScalar)
  (msg : imu_msg RScalar) (n : node RScalar E),
  exact_clock e -> stamp_range (im_stamp msg) -> fresh n (cd_topic cd) (im_stamp msg) ->
  sm_find (e_remove e) (cd_topic cd) <> Some true ->
  answer (e_buffer e) (c_base c) (frame_or (im_frame msg) (c_base c)) (im_stamp msg) (Some no_motion) ->
  exists m : meas RScalar, queued (snd (accelerationCallback pq e c cd msg (c_base c) n)) = [m] /\
    m_topic m = cd_topic cd /\ m_time m = im_stamp msg /\ m_thresh m = cd_thresh cd /\
    measures (e_two_d e) (m_value m) 12 (im_linear msg) /\
    same_flags (e_two_d e) (m_upd m) (cd_upd cd) /\
    measures_cov (e_two_d e) (m_cov m) 12 3 (as_matrix 3 (im_acc_cov msg)) /\
    only (e_two_d e) (m_value m) (m_cov m) 12 3.
Proof. exact (fun E pq e c => @acceleration_aligned E pq e c). Qed.
Print Assumptions C52_acceleration.

Theorem C52_imu_orientation : forall E (pq : pqueue RScalar) (c : config RScalar) (e : penv RScalar) (cd : callback_data RScalar)
  (msg : imu_msg RScalar) (n : node RScalar E) r p y,
  cd_differential cd = false -> cd_relative cd = false -> c_base c <> ""%string ->
  exact_clock e -> stamp_range (im_stamp msg) -> unit_quat (im_orientation msg) ->
  fresh n (cd_topic cd) (im_stamp msg) ->
  answer (e_buffer e) (c_base c) (im_frame msg) (im_stamp msg / 1000000000) (Some no_motion) ->
  - PI < r <= PI -> - (PI / 2) < p < PI / 2 -> - PI < y <= PI ->
  describes (v3 r p y) (spin (im_orientation msg)) ->
  exists m : meas RScalar, queued (snd (poseCallback pq e c cd (imu_pose msg) (c_base c) (c_base c) true n)) = [m] /\
    m_topic m = cd_topic cd /\ m_time m = im_stamp msg /\ m_thresh m = cd_thresh cd /\
    measures (e_two_d e) (m_value m) 0 (v3 0 0 0) /\ measures (e_two_d e) (m_value m) 3 (v3 r p y) /\
    same_flags (e_two_d e) (m_upd m) (cd_upd cd) /\
    measures_cov (e_two_d e) (m_cov m) 3 3 (as_matrix 3 (im_ori_cov msg)) /\
    only (e_two_d e) (m_value m) (m_cov m) 3 3.
Proof. exact (fun E pq c => @imu_aligned E pq c). Qed.
Print Assumptions C52_imu_orientation.

Example C52_case : fresh prep_node "pose" (ps_stamp (pose_at 3000000000 4)) /\
  answer (e_buffer quiet) (c_world prep_cfg) (ps_frame (pose_at 3000000000 4)) 3 (Some no_motion) /\
  answer (e_buffer quiet) (c_base prep_cfg) (frame_or (tw_frame skew_msg) (c_base prep_cfg)) 1 (Some no_motion) /\
  answer (e_buffer quiet) (c_base prep_cfg) (frame_or (im_frame no_orientation) (c_base prep_cfg)) 1 (Some no_motion) /\
  describes (v3 0 0 0) (spin (im_orientation no_orientation)).
Proof.
  split; [apply prep_fresh; cbn; lia|]. split; [apply same_frame; reflexivity|]. split; [apply same_frame; reflexivity|].
  split; [apply same_frame; reflexivity|]. intros [a b d]. change (sc RScalar) with R in *.
  unfold oriented, about_x, about_y, about_z, spin, plus3, times3, cross3, X, Y, Z3. cbn. rewrite sin_0, cos_0.
  apply v3_eq; unfold X, Y, Z3; cbn; ring.
Qed.

(** ** C53 *)
Theorem C53_turned : forall E (pq : pqueue RScalar) (e : penv RScalar) (c : config RScalar) (cd : callback_data RScalar)
  (msg : pose_msg RScalar) (n : node RScalar E) (t : T4),
  cd_differential cd = false -> cd_relative cd = false -> c_world c <> ""%string -> e_two_d e = false ->
  exact_clock e -> stamp_range (ps_stamp msg) -> unit_quat (ps_orientation msg) ->
  fresh n (cd_topic cd) (ps_stamp msg) ->
  answer (e_buffer e) (c_world c) (ps_frame msg) (ps_stamp msg / 1000000000) (Some t) -> rigid t ->
  exists m : meas RScalar, queued (snd (receive pq e c (SubPose cd) (MsgPose msg) n)) = [m] /\
    turned6 (t_basis t) (as_matrix 6 (ps_cov msg)) (block 0 (m_cov m)) /\
    (psd 6 (as_matrix 6 (ps_cov msg)) -> psd 15 (m_cov m)).
Proof. exact (fun E pq e c => @pose_turned E pq e c). Qed.
Print Assumptions C53_turned.
Theorem C53_turned_twist : forall E (pq : pqueue RScalar) (e : penv RScalar) (c : config RScalar) (cd : callback_data RScalar)
  (msg : twist_msg RScalar) (n : node RScalar E) (t : T4), e_two_d e = false ->
  exact_clock e -> stamp_range (tw_stamp msg) -> fresh n (cd_topic cd) (tw_stamp msg) ->
  answer (e_buffer e) (c_base c) (frame_or (tw_frame msg) (c_base c)) (tw_stamp msg) (Some t) -> rigid t ->
  exists m : meas RScalar, queued (snd (receive pq e c (SubTwist cd) (MsgTwist msg) n)) = [m] /\
    turned6 (t_basis t) (as_matrix 6 (tw_cov msg)) (block 6 (m_cov m)) /\
    (psd 6 (as_matrix 6 (tw_cov msg)) -> psd 15 (m_cov m)).
Proof. exact (fun E pq e c => @twist_turned E pq e c). Qed.
Print Assumptions C53_turned_twist.
Theorem C53_turned_acceleration : forall E (pq : pqueue RScalar) (e : penv RScalar) (c : config RScalar) (cd : callback_data RScalar)
  (msg : imu_msg RScalar) (n : node RScalar E) (t : T4), e_two_d e = false ->
  exact_clock e -> stamp_range (im_stamp msg) -> fresh n (cd_topic cd) (im_stamp msg) ->
  answer (e_buffer e) (c_base c) (frame_or (im_frame msg) (c_base c)) (im_stamp msg) (Some t) -> rigid t ->
  exists m : meas RScalar, queued (snd (accelerationCallback pq e c cd msg (c_base c) n)) = [m] /\
    turned3 (t_basis t) (as_matrix 3 (im_acc_cov msg)) (block 12 (m_cov m)) /\
    (psd 3 (as_matrix 3 (im_acc_cov msg)) -> psd 15 (m_cov m)).
Proof. exact (fun E pq e c => @acceleration_turned E pq e c). Qed.
Print Assumptions C53_turned_acceleration.

(** Whole executions of a node in three dimensions: any mix of subscriptions,
    differential and relative streams, resets. *)
Theorem C53_executions : forall E (pq : pqueue RScalar) (vt : vtbl RScalar E) (c : config RScalar), pq_ok pq ->
  forall is (n : node RScalar E), sound_streams (n_streams n) -> Forall sound_input is ->
  Forall (fun m : meas RScalar => psd 15 (m_cov m)) (queued (snd (respond pq vt c n is))).
Proof. exact (fun E pq vt c Hpq => @run_psd E pq vt c Hpq). Qed.
Print Assumptions C53_executions.

Theorem C53_restored : forall E (pq : pqueue RScalar) (c : config RScalar) (e e' : penv RScalar) (cd : callback_data RScalar)
  (msg msg' : pose_msg RScalar) (n n' : node RScalar E) (t t' : T4) (m : meas RScalar),
  cd_differential cd = false -> cd_relative cd = false -> c_world c <> ""%string ->
  exact_clock e -> exact_clock e' -> e_two_d e = false -> e_two_d e' = false ->
  stamp_range (ps_stamp msg) -> stamp_range (ps_stamp msg') ->
  unit_quat (ps_orientation msg) -> unit_quat (ps_orientation msg') ->
  fresh n (cd_topic cd) (ps_stamp msg) -> fresh n' (cd_topic cd) (ps_stamp msg') ->
  answer (e_buffer e) (c_world c) (ps_frame msg) (ps_stamp msg / 1000000000) (Some t) -> rigid t ->
  answer (e_buffer e') (c_world c) (ps_frame msg') (ps_stamp msg' / 1000000000) (Some t') -> rigid t' ->
  (forall v, turn (t_basis t') (turn (t_basis t) v) = v) ->
  queued (snd (receive pq e c (SubPose cd) (MsgPose msg) n)) = [m] ->
  meq 6 6 (as_matrix 6 (ps_cov msg')) (block 0 (m_cov m)) ->
  exists m' : meas RScalar, queued (snd (receive pq e' c (SubPose cd) (MsgPose msg') n')) = [m'] /\
    meq 6 6 (block 0 (m_cov m')) (as_matrix 6 (ps_cov msg)).
Proof. exact (fun E pq c => @cov_back E pq c). Qed.
Print Assumptions C53_restored.

(** two_d_mode overwrites diagonal entries and keeps the others: a positive
    semi-definite message covariance becomes indefinite. *)
Theorem C53_two_d_refuted : exists (pq : pqueue RScalar) (e : penv RScalar) (c : config RScalar) (cd : callback_data RScalar)
  (msg : twist_msg RScalar) (n : node RScalar unit) (m : meas RScalar),
  e_two_d e = true /\ psd 6 (as_matrix 6 (tw_cov msg)) /\
  queued (snd (receive pq e c (SubTwist cd) (MsgTwist msg) n)) = [m] /\ ~ psd 15 (m_cov m).
Proof. exact two_d_not_psd. Qed.
Print Assumptions C53_two_d_refuted.

Definition skew_pose : pose_msg RScalar := mkPose 1000000000 "map" (v3 0 0 0) (@mkQuat RScalar 0 0 0 1) skew_cov.
Example C53_case : psd 6 (as_matrix 6 (ps_cov skew_pose)) /\ answer (always flip) "odom" "map" 1 (Some flip) /\ rigid flip /\
  sound_streams (n_streams prep_node) /\ (forall v, turn (t_basis flip) (turn (t_basis flip) v) = v) /\
  Forall (@sound_input unit) [Message (plain_env false 0 [] (always flip)) (SubPose (prep_cd "pose" false true)) (MsgPose skew_pose);
                              Event EvReset; Event (EvCycle 1 1 None)].
Proof.
  split; [exact skew_psd|]. split; [apply always_answer|]. split; [exact flip_rigid|].
  split; [split; [|split]; intros k x h; discriminate h|]. split.
  - intros [a b d]. change (sc RScalar) with R in *. unfold turn, flip, inner, X, Y, Z3. cbn. apply v3_eq; unfold X, Y, Z3; cbn; ring.
  - constructor; [|repeat constructor]. split; [reflexivity|]. split; [|exact skew_psd].
    intros x y z u h. injection h as <-. exact flip_rigid.
Qed.

(** ** C54 *)
(** A body with attitude [Q], body rates [w] and position [x], carrying a
    sensor at [t] (pose of the sensor in the body): if the message is the
    sensor's velocity, the measurement is the body's. *)
Theorem C54_twist : forall E (pq : pqueue RScalar) (c : config RScalar) (e : penv RScalar) (cd : callback_data RScalar)
  (msg : twist_msg RScalar) (n : node RScalar E) (t : T4) (Q : R -> M3) w x x' s' t0,
  exact_clock e -> stamp_range (tw_stamp msg) -> fresh n (cd_topic cd) (tw_stamp msg) ->
  answer (e_buffer e) (c_base c) (frame_or (tw_frame msg) (c_base c)) (tw_stamp msg) (Some t) -> rigid t ->
  body_rates Q w -> derivative x x' -> derivative (fun z => plus3 (x z) (turn (Q z) (t_origin t))) s' ->
  angular_velocity n = w t0 ->
  turn (Q t0) (turn (t_basis t) (tw_linear msg)) = s' t0 ->
  exists (m : meas RScalar) v, queued (snd (receive pq e c (SubTwist cd) (MsgTwist msg) n)) = [m] /\
    measures (e_two_d e) (m_value m) 6 v /\ turn (Q t0) v = x' t0 /\
    measures (e_two_d e) (m_value m) 9 (turn (t_basis t) (tw_angular msg)).
Proof. exact (fun E pq c => @lever_twist E pq c). Qed.
Print Assumptions C54_twist.

Theorem C54_acceleration : forall E (pq : pqueue RScalar) (c : config RScalar) (e : penv RScalar) (cd : callback_data RScalar)
  (msg : imu_msg RScalar) (n : node RScalar E) (t : T4) (Q : R -> M3) w al x x' x'' s' s'' t0,
  exact_clock e -> stamp_range (im_stamp msg) -> fresh n (cd_topic cd) (im_stamp msg) ->
  sm_find (e_remove e) (cd_topic cd) <> Some true ->
  answer (e_buffer e) (c_base c) (frame_or (im_frame msg) (c_base c)) (im_stamp msg) (Some t) -> rigid t ->
  body_rates Q w -> derivative w al -> derivative x x' -> derivative x' x'' ->
  derivative (fun z => plus3 (x z) (turn (Q z) (t_origin t))) s' -> derivative s' s'' ->
  angular_velocity n = w t0 -> a_acc (n_ang n) = al t0 ->
  turn (Q t0) (turn (t_basis t) (im_linear msg)) = s'' t0 ->
  exists (m : meas RScalar) v, queued (snd (accelerationCallback pq e c cd msg (c_base c) n)) = [m] /\
    measures (e_two_d e) (m_value m) 12 v /\ turn (Q t0) v = x'' t0.
Proof. exact (fun E pq c => @lever_accel E pq c). Qed.
Print Assumptions C54_acceleration.

(** A body driving a circle of radius 1, sensor 2 ahead. *)
Definition turning_node : node RScalar unit :=
  node_init (set_state (@fb_init RScalar unit (fun _ => 0) tt) (fun i => match i with 11%nat => 1 | _ => 0 end))
    (@mkAng RScalar v3zero mzero v3zero 0) (fun _ => 0) false 0.
Definition ahead : T4 := mkTrans m3eye (v3 2 0 0).
Definition ahead_twist : twist_msg RScalar := mkTwist 1 "imu" (v3 0 3 0) (v3 0 0 1) (fun _ => 0).
Definition ahead_imu : imu_msg RScalar :=
  mkImu 1 "imu" (@mkQuat RScalar 0 0 0 1) (v3 0 0 1) (v3 (-3) 0 0) (fun _ => 1) (fun _ => 1) (fun _ => 1).
Example C54_case : fresh turning_node "imu" 1 /\ answer (always ahead) "base_link" "imu" 1 (Some ahead) /\ rigid ahead /\
  body_rates circle_attitude steady /\ derivative steady (fun _ => v3 0 0 0) /\
  derivative (circle 1) (circle_d 1) /\ derivative (circle_d 1) (circle_dd 1) /\
  derivative (fun z => plus3 (circle 1 z) (turn (circle_attitude z) (t_origin ahead))) (circle_d (1 + 2)) /\
  derivative (circle_d (1 + 2)) (circle_dd (1 + 2)) /\
  angular_velocity turning_node = steady 0 /\ a_acc (n_ang turning_node) = v3 0 0 0 /\
  turn (circle_attitude 0) (turn (t_basis ahead) (tw_linear ahead_twist)) = circle_d (1 + 2) 0 /\
  turn (circle_attitude 0) (turn (t_basis ahead) (im_linear ahead_imu)) = circle_dd (1 + 2) 0.
Proof.
  split; [split; [reflexivity|intros t h; discriminate h]|]. split; [apply always_answer|]. split; [apply shift_rigid|].
  split; [exact circle_rates|]. split; [exact steady_1|]. split; [apply circle_1|]. split; [apply circle_2|].
  split; [apply (derivative_same _ (circle (1 + 2))); [intros t; apply circle_arm|apply circle_1]|].
  split; [apply circle_2|]. split; [reflexivity|]. split; [reflexivity|].
  unfold ahead, ahead_twist, ahead_imu, circle_d, circle_dd, circle_attitude. cbn [t_basis tw_linear im_linear].
  rewrite !turn_eye, sin_0, cos_0. unfold turn, inner, X, Y, Z3. cbn. split; apply v3_eq; unfold X, Y, Z3; cbn; ring.
Qed.

(** ** C55 *)
(** Sensor axes aligned with the base (at any offset), any motion: what is
    measured is the acceleration of the base, gravity removed. *)
Theorem C55_removed : forall E (pq : pqueue RScalar) (c : config RScalar) (e : penv RScalar) (cd : callback_data RScalar)
  (msg : imu_msg RScalar) (n : node RScalar E) (t : T4) att (Q : R -> M3) w al x x' x'' s' s'' t0 reaction,
  exact_clock e -> stamp_range (im_stamp msg) -> fresh n (cd_topic cd) (im_stamp msg) ->
  sm_find (e_remove e) (cd_topic cd) = Some true ->
  answer (e_buffer e) (c_base c) (frame_or (im_frame msg) (c_base c)) (im_stamp msg) (Some t) ->
  t_basis t = t_basis no_motion ->
  body_rates Q w -> derivative w al -> derivative x x' -> derivative x' x'' ->
  derivative (fun z => plus3 (x z) (turn (Q z) (t_origin t))) s' -> derivative s' s'' ->
  angular_velocity n = w t0 -> a_acc (n_ang n) = al t0 ->
  imu_attitude n msg (t_basis t) att -> (forall v, att v = turn (Q t0) v) ->
  turn (Q t0) reaction = up (e_gravity e) ->
  turn (Q t0) (im_linear msg) = plus3 (s'' t0) (up (e_gravity e)) ->
  exists (m : meas RScalar) v, queued (snd (accelerationCallback pq e c cd msg (c_base c) n)) = [m] /\
    measures (e_two_d e) (m_value m) 12 v /\ turn (Q t0) v = x'' t0.
Proof. exact (fun E pq c => @gravity_removed E pq c). Qed.
Print Assumptions C55_removed.

(** At rest, aligned, every attitude: zero. *)
Theorem C55_at_rest : forall E (pq : pqueue RScalar) (c : config RScalar) (e : penv RScalar) (cd : callback_data RScalar)
  (msg : imu_msg RScalar) (n : node RScalar E) (t : T4) att,
  exact_clock e -> stamp_range (im_stamp msg) -> fresh n (cd_topic cd) (im_stamp msg) ->
  sm_find (e_remove e) (cd_topic cd) = Some true ->
  answer (e_buffer e) (c_base c) (frame_or (im_frame msg) (c_base c)) (im_stamp msg) (Some t) ->
  t_basis t = t_basis no_motion -> at_rest n -> imu_attitude n msg (t_basis t) att ->
  att (im_linear msg) = up (e_gravity e) ->
  exists m : meas RScalar, queued (snd (accelerationCallback pq e c cd msg (c_base c) n)) = [m] /\
    measures (e_two_d e) (m_value m) 12 (v3 0 0 0).
Proof. exact (fun E pq c => @rest_zero E pq c). Qed.
Print Assumptions C55_at_rest.

(** At rest, any mounting: the measurement is the difference of the upward
    reaction seen from the base and seen from the sensor. *)
Theorem C55_mounted : forall E (pq : pqueue RScalar) (c : config RScalar) (e : penv RScalar) (cd : callback_data RScalar)
  (msg : imu_msg RScalar) (n : node RScalar E) (t : T4) att sensor_up body_up,
  exact_clock e -> stamp_range (im_stamp msg) -> fresh n (cd_topic cd) (im_stamp msg) ->
  sm_find (e_remove e) (cd_topic cd) = Some true -> cd_relative cd = false ->
  answer (e_buffer e) (c_base c) (frame_or (im_frame msg) (c_base c)) (im_stamp msg) (Some t) -> rigid t ->
  at_rest n -> imu_attitude n msg (t_basis t) att ->
  att sensor_up = up (e_gravity e) -> im_linear msg = sensor_up -> body_up = turn (t_basis t) sensor_up ->
  exists m : meas RScalar, queued (snd (accelerationCallback pq e c cd msg (c_base c) n)) = [m] /\
    measures (e_two_d e) (m_value m) 12 (minus3 body_up sensor_up).
Proof. exact (fun E pq c => @gravity_general E pq c). Qed.
Print Assumptions C55_mounted.

(** Upside down: twice gravity instead of zero. *)
Theorem C55_mounted_refuted : forall g : R, exists (pq : pqueue RScalar) (e : penv RScalar) (c : config RScalar)
  (cd : callback_data RScalar) (msg : imu_msg RScalar) (n : node RScalar unit) (m : meas RScalar),
  e_gravity e = g /\ e_two_d e = false /\ at_rest n /\ rigid flip /\ e_buffer e = always flip /\
  sm_find (e_remove e) (cd_topic cd) = Some true /\
  imu_attitude n msg (t_basis flip) (spin (im_orientation msg)) /\
  spin (im_orientation msg) (im_linear msg) = up g /\ turn (t_basis flip) (im_linear msg) = up g /\
  queued (snd (accelerationCallback pq e c cd msg (c_base c) n)) = [m] /\ m_value m 14%nat = 2 * g.
Proof. exact upside_down. Qed.
Print Assumptions C55_mounted_refuted.

Definition level_imu : imu_msg RScalar :=
  mkImu 1 "imu" (@mkQuat RScalar 1 0 0 0) (v3 0 0 0) (v3 0 0 (-10)) (fun _ => 1) (fun _ => 1) (fun _ => 1).
Example C55_case : at_rest prep_node /\ t_basis ahead = t_basis no_motion /\
  imu_attitude prep_node level_imu (t_basis ahead) (spin (im_orientation level_imu)) /\
  spin (im_orientation level_imu) (im_linear level_imu) = up 10.
Proof.
  split; [split; reflexivity|]. split; [reflexivity|]. split.
  - apply from_message; [cbn; rewrite Rabs_right by lra; lra|unfold unit_quat; cbn; ring].
  - unfold spin, level_imu, up, plus3, times3, cross3, X, Y, Z3. cbn. apply v3_eq; unfold X, Y, Z3; cbn; ring.
Qed.

(** ** C56 *)
(** Every arithmetic: exactly the stated order; the time asked for is the
    requested time converted to seconds and back. *)
Theorem C56_order : forall (K : Scalar) (e : penv K) target source time r,
  lookupTransformSafe e target source time = r <->
  answer (e_buffer e) target source (e_from_sec e (toSec time)) r.
Proof. exact (fun K e target source time r => conj (fun H => eq_ind _ _ (lookup_answer e target source time) _ H) (lookup_is e target source time r)). Qed.
Print Assumptions C56_order.
Theorem C56_exact_time : forall (e : penv RScalar) target source time r, exact_clock e -> stamp_range time ->
  (lookupTransformSafe e target source time = r <-> answer (e_buffer e) target source time r).
Proof. exact lookup_exact. Qed.
Print Assumptions C56_exact_time.
(** No transform: no measurement. *)
Theorem C56_unavailable : forall (K : Scalar) E (pq : pqueue K) (c : config K) (e : penv K) (cd : callback_data K),
  (forall (msg : twist_msg K) (n : node K E),
     answer (e_buffer e) (c_base c) (frame_or (tw_frame msg) (c_base c)) (e_from_sec e (toSec (tw_stamp msg))) None ->
     queued (snd (receive pq e c (SubTwist cd) (MsgTwist msg) n)) = []) /\
  (forall (msg : imu_msg K) (n : node K E),
     answer (e_buffer e) (c_base c) (frame_or (im_frame msg) (c_base c)) (e_from_sec e (toSec (im_stamp msg))) None ->
     queued (snd (accelerationCallback pq e c cd msg (c_base c) n)) = []) /\
  (forall (msg : pose_msg K) (n : node K E), cd_differential cd = false -> c_world c <> ""%string ->
     answer (e_buffer e) (c_world c) (ps_frame msg) (e_from_sec e (toSec (pose_lookup_time e (ps_stamp msg)))) None ->
     queued (snd (receive pq e c (SubPose cd) (MsgPose msg) n)) = []).
Proof. exact (fun K E pq c => @no_answer K E pq c). Qed.
Print Assumptions C56_unavailable.
Example C56_case : answer two_times "odom" "map" 5 (Some (mkTrans m3eye (v3 2 0 0))) /\ answer two_times "odom" "map" 6 None /\
  answer two_times "map" "map" 6 (Some no_motion) /\ answer (fun _ _ t => if Z.eqb t 0 then Some flip else None) "odom" "map" 6 (Some flip).
Proof.
  split; [apply at_time; reflexivity|]. split; [apply unavailable; reflexivity || discriminate|].
  split; [apply same_frame; reflexivity|apply latest_one; reflexivity].
Qed.

(** ** C57 *)
(** A pose measurement consults the transforms at stamp / 10^9 nanoseconds (and
    the latest), which is never the stamp of the message; twists consult the
    stamp. *)
Theorem C57_pose_lookup : forall E (pq : pqueue RScalar) (c : config RScalar) (e e' : penv RScalar) (cd : callback_data RScalar)
  (msg : pose_msg RScalar) target source imu (n : node RScalar E),
  cd_differential cd = false -> exact_clock e -> stamp_range (ps_stamp msg) -> same_settings e e' ->
  (forall f g, e_buffer e' f g (ps_stamp msg / 1000000000)%Z = e_buffer e f g (ps_stamp msg / 1000000000)%Z /\
               e_buffer e' f g 0%Z = e_buffer e f g 0%Z) ->
  poseCallback pq e' c cd msg target source imu n = poseCallback pq e c cd msg target source imu n.
Proof. exact (fun E pq c => @pose_depends E pq c). Qed.
Print Assumptions C57_pose_lookup.
Theorem C57_pose_transform : forall E (pq : pqueue RScalar) (e : penv RScalar) (c : config RScalar) (cd : callback_data RScalar)
  (msg : pose_msg RScalar) (n : node RScalar E) (t : T4),
  cd_differential cd = false -> cd_relative cd = false -> c_world c <> ""%string ->
  exact_clock e -> stamp_range (ps_stamp msg) -> (0 < ps_stamp msg)%Z -> unit_quat (ps_orientation msg) ->
  fresh n (cd_topic cd) (ps_stamp msg) ->
  answer (e_buffer e) (c_world c) (ps_frame msg) (ps_stamp msg / 1000000000) (Some t) -> rigid t ->
  (ps_stamp msg / 1000000000 <> ps_stamp msg)%Z /\
  exists m : meas RScalar, queued (snd (receive pq e c (SubPose cd) (MsgPose msg) n)) = [m] /\
    measures (e_two_d e) (m_value m) 0 (move t (ps_position msg)).
Proof. exact (fun E pq e c => @pose_seconds E pq e c). Qed.
Print Assumptions C57_pose_transform.
Theorem C57_twist_lookup : forall E (pq : pqueue RScalar) (c : config RScalar) (e e' : penv RScalar) (cd : callback_data RScalar)
  (msg : twist_msg RScalar) target (n : node RScalar E),
  exact_clock e -> stamp_range (tw_stamp msg) -> same_settings e e' ->
  (forall f g, e_buffer e' f g (tw_stamp msg) = e_buffer e f g (tw_stamp msg) /\
               e_buffer e' f g 0%Z = e_buffer e f g 0%Z) ->
  twistCallback pq e' c cd msg target n = twistCallback pq e c cd msg target n.
Proof. exact (fun E pq c => @twist_depends E pq c). Qed.
Print Assumptions C57_twist_lookup.
(** The transform at the stamp is known and moves the pose to x = 1; the
    measurement says x = 2. *)
Theorem C57_pose_refuted : exists (pq : pqueue RScalar) (e : penv RScalar) (c : config RScalar) (cd : callback_data RScalar)
  (msg : pose_msg RScalar) (n : node RScalar unit) (t : T4) (m : meas RScalar),
  exact_clock e /\ e_two_d e = false /\ e_buffer e (c_world c) (ps_frame msg) (ps_stamp msg) = Some t /\ rigid t /\
  queued (snd (receive pq e c (SubPose cd) (MsgPose msg) n)) = [m] /\ X (move t (ps_position msg)) = 1 /\ m_value m 0%nat = 2.
Proof. exact wrong_time. Qed.
Print Assumptions C57_pose_refuted.
Example C57_case : same_settings (plain_env false 0 [] two_times) (plain_env false 0 [] (fun f g t => if Z.eqb t 5%Z then two_times f g t else None)) /\
  (forall f g, two_times f g (ps_stamp five_msg / 1000000000)%Z = (if Z.eqb (ps_stamp five_msg / 1000000000)%Z 5%Z then two_times f g 5%Z else None)) /\
  two_times "odom"%string "map"%string (ps_stamp five_msg) <> None.
Proof. split; [repeat split|]. split; [intros f g; reflexivity|]. discriminate. Qed.
