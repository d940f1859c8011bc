(** * Differential and relative streams (C50, C51) *)

From Coq Require Import Reals ZArith List Bool Lia Lra String Arith Sorted.
From Verif Require Import Scalar Mat FilterBase StrMap Tf Diagnostics RosFilter RosConfig ForceTwoD RosPrepare
  SpecConfig SpecNode SpecTf SpecLin SpecPrepare NodeProofs NodeFacts OutputProofs Trig TfReal TfRot TfQuat RBridge RLin Angles
  PrepareProofs PrepareReal PrepareFacts PrepareSeq PrepareThm PrepareMotion.
Import ListNotations.
Local Open Scope R_scope.

Notation posed := (penv RScalar * pose_msg RScalar)%type.

Lemma self_lookup (e : penv RScalar) f x : self_known e -> lookupTransformSafe e f f x = Some no_motion.
Proof.
  intros H. pose proof (lookup_answer e f f x) as A.
  inversion A as [t Ht|t H0 Ht|H0 H1 Hf|H0 H1 Hf]; [| |reflexivity|congruence].
  - destruct (H f (e_from_sec e (@toSec RScalar x))) as [h|h]; rewrite h in Ht; congruence.
  - destruct (H f 0%Z) as [h|h]; rewrite h in Ht; congruence.
Qed.

Lemma flags_differential (u : list bool) i : List.length u = 15%nat ->
  nth i (differential_flags u) false = (within 6 12 i && nth (i - 6) u false)%bool.
Proof.
  intros H. do 16 (destruct u as [|? u]; [try discriminate H|]); [|discriminate H]. clear H.
  do 16 (destruct i as [|i]; [reflexivity|]). unfold within.
  replace (Nat.ltb _ 12) with false by (symmetry; apply Nat.ltb_ge; lia). rewrite Bool.andb_false_r. cbn. destruct i; reflexivity.
Qed.

(** Relative pose of two poses. *)
Definition between (p q : pose_msg RScalar) : T4 := t_inverseTimes (pose_of p) (pose_of q).
Lemma between_rigid p q : rigid (between p q).
Proof. unfold between. rewrite inverseTimes_eq. apply rigid_mult; [apply rigid_inverse, pose_rigid|apply pose_rigid]. Qed.
Lemma between_origin p q : unit_quat (ps_orientation p) ->
  spin (ps_orientation p) (t_origin (between p q)) = minus3 (ps_position q) (ps_position p).
Proof.
  intros U. rewrite <- attitude_unit by exact U. unfold between. rewrite inverseTimes_eq.
  change (t_origin (t_mult (t_inverse (pose_of p)) (pose_of q))) with (t_apply (t_inverse (pose_of p)) (ps_position q)).
  rewrite t_apply_move, move_inverse_eq. apply (turn_T_r (pose_attitude p)). apply pose_rigid.
Qed.
Lemma between_turn p q v : unit_quat (ps_orientation p) -> unit_quat (ps_orientation q) ->
  spin (ps_orientation p) (turn (t_basis (between p q)) v) = spin (ps_orientation q) v.
Proof.
  intros U U'. rewrite <- !attitude_unit by assumption. unfold between. rewrite inverseTimes_eq.
  change (t_basis (t_mult (t_inverse (pose_of p)) (pose_of q))) with (m3mul (m3T (pose_attitude p)) (pose_attitude q)).
  rewrite turn_mul. apply (turn_T_r (pose_attitude p)). apply pose_rigid.
Qed.
Lemma spin_inj q u v : unit_quat q -> spin q u = spin q v -> u = v.
Proof.
  intros U H. rewrite <- !of_quat_spin in H by exact U. pose proof (of_quat_rotation q (unit_nonzero q U)) as R.
  rewrite <- (turn_T_l _ u R), <- (turn_T_l _ v R). rewrite H. reflexivity.
Qed.

Lemma of_stream_one {E} topic (o : list (output RScalar E)) m : queued o = [m] -> m_topic m = topic -> of_stream topic o = [m].
Proof. intros Q T. unfold of_stream. rewrite Q. cbn. rewrite T, String.eqb_refl. reflexivity. Qed.

Section Differential.
Context {E : Type} (pq : pqueue RScalar) (vt : vtbl RScalar E) (c : config RScalar).
Hypothesis Hpq : pq_ok pq.
Variable cd : callback_data RScalar.
Let topic := cd_topic cd.
Hypothesis Hd : cd_differential cd = true.
Hypothesis Hw : c_world c <> ""%string.
Hypothesis Hu : List.length (cd_upd cd) = 15%nat.

Definition diff_ok (x : posed) : Prop := self_known (fst x) /\ unit_quat (ps_orientation (snd x)).
Definition diff_state (n : node RScalar E) (s : option posed) : Prop :=
  match s with
  | None => sm_find (st_previous (n_streams n)) topic = None
  | Some x =>
      sm_find (st_previous (n_streams n)) topic = Some (pose_of (snd x)) /\
      sm_find (st_prev_cov (n_streams n)) topic = Some (as_matrix 6 (ps_cov (snd x))) /\
      sm_find (n_last_msg n) topic = Some (ps_stamp (snd x)) /\ unit_quat (ps_orientation (snd x))
  end.
Definition diff_step (s : option posed) (x : posed) (s' : option posed) (o : list (meas RScalar)) : Prop :=
  s' = Some x /\
  match s with None => o = [] | Some y => exists m, o = [m] /\ velocity_between (cd_upd cd) y x m end.

Lemma diff_memory n n' s : memory topic n' = memory topic n -> diff_state n s -> diff_state n' s.
Proof.
  unfold memory, remembered. intros M. injection M as M1 M2 M3 M4 M5. unfold diff_state.
  destruct s as [x|]; rewrite ?M2, ?M3, ?M4; auto.
Qed.

Lemma diff_own n s x : diff_ok x -> diff_state n s -> fresh n topic (ps_stamp (snd x)) ->
  let r := receive pq (fst x) c (SubPose cd) (MsgPose (snd x)) n in
  exists s', diff_state (fst r) s' /\ diff_step s x s' (of_stream topic (snd r)) /\
    n_set_pose (fst r) = n_set_pose n /\ sm_find (n_last_msg (fst r)) topic = Some (ps_stamp (snd x)).
Proof.
  destruct x as [e q]. intros [HK U] HS HF r. cbn [fst snd] in *. unfold r. cbn [receive]. clear r.
  unfold poseCallback. rewrite Hd.
  destruct (sensor_fresh pq true topic (ps_stamp q) (cd_upd cd) (cd_thresh cd)
    (preparePose e c q topic (c_world c) (c_base c) true (cd_relative cd) false) n HF)
    as (HO & HST & _ & _ & HSP & _ & _ & HLM & _).
  destruct (seen_fields n topic (ps_stamp q)) as (F1 & F2 & F3 & F4 & F5 & F6 & F7 & F8 & F9 & F10).
  set (n1 := seen n topic (ps_stamp q)) in *. clearbody n1.
  exists (Some (e, q)).
  pose proof (differential_ready e c q topic (c_world c) (c_base c) (cd_relative cd) false n1 (cd_upd cd) vzero mzero
    no_motion _ _ (frames_world c (ps_frame q) true false Hw) (self_lookup e _ _ HK) no_motion_rigid) as DR.
  cbv zeta in DR. rewrite source_base in DR. cbn [source_cov base_pose mask_turn] in DR.
  destruct DR as [DS DV]; [intros s0 h; discriminate h|].
  fold topic. cbv zeta in HO, HST.
  set (rr := preparePose _ _ _ _ _ _ _ _ _ _ _ _ _) in *. clearbody rr.
  set (cb := sensorCallback _ _ _ _ _ _ _ _) in *. clearbody cb.
  split; [|split; [|split; [exact HSP|exact HLM]]].
  - unfold diff_state. rewrite HST, DS. unfold stored. cbn [st_previous st_prev_cov snd]. rewrite !sm_find_set.
    split; [reflexivity|]. split; [reflexivity|]. split; [exact HLM|exact U].
  - split; [reflexivity|]. rewrite F3, F9 in DV. destruct s as [[e0 p]|]; cbn [diff_state snd] in HS.
    2:{ rewrite HS in DV. rewrite HO, DV. reflexivity. }
    destruct HS as (S1 & S2 & S3 & Up). rewrite S1, S2, S3 in DV.
    assert (ED : t_mult (mkTrans (t_basis no_motion) (v3 0 0 0)) (t_inverseTimes (pose_of p) (pose_of q)) = between p q).
    { apply t_mult_identity_l. }
    rewrite ED in DV. destruct (DV (between_rigid p q)) as (V1 & V2 & V3 & V4). clear DV ED.
    set (dt := IZR (ps_stamp q - ps_stamp p) / 1000000000) in *.
    match type of V1 with _ = pr_ok (prepareTwist _ _ ?a _ _ _ ?b _ _) => set (tw := a) in *; set (flg := b) in * end.
    assert (TL : lookupTransformSafe e (c_base c) (frame_or (tw_frame tw) (c_base c)) (tw_stamp tw) = Some no_motion).
    { cbn [tw delta_twist tw_frame tw_stamp]. replace (frame_or (c_base c) (c_base c)) with (c_base c) by (destruct (c_base c); reflexivity).
      apply self_lookup, HK. }
    destruct (twist_ready e c tw (topic ++ "_twist") (c_base c) n1 flg vzero mzero no_motion TL no_motion_rigid)
      as (T1 & _ & T3 & T4).
    rewrite <- V1 in T1. rewrite T1 in HO.
    exists (mkMeas topic (ps_stamp q) (pr_val rr) (pr_cov rr) (pr_upd rr) (cd_thresh cd) (n_ctl n) (n_ctl_time n)).
    split. { apply of_stream_one; [rewrite HO; reflexivity|reflexivity]. }
    rewrite <- V2, <- V4 in T3. rewrite <- V3 in T4. clear V1 V2 V3 V4.
    unfold velocity_between. cbn [fst snd m_time m_value m_cov m_upd]. fold dt. split; [reflexivity|].
    exists (t_origin (between p q)), (rpy_of (t_basis (between p q))).
    split; [apply between_origin, Up|]. split.
    { intros u Hue NV v. rewrite <- (between_turn p q v Up U). f_equal.
      apply rpy_describes; [apply between_rigid|].
      replace (turn (t_basis (between p q)) (v3 1 0 0)) with u; [exact NV|].
      apply (spin_inj (ps_orientation p)); [exact Up|]. rewrite Hue. symmetry. apply between_turn; assumption. }
    assert (EL : forall d : V3, over d dt = times3 (/ dt) d).
    { intros d. unfold over, times3. f_equal; unfold Rdiv; apply Rmult_comm. }
    assert (L6 : plus3 (turn (t_basis no_motion) (tw_linear tw)) (cross3 (t_origin no_motion) (angular_velocity n1)) =
                 times3 (/ dt) (t_origin (between p q))).
    { rewrite no_motion_turn. change (t_origin no_motion) with (v3 0 0 0). rewrite cross_zero_l, plus_zero. apply EL. }
    assert (L9 : turn (t_basis no_motion) (tw_angular tw) = times3 (/ dt) (rpy_of (t_basis (between p q)))).
    { rewrite no_motion_turn. apply EL. }
    rewrite L6, L9 in T3.
    destruct (measures_ext (e_two_d e) vzero (pr_val rr) 6 (times3 (/ dt) (t_origin (between p q))) 9
                (times3 (/ dt) (rpy_of (t_basis (between p q))))) as [M1 M2]; [lia|intros i Hi; apply T3; exact Hi|].
    split; [exact M1|]. split; [exact M2|]. split.
    { intros i Hi. rewrite (proj2 (T3 i Hi)). unfold flg.
      rewrite !no_motion_flags. apply flags_differential, Hu. }
    split.
    { eapply cov_ext; [|apply block_measured; exact T4]. intros i j Hi Hj. rewrite no_motion_cov6 by assumption.
      unfold as_matrix at 1. cbn [tw delta_twist tw_cov]. unfold uncopyCovariance.
      assert (DI : ((6 * i + j) / 6 = i)%nat).
      { rewrite Nat.mul_comm, Nat.div_add_l by lia. rewrite Nat.div_small by exact Hj. lia. }
      assert (DM : ((6 * i + j) mod 6 = j)%nat).
      { rewrite Nat.add_comm, Nat.mul_comm, Nat.mod_add by lia. apply Nat.mod_small, Hj. }
      rewrite DI, DM. rewrite !no_motion_cov6 by assumption. reflexivity. }
    eapply block_only; [|exact T4]. intros i Hi Ho. destruct (T3 i Hi) as [-> _].
    rewrite (proj2 (proj2 (proj2 (@set_vec3_at RScalar _ 9 _)))) by lia.
    rewrite (proj2 (proj2 (proj2 (@set_vec3_at RScalar _ 6 _)))) by lia. reflexivity.
Qed.

Lemma diff_pairs s l os : stream_run (option posed) diff_step s l os ->
  match s with
  | None => pairwise (velocity_between (cd_upd cd)) l os
  | Some x => steps (velocity_between (cd_upd cd)) x l os
  end.
Proof.
  induction 1 as [s|s x s' o l os H1 H2 IH].
  - destruct s; cbn; exact I || reflexivity.
  - destruct H1 as [-> H1]. destruct s as [y|].
    + destruct H1 as (m & -> & V). cbn. split; [exact V|exact IH].
    + subst o. cbn. exact IH.
Qed.

Lemma differential_run l (n : node RScalar E) :
  unseen n topic -> all_foreign topic l -> follows n topic (own_of l) ->
  (forall e p, In (e, p) (own_of l) -> self_known e /\ unit_quat (ps_orientation p)) ->
  pairwise (velocity_between (cd_upd cd)) (own_of l) (of_stream topic (snd (respond pq vt c n (map (as_input cd) l)))).
Proof.
  intros [_ HU] HF HO HP.
  apply (diff_pairs None).
  apply (stream_runs pq vt c Hpq cd diff_ok _ diff_state diff_step diff_memory diff_own l n None); try assumption.
  intros [e p] Hx. exact (HP e p Hx).
Qed.
End Differential.

(** ** Relative streams *)
Section Relative.
Context {E : Type} (pq : pqueue RScalar) (vt : vtbl RScalar E) (c : config RScalar).
Hypothesis Hpq : pq_ok pq.
Variable cd : callback_data RScalar.
Let topic := cd_topic cd.
Hypothesis Hd : cd_differential cd = false.
Hypothesis Hr : cd_relative cd = true.
Hypothesis Hw : c_world c <> ""%string.
Variable tr : posed -> T4.

Definition rel_ok (x : posed) : Prop :=
  exact_clock (fst x) /\ stamp_range (ps_stamp (snd x)) /\ unit_quat (ps_orientation (snd x)) /\
  answer (e_buffer (fst x)) (c_world c) (ps_frame (snd x)) (ps_stamp (snd x) / 1000000000) (Some (tr x)) /\
  rigid (tr x).
Definition rel_state (n : node RScalar E) (s : option posed) : Prop :=
  sm_find (st_initial (n_streams n)) topic = option_map (fun x => pose_of (snd x)) s.
Definition rel_first (s : option posed) (x : posed) : posed := match s with Some y => y | None => x end.
(** The measurement, exactly. *)
Definition rel_exact (t : T4) (p : T4) (x : posed) (m : meas RScalar) : Prop :=
  let two_d := e_two_d (fst x) in
  m_topic m = topic /\ m_time m = ps_stamp (snd x) /\ m_thresh m = cd_thresh cd /\
  measures two_d (m_value m) 0 (t_origin (t_mult t p)) /\
  measures two_d (m_value m) 3 (rpy_of (t_basis (t_mult t p))) /\
  same_flags two_d (m_upd m) (rotated_flags2 (t_basis t) 0 (cd_upd cd)) /\
  measures_cov two_d (m_cov m) 0 6
    (@rotateCov RScalar 6 (@rot6 RScalar (t_basis t)) (as_matrix 6 (ps_cov (snd x)))) /\
  only two_d (m_value m) (m_cov m) 0 6.
Definition rel_step (s : option posed) (x : posed) (s' : option posed) (o : list (meas RScalar)) : Prop :=
  s' = Some (rel_first s x) /\
  exists m, o = [m] /\ rel_exact (tr x) (between (snd (rel_first s x)) (snd x)) x m.

Lemma rel_memory n n' s : memory topic n' = memory topic n -> rel_state n s -> rel_state n' s.
Proof. unfold memory, remembered. intros M. injection M as M1 M2 M3 M4 M5. unfold rel_state. rewrite M1. auto. Qed.

Lemma rel_own n s x : rel_ok x -> rel_state n s -> fresh n topic (ps_stamp (snd x)) ->
  let r := receive pq (fst x) c (SubPose cd) (MsgPose (snd x)) n in
  exists s', rel_state (fst r) s' /\ rel_step s x s' (of_stream topic (snd r)) /\
    n_set_pose (fst r) = n_set_pose n /\ sm_find (n_last_msg (fst r)) topic = Some (ps_stamp (snd x)).
Proof.
  destruct x as [e q]. intros (HE & HSR & U & HA & HR) HS HF r. cbn [fst snd] in *.
  set (t := tr (e, q)) in *. unfold r. cbn [receive]. clear r.
  pose proof (sensor_fresh pq true topic (ps_stamp q) (cd_upd cd) (cd_thresh cd)
    (preparePose e c q topic (c_world c) (c_base c) (cd_differential cd) (cd_relative cd) false) n HF)
    as (_ & _ & _ & _ & HSP & _ & _ & HLM & _).
  pose proof (pose_measured pq e c cd q (c_world c) (c_base c) false n t _ _ HF Hd
    (frames_world c (ps_frame q) false false Hw) (pose_lookup e _ _ _ _ HE HSR HA) HR) as PM.
  cbv zeta in PM. rewrite source_base in PM. rewrite Hr in PM. cbn [to_base base_pose source_cov mask_turn] in PM.
  fold topic in PM. unfold rel_state in HS. rewrite HS in PM.
  exists (Some (rel_first s (e, q))).
  assert (EB : t_inverseTimes (match option_map (fun x : posed => pose_of (snd x)) s with
                | Some i => i | None => pose_of q end) (pose_of q) = between (snd (rel_first s (e, q))) q).
  { destruct s as [[e0 p]|]; reflexivity. }
  rewrite EB in PM. destruct PM as (m & Q & T1 & T2 & T3 & M0 & M3 & FL & CV & ON & _ & STR).
  { intros s0 h; discriminate h. }
  { apply rigid_mult; [exact HR|apply between_rigid]. }
  split; [|split; [|split; [exact HSP|exact HLM]]].
  - unfold rel_state. rewrite STR. destruct s as [[e0 p]|]; cbn [option_map rel_first snd].
    + exact HS.
    + cbn [st_initial]. apply sm_find_set.
  - split; [reflexivity|]. exists m. split; [apply of_stream_one; assumption|].
    unfold rel_exact. cbn [fst snd]. repeat (split; [assumption|]). exact ON.
Qed.

Lemma rel_runs l (n : node RScalar E) :
  unseen n topic -> all_foreign topic l -> follows n topic (own_of l) ->
  (forall x, In x (own_of l) -> rel_ok x) ->
  stream_run (option posed) rel_step None (own_of l) (of_stream topic (snd (respond pq vt c n (map (as_input cd) l)))).
Proof.
  intros [HU _] HF HO HP.
  apply (stream_runs pq vt c Hpq cd rel_ok _ rel_state rel_step rel_memory rel_own l n None); assumption.
Qed.
Lemma rel_all s l os : stream_run (option posed) rel_step s l os ->
  match s, l with
  | None, [] => os = []
  | None, x :: _ => Forall2 (fun y m => rel_exact (tr y) (between (snd x) (snd y)) y m) l os
  | Some x, _ => Forall2 (fun y m => rel_exact (tr y) (between (snd x) (snd y)) y m) l os
  end.
Proof.
  induction 1 as [s|s x s' o l os H1 H2 IH].
  - destruct s; [constructor|reflexivity].
  - destruct H1 as (-> & m & -> & HM). cbn [app]. destruct s as [y|]; cbn [rel_first] in *; constructor; auto.
Qed.

Lemma rel_means x y m : unit_quat (ps_orientation (snd x)) -> unit_quat (ps_orientation (snd y)) -> rigid (tr y) ->
  rel_exact (tr y) (between (snd x) (snd y)) y m -> motion_from (tr y) x y m.
Proof.
  intros U U' HR (T1 & T2 & T3 & M0 & M3 & FL & CV & ON). split; [exact T2|].
  set (b := between (snd x) (snd y)) in *.
  exists (t_origin b), (rpy_of (t_basis (t_mult (tr y) b))).
  split; [apply between_origin, U|]. split.
  { replace (move (tr y) (t_origin b)) with (t_origin (t_mult (tr y) b)); [exact M0|].
    change (t_origin (t_mult (tr y) b)) with (t_apply (tr y) (t_origin b)). apply t_apply_move. }
  split; [exact M3|].
  assert (Bt : forall v, turn (t_basis (t_mult (tr y) b)) v = turn (t_basis (tr y)) (turn (t_basis b) v)).
  { intros v. change (t_basis (t_mult (tr y) b)) with (m3mul (t_basis (tr y)) (t_basis b)). apply turn_mul. }
  assert (W : forall v w, spin (ps_orientation (snd x)) w = spin (ps_orientation (snd y)) v -> turn (t_basis b) v = w).
  { intros v w Hvw. apply (spin_inj (ps_orientation (snd x))); [exact U|]. rewrite Hvw. apply between_turn; assumption. }
  split; [|split; [|exact ON]].
  - intros u Hux NV v w Hvw. rewrite <- (W v w Hvw), <- Bt. apply rpy_describes.
    + apply rigid_mult; [exact HR|apply between_rigid].
    + rewrite Bt, (W _ _ Hux). exact NV.
  - intros -> HT. apply rpy_exact; pose proof PI_RGT_0; try lra. intros v. rewrite Bt, HT, no_motion_turn.
    unfold b, between. rewrite inverseTimes_eq, mult_inverse_l by apply pose_rigid.
    cbn [t_basis t_identity]. rewrite turn_eye. rewrite <- setRPY_oriented.
    transitivity (turn m3eye v); [symmetry; apply turn_eye|]. f_equal.
    unfold m3_setRPY, m3_setEulerYPR. cbv zeta. toR. rewrite sin_0, cos_0.
    repeat (apply m3_eq || apply v3_eq); tf_simp; ring.
Qed.

Lemma relative_run l (n : node RScalar E) :
  unseen n topic -> all_foreign topic l -> follows n topic (own_of l) ->
  (forall x, In x (own_of l) -> rel_ok x) ->
  match own_of l with
  | [] => of_stream topic (snd (respond pq vt c n (map (as_input cd) l))) = []
  | x :: _ => Forall2 (fun y m => motion_from (tr y) x y m) (own_of l)
                (of_stream topic (snd (respond pq vt c n (map (as_input cd) l))))
  end.
Proof.
  intros HU HF HO HP. pose proof (rel_all _ _ _ (rel_runs l n HU HF HO HP)) as H. cbv iota in H.
  destruct (own_of l) as [|x r] eqn:EO; [exact H|].
  set (os := of_stream _ _) in *. clearbody os. clear EO HO.
  assert (Ux : unit_quat (ps_orientation (snd x))) by (apply (HP x); left; reflexivity).
  induction H as [|y m l' os' H1 H2 IH]; constructor.
  - destruct (HP y (or_introl eq_refl)) as (_ & _ & U & _ & R). apply rel_means; assumption.
  - apply IH. intros z Hz. apply HP. right. exact Hz.
Qed.
End Relative.

Section Invariance.
Context {E : Type} (pq : pqueue RScalar) (vt : vtbl RScalar E) (c : config RScalar).
Hypothesis Hpq : pq_ok pq.
Variable cd : callback_data RScalar.
Let topic := cd_topic cd.
Hypothesis Hd : cd_differential cd = false.
Hypothesis Hr : cd_relative cd = true.
Hypothesis Hw : c_world c <> ""%string.
Variable g : T4.
Hypothesis Hg : rigid g.

Lemma moved_between p p' q q' : unit_quat (ps_orientation p) -> unit_quat (ps_orientation p') ->
  unit_quat (ps_orientation q) -> unit_quat (ps_orientation q') ->
  moved_pose g p p' -> moved_pose g q q' -> between p' q' = between p q.
Proof.
  intros U1 U2 U3 U4 (_ & _ & _ & Pp & Sp) (_ & _ & _ & Pq & Sq).
  assert (M : forall a a', unit_quat (ps_orientation a) -> unit_quat (ps_orientation a') ->
     ps_position a' = move g (ps_position a) ->
     (forall v, spin (ps_orientation a') v = turn (t_basis g) (spin (ps_orientation a) v)) -> pose_of a' = t_mult g (pose_of a)).
  { intros a a' Ua Ua' Pa Sa. apply t_eq.
    - apply turn_inj. intros v. change (t_basis (t_mult g (pose_of a))) with (m3mul (t_basis g) (pose_attitude a)).
      rewrite turn_mul. change (t_basis (pose_of a')) with (pose_attitude a'). rewrite !attitude_unit by assumption. apply Sa.
    - change (t_origin (t_mult g (pose_of a))) with (t_apply g (ps_position a)). rewrite t_apply_move. exact Pa. }
  unfold between. rewrite (M p p' U1 U2 Pp Sp), (M q q' U3 U4 Pq Sq). rewrite !inverseTimes_eq.
  rewrite inverse_mult by (exact Hg || apply pose_rigid).
  rewrite t_mult_assoc, <- (t_mult_assoc (t_inverse g)), mult_inverse_l by exact Hg.
  rewrite t_mult_identity_l. reflexivity.
Qed.

Lemma exact_same t p (x x' : posed) m m' : e_two_d (fst x') = e_two_d (fst x) -> ps_stamp (snd x') = ps_stamp (snd x) ->
  ps_cov (snd x') = ps_cov (snd x) ->
  rel_exact cd t p x m -> rel_exact cd t p x' m' -> same_measurement (e_two_d (fst x)) m m'.
Proof.
  intros E2 ES EC (A1 & A2 & A3 & A4 & A5 & A6 & A7 & A8) (B1 & B2 & B3 & B4 & B5 & B6 & B7 & B8).
  rewrite E2, ?ES, ?EC in *. split; [congruence|]. split; [congruence|]. split.
  { intros i Hi. rewrite (A6 i Hi), (B6 i Hi). reflexivity. } split.
  - intros i Hi. destruct (Nat.lt_ge_cases i 6) as [Hl|Hl].
    + destruct A4 as (a0 & a1 & a2), A5 as (a3 & a4 & a5), B4 as (b0 & b1 & b2), B5 as (b3 & b4 & b5).
      cbn [Nat.add] in a0, a1, a2, a3, a4, a5, b0, b1, b2, b3, b4, b5.
      do 6 (destruct i as [|i]; [first [rewrite a0, b0 by exact Hi; reflexivity|rewrite a1, b1 by exact Hi; reflexivity|rewrite a2, b2 by exact Hi; reflexivity
        |rewrite a3, b3 by exact Hi; reflexivity|rewrite a4, b4 by exact Hi; reflexivity|rewrite a5, b5 by exact Hi; reflexivity]|]). lia.
    + rewrite (proj1 (A8 i i (or_intror Hl)) Hi), (proj1 (B8 i i (or_intror Hl)) Hi). reflexivity.
  - intros i j Hij. destruct (Nat.lt_ge_cases i 6) as [Hi|Hi].
    + destruct (Nat.lt_ge_cases j 6) as [Hj|Hj].
      * pose proof (A7 i j Hi Hj Hij) as A. pose proof (B7 i j Hi Hj Hij) as B. cbn [Nat.add] in A, B. rewrite A, B. reflexivity.
      * assert (N : kept (e_two_d (fst x)) j \/ j <> i) by (right; lia).
        rewrite (proj2 (proj2 (A8 j i (or_intror Hj)) N)), (proj2 (proj2 (B8 j i (or_intror Hj)) N)). reflexivity.
    + rewrite (proj1 (proj2 (A8 i j (or_intror Hi)) Hij)), (proj1 (proj2 (B8 i j (or_intror Hi)) Hij)). reflexivity.
Qed.

Lemma Forall2_same (tr tr' : posed -> T4) (x x' : posed) : forall (l l' : list posed) (os os' : list (meas RScalar)),
  (forall y, In y l -> rel_ok c tr y) -> (forall y, In y l' -> rel_ok c tr' y) ->
  unit_quat (ps_orientation (snd x)) -> unit_quat (ps_orientation (snd x')) -> moved_pose g (snd x) (snd x') ->
  Forall2 (fun a b => e_two_d (fst b) = e_two_d (fst a) /\ tr' b = tr a /\ moved_pose g (snd a) (snd b)) l l' ->
  Forall2 (fun y m => rel_exact cd (tr y) (between (snd x) (snd y)) y m) l os ->
  Forall2 (fun y m => rel_exact cd (tr' y) (between (snd x') (snd y)) y m) l' os' ->
  Forall2 (fun z m' => same_measurement (fst z) (snd z) m') (combine (map (fun a => e_two_d (fst a)) l) os) os'.
Proof.
  intros l l' os os' H1 H2 U U' M HL. revert os os' H1 H2.
  induction HL as [|a b l l' (E2 & ET & MP) HL IH]; intros os os' H1 H2 HO HO'.
  - inversion HO; inversion HO'; subst. constructor.
  - inversion HO as [|? m ? os1 X1 X2]; subst. inversion HO' as [|? m' ? os2 Y1 Y2]; subst. cbn [map combine]. constructor.
    + cbn [fst snd]. destruct (H1 a (or_introl eq_refl)) as (_ & _ & Ua & _). destruct (H2 b (or_introl eq_refl)) as (_ & _ & Ub & _).
      pose proof MP as (P1 & P2 & P3 & _).
      apply (exact_same (tr a) (between (snd x) (snd a)) a b m m'); [exact E2|exact P1|exact P3|exact X1|].
      rewrite <- ET. rewrite <- (moved_between _ _ _ _ U U' Ua Ub M MP). exact Y1.
    + apply IH; try assumption; intros y Hy; [apply H1|apply H2]; right; exact Hy.
Qed.

Lemma relative_invariant l l' (n n' : node RScalar E) (tr tr' : posed -> T4) :
  unseen n topic -> all_foreign topic l -> follows n topic (own_of l) -> (forall x, In x (own_of l) -> rel_ok c tr x) ->
  unseen n' topic -> all_foreign topic l' -> follows n' topic (own_of l') -> (forall x, In x (own_of l') -> rel_ok c tr' x) ->
  Forall2 (fun a b => e_two_d (fst b) = e_two_d (fst a) /\ tr' b = tr a /\ moved_pose g (snd a) (snd b)) (own_of l) (own_of l') ->
  Forall2 (fun z m' => same_measurement (fst z) (snd z) m')
    (combine (map (fun a => e_two_d (fst a)) (own_of l)) (of_stream topic (snd (respond pq vt c n (map (as_input cd) l)))))
    (of_stream topic (snd (respond pq vt c n' (map (as_input cd) l')))).
Proof.
  intros A1 A2 A3 A4 B1 B2 B3 B4 HM.
  pose proof (rel_all cd tr _ _ _ (rel_runs pq vt c Hpq cd Hd Hr Hw tr l n A1 A2 A3 A4)) as HA.
  pose proof (rel_all cd tr' _ _ _ (rel_runs pq vt c Hpq cd Hd Hr Hw tr' l' n' B1 B2 B3 B4)) as HB.
  cbv iota in HA, HB. fold topic in HA, HB.
  set (os := of_stream topic (snd (respond pq vt c n (map (as_input cd) l)))) in *. clearbody os.
  set (os' := of_stream topic (snd (respond pq vt c n' (map (as_input cd) l')))) in *. clearbody os'.
  clear A2 A3 B2 B3. revert A4 B4 HA HB. destruct HM as [|x x' r r' Hx HM]; intros A4 B4 HA HB; [subst; constructor|].
  eapply Forall2_same; [exact A4|exact B4| | |exact (proj2 (proj2 Hx))|constructor; assumption|exact HA|exact HB].
  - apply (A4 x). left. reflexivity.
  - apply (B4 x'). left. reflexivity.
Qed.
End Invariance.
