(** * The indices listed by Access.v cover what a message writes (C87) *)

From Coq Require Import ZArith List Bool String Arith Lia.
From Verif Require Import Scalar Mat FilterBase StrMap Tf Diagnostics RosFilter RosConfig ForceTwoD RosPrepare Access
  SpecConfig SpecNode SpecPrepare SpecAccess NodeProofs NodeScenario.
Import ListNotations.

Section Listed.
Context {K : Scalar} {E : Type}.

(** [u'] differs from [u] only at the indices [idx]. *)
Definition only (u u' : list bool) (idx : list nat) : Prop := forall i, nth i u' false <> nth i u false -> In i idx.
Lemma only_refl u idx : only u u idx.
Proof. intros i H. contradiction. Qed.
Lemma only_trans u1 u2 u3 idx : only u1 u2 idx -> only u2 u3 idx -> only u1 u3 idx.
Proof.
  intros H1 H2 i H. destruct (Bool.bool_dec (nth i u2 false) (nth i u1 false)) as [A|A]; [|apply H1, A].
  apply H2. rewrite A. exact H.
Qed.
Lemma only_incl u u' a b : only u u' a -> incl a b -> only u u' b.
Proof. intros H Hi i Hn. apply Hi, H, Hn. Qed.
Lemma only_flag u i b idx : In i idx -> only u (set_flag u i b) idx.
Proof.
  intros Hi j Hj. enough (j = i) by (subst; exact Hi). clear Hi. revert i j Hj. induction u as [|x u IH]; intros [|i] [|j]; cbn; intros H;
    try contradiction; try reflexivity. f_equal. apply IH, H.
Qed.
Lemma only_unmask (m : mat3 K) o u idx : incl (seq o 3) idx -> only u (unmask m o u) idx.
Proof.
  intros H. unfold unmask.
  assert (A : forall k, (k < 3)%nat -> In (o + k)%nat idx) by (intros k Hk; apply H, in_seq; lia).
  eapply only_trans; [|apply only_flag, A; lia]. eapply only_trans; [|apply only_flag, A; lia].
  apply only_flag. pose proof (A 0%nat ltac:(lia)) as A0. rewrite Nat.add_0_r in A0. exact A0.
Qed.
Lemma only_finish two_d v c u idx : incl (two_d_accesses two_d) idx -> only u (snd (finish (K:=K) two_d v c u)) idx.
Proof.
  intros H. unfold finish. destruct two_d; [|apply only_refl]. unfold forceTwoD. cbn [snd]. unfold two_d_accesses in H.
  revert H. generalize two_d_members as l. clear. intros l. revert u.
  induction l as [|i l IH]; intros u H; cbn [fold_left]; [apply only_refl|].
  eapply only_trans; [apply only_flag, H; left; reflexivity|]. apply IH. intros j Hj. apply H. right. exact Hj.
Qed.
Lemma only_differential u idx : incl (seq 0 15) idx -> only u (differential_flags u) idx.
Proof.
  intros H i Hi. destruct (Nat.lt_ge_cases i 15) as [L|L]; [apply H, in_seq; lia|]. exfalso. apply Hi. clear H Hi.
  unfold differential_flags. change POSITION_V_OFFSET with 6%nat. change POSE_SIZE with 6%nat.
  change ACCELERATION_SIZE with 3%nat. change STATE_SIZE with 15%nat.
  rewrite app_nth2; rewrite repeat_length; [|lia].
  destruct (Nat.lt_ge_cases (List.length u) 6) as [A|A].
  - rewrite (nth_overflow u) by lia. rewrite skipn_all2 by lia. rewrite app_nil_r. apply nth_overflow.
    rewrite app_length, firstn_length, repeat_length. lia.
  - rewrite app_nth2; rewrite firstn_length, Nat.min_l by lia; [|lia]. rewrite app_nth2; rewrite repeat_length; [|lia].
    replace (i - 6 - 6 - 3)%nat with (i - 15)%nat by lia.
    rewrite <- (firstn_skipn 15 u) at 2. rewrite app_nth2; rewrite firstn_length.
    + destruct (Nat.lt_ge_cases (List.length u) 15) as [B|B].
      * rewrite skipn_all2 by lia. destruct (i - 15)%nat, (i - Nat.min 15 (List.length u))%nat; reflexivity.
      * rewrite Nat.min_l by lia. reflexivity.
    + lia.
Qed.

Lemma acceleration_only (e : penv K) c msg topic target rel (n : node K E) u v0 c0 :
  only u (pr_upd (prepareAcceleration e c msg topic target rel n u v0 c0)) (acceleration_accesses e c msg target).
Proof.
  unfold prepareAcceleration, acceleration_accesses. cbv zeta. destruct (lookupTransformSafe _ _ _ _) as [t|]; [|apply only_refl].
  match goal with |- context [finish ?a ?b ?d ?w] => pose proof (only_finish a b d w) as H; destruct (finish a b d w) as [[x y] z] end.
  cbn [snd pr_upd] in *. eapply only_trans; [|apply H]; [apply only_unmask|]; intros i Hi; rewrite !in_app_iff; tauto.
Qed.
Lemma twist_only (e : penv K) c msg topic target (n : node K E) u v0 c0 :
  only u (pr_upd (prepareTwist e c msg topic target n u v0 c0)) (twist_accesses e c (tw_frame msg) (tw_stamp msg) target).
Proof.
  unfold prepareTwist, twist_accesses. cbv zeta. destruct (lookupTransformSafe _ _ _ _) as [t|]; [|apply only_refl].
  match goal with |- context [finish ?a ?b ?d ?w] => pose proof (only_finish a b d w) as H; destruct (finish a b d w) as [[x y] z] end.
  cbn [snd pr_upd] in *. eapply only_trans; [|apply H; intros i Hi; rewrite !in_app_iff; tauto].
  eapply only_trans; apply only_unmask; intros i Hi; rewrite !in_app_iff; left; apply in_seq; apply in_seq in Hi; lia.
Qed.
Lemma pose_only (e : penv K) c msg topic target source d rel imu (n : node K E) u v0 c0 :
  let r := preparePose e c msg topic target source d rel imu n u v0 c0 in
  pr_ok r = true -> only u (pr_upd r) (pose_accesses e c msg topic target source d imu n).
Proof.
  cbv zeta. unfold preparePose, pose_accesses. destruct (pose_frames _ _ _ _ _) as [ft pf].
  destruct (lookupTransformSafe e ft pf _) as [t|]; [|discriminate]. cbv zeta.
  assert (HU : forall (m1 m2 : mat3 K) a b, only u (unmask m1 StateMemberRoll (unmask m2 StateMemberX u)) (a ++ seq StateMemberX 6 ++ b)).
  { intros m1 m2 a b. eapply only_trans; apply only_unmask; intros i Hi; rewrite !in_app_iff; right; left; apply in_seq; apply in_seq in Hi; lia. }
  destruct d.
  - destruct (sm_find (st_previous (n_streams n)) topic) as [prev|]; [|discriminate].
    destruct (sm_find (st_prev_cov (n_streams n)) topic) as [pc|]; [|discriminate].
    destruct (quatToRPY _) as [[r pt] y]. cbn [pr_upd pr_ok]. intros _.
    eapply only_trans; [apply HU|]. eapply only_trans; [apply only_differential; intros i Hi; rewrite !in_app_iff; auto 8|].
    eapply only_incl; [apply twist_only|]. cbn [tw_frame tw_stamp]. intros i Hi. rewrite !in_app_iff. auto 8.
  - intros _.
    match goal with |- context [let '(p, s) := ?x in _] => destruct x as [pose3 st'] end.
    destruct (quatToRPY _) as [[r pt] y].
    match goal with |- context [finish ?a ?b ?g ?w] => pose proof (only_finish a b g w) as H; destruct (finish a b g w) as [[x z] w'] end.
    cbn [snd pr_upd] in *. eapply only_trans; [apply HU|]. apply H. intros i Hi. rewrite !in_app_iff. auto 8.
Qed.

(** ** Callbacks *)
Variable pq : pqueue K.
Lemma sensor_reaches warn topic stamp upd thresh (prep : prepfun K E) n q :
  In q (queued (snd (sensorCallback pq warn topic stamp upd thresh prep n))) ->
  reaches_prepare n topic stamp = true /\
  exists n1, n_streams n1 = n_streams n /\ pr_ok (prep n1 upd vzero mzero) = true /\ m_upd q = pr_upd (prep n1 upd vzero mzero).
Proof.
  unfold sensorCallback, reaches_prepare. destruct (Z.geb (n_set_pose n) stamp); [intros []|]. cbn [negb andb].
  unfold sm_mem. destruct (sm_find (n_last_msg n) topic) as [last|] eqn:Ef.
  - rewrite Ef. destruct (Z.leb last stamp); [|intros []]. cbv zeta. intros H. split; [reflexivity|]. exists n. split; [reflexivity|].
    destruct (pr_ok (prep n upd vzero mzero)); [|destruct H]. cbn in H. destruct H as [<-|[]]. split; reflexivity.
  - cbv zeta. set (n1 := with_last_msg n _). destruct (sm_find (n_last_msg n1) topic); [|intros []].
    destruct (Z.leb _ stamp); [|intros []]. intros H. split; [reflexivity|]. exists n1. split; [reflexivity|].
    destruct (pr_ok (prep n1 upd vzero mzero)); [|destruct H]. cbn in H. destruct H as [<-|[]]. split; reflexivity.
Qed.
(** A callback for the same stamp opens no path for a later one. *)
Lemma sensor_keeps warn topic stamp upd thresh (prep : prepfun K E) n t :
  reaches_prepare (fst (sensorCallback pq warn topic stamp upd thresh prep n)) t stamp = true -> reaches_prepare n t stamp = true.
Proof.
  unfold reaches_prepare, sensorCallback. destruct (Z.geb (n_set_pose n) stamp) eqn:Eg.
  { destruct warn; cbn; rewrite ?Eg; cbn; auto. }
  cbn [negb andb]. unfold sm_mem. destruct (sm_find (n_last_msg n) topic) as [last|] eqn:Ef.
  - rewrite Ef. destruct (Z.leb last stamp) eqn:El; [|cbn; rewrite Eg; auto].
    cbv zeta. destruct (pr_ok _); cbn -[sm_set]; rewrite Eg, sm_set_find; cbn [negb andb];
      (destruct (String.eqb topic t) eqn:Et; [apply String.eqb_eq in Et; subst t; rewrite Ef, El; auto|auto]).
  - cbv zeta. destruct (sm_find (n_last_msg (with_last_msg n _)) topic) as [last|] eqn:El.
    2:{ cbn -[sm_set] in El. rewrite sm_set_find, String.eqb_refl in El. discriminate. }
    destruct (Z.leb last stamp).
    + destruct (pr_ok _); cbn -[sm_set]; rewrite Eg, !sm_set_find; cbn [negb andb];
        (destruct (String.eqb topic t) eqn:Et; [apply String.eqb_eq in Et; subst t; rewrite Ef; auto|auto]).
    + cbn -[sm_set]. rewrite Eg, sm_set_find. cbn [negb andb].
      destruct (String.eqb topic t) eqn:Et; [apply String.eqb_eq in Et; subst t; rewrite Ef; auto|auto].
Qed.

Lemma queued_app' (a b : list (output K E)) : queued (a ++ b) = queued a ++ queued b.
Proof. induction a as [|o a IH]; [reflexivity|]. destruct o; cbn; rewrite ?IH; reflexivity. Qed.

(** What a callback queues is covered by [idx], and it opens no path. *)
Definition covers (stamp : Z) (f : node K E -> node K E * list (output K E)) (acc : node K E -> list (list bool * list nat)) : Prop :=
  forall n, (forall q, In q (queued (snd (f n))) -> exists part, In part (acc n) /\ only (fst part) (m_upd q) (snd part)) /\
            (forall t, reaches_prepare (fst (f n)) t stamp = true -> reaches_prepare n t stamp = true).

Lemma covers_part stamp warn (used : bool) cd (prep : prepfun K E) idx :
  (forall n n1, n_streams n1 = n_streams n -> pr_ok (prep n1 (cd_upd cd) vzero mzero) = true ->
     only (cd_upd cd) (pr_upd (prep n1 (cd_upd cd) vzero mzero)) (idx n)) ->
  covers stamp (if used then sensorCallback pq warn (cd_topic cd) stamp (cd_upd cd) (cd_thresh cd) prep else skip_callback)
    (fun n => message_part n used cd stamp (idx n)).
Proof.
  intros H n. destruct used; [|split; [intros q []|auto]]. split; [|apply sensor_keeps].
  intros q Hq. apply sensor_reaches in Hq. destruct Hq as (Hr & n1 & Hs & Ho & Hu).
  exists (cd_upd cd, idx n). unfold message_part. rewrite Hr. split; [left; reflexivity|]. cbn [fst snd]. rewrite Hu. apply H; assumption.
Qed.
Lemma covers_then stamp a b acc acc' : covers stamp a acc -> covers stamp b acc' ->
  (forall n x, (forall t, reaches_prepare (fst (a n)) t stamp = true -> reaches_prepare n t stamp = true) ->
     In x (acc' (fst (a n))) -> In x (acc' n)) ->
  covers stamp (andthen a b) (fun n => acc n ++ acc' n).
Proof.
  intros Ha Hb Hx n. destruct (Ha n) as (A1 & A2). specialize (Hx n). unfold andthen. destruct (a n) as [n1 o1]. cbn [fst snd] in *.
  destruct (Hb n1) as (B1 & B2). destruct (b n1) as [n2 o2]. cbn [fst snd] in *. split; [|auto].
  intros q. rewrite queued_app', in_app_iff. intros [Hq|Hq].
  - destruct (A1 q Hq) as (part & Hp & Ho). exists part. rewrite in_app_iff. auto.
  - destruct (B1 q Hq) as (part & Hp & Ho). exists part. rewrite in_app_iff. auto.
Qed.
Lemma part_mono (n n' : node K E) used cd stamp idx x :
  (forall t, reaches_prepare n' t stamp = true -> reaches_prepare n t stamp = true) ->
  In x (message_part n' used cd stamp idx) -> In x (message_part n used cd stamp idx).
Proof.
  intros H. unfold message_part. destruct used; [|auto]. cbn [andb]. destruct (reaches_prepare n' _ _) eqn:Er; [|intros []].
  rewrite (H _ Er). auto.
Qed.
Lemma receive_listed (e : penv K) c s m (n : node K E) q :
  In q (queued (snd (receive pq e c s m n))) ->
  exists part, In part (message_accesses e c s m n) /\
    forall i, nth i (m_upd q) false <> nth i (fst part) false -> In i (snd part).
Proof.
  assert (HP : forall stamp used cd x target source imu, stamp = ps_stamp x ->
    covers stamp (if used : bool then poseCallback pq e c cd x target source imu else skip_callback)
      (fun n => message_part n used cd stamp (pose_accesses e c x (cd_topic cd) target source (cd_differential cd) imu n))).
  { intros stamp used cd x target source imu ->. unfold poseCallback. apply covers_part. intros n0 n1 Hs Ho.
    replace (pose_accesses e c x (cd_topic cd) target source (cd_differential cd) imu n0)
      with (pose_accesses e c x (cd_topic cd) target source (cd_differential cd) imu n1)
      by (unfold pose_accesses; rewrite Hs; reflexivity).
    apply pose_only, Ho. }
  assert (HT : forall stamp used cd x target, stamp = tw_stamp x ->
    covers stamp (if used : bool then twistCallback pq e c cd x target else skip_callback)
      (fun n => message_part n used cd stamp (twist_accesses e c (tw_frame x) stamp target))).
  { intros stamp used cd x target ->. unfold twistCallback. apply (covers_part _ _ _ _ _ (fun _ => _)). intros n0 n1 Hs Ho. apply twist_only. }
  assert (HA : forall used cd x target,
    covers (im_stamp x) (if used : bool then accelerationCallback pq e c cd x target else skip_callback)
      (fun n => message_part n used cd (im_stamp x) (acceleration_accesses e c x target))).
  { intros used cd x target. unfold accelerationCallback. apply (covers_part _ _ _ _ _ (fun _ => _)). intros n0 n1 Hs Ho. apply acceleration_only. }
  destruct s as [t a b|a|a|t a b d], m as [x|x|x|x]; cbn [receive message_accesses]; try (intros []; fail).
  - unfold odometryCallback. destruct (Z.geb (n_set_pose n) (o_stamp x)); [intros []|].
    refine (proj1 (covers_then (o_stamp x) _ _ _ _ (HP (o_stamp x) _ a (odom_pose x) _ _ _ eq_refl)
                     (HT (o_stamp x) _ b (odom_twist x) _ eq_refl) _ n) q).
    intros n0 y. apply part_mono.
  - exact (proj1 (HP (ps_stamp x) true a x _ _ _ eq_refl n) q).
  - exact (proj1 (HT (tw_stamp x) true a x _ eq_refl n) q).
  - unfold imuCallback. destruct (Z.geb (n_set_pose n) (im_stamp x)); [intros []|].
    refine (proj1 (covers_then (im_stamp x) _ _ _ _ (HP (im_stamp x) _ a (imu_pose x) _ _ _ eq_refl)
                     (covers_then (im_stamp x) _ _ _ _ (HT (im_stamp x) _ b (imu_twist x) _ eq_refl) (HA _ d x _) _) _ n) q).
    + intros n0 y. apply part_mono.
    + intros n0 y Hm. rewrite !in_app_iff. intros [Hy|Hy]; [left|right]; (eapply part_mono; [exact Hm|exact Hy]).
Qed.
End Listed.
