(** * A node that is told the truth publishes the truth (C104) *)

From Coq Require Import Reals ZArith List Bool Lia Lra String Arith Permutation.
From Verif Require Import Scalar Mat FilterBase FilterOps Ekf StrMap Tf Diagnostics RosFilter RosConfig RosPrepare
  SpecConfig SpecNode SpecTf SpecLin SpecFilter SpecPrepare SpecStart SpecMotion SpecTurn SpecPublished SpecTruth
  RBridge RLin Motion TfReal TfRot NodeProofs NodeInv NodeFacts PrepareProofs PrepareSeq NodeCarry ConfigFacts StartFacts TurnFilter TruthFacts.
Import ListNotations.
Local Open Scope R_scope.

Section Node.
Variable tr : course.
Hypothesis Htr : possible tr.
Variable eig : Eigen RScalar.
Local Notation vt := (ekf_vtbl eig).
Variable pq : pqueue RScalar.
Variable c : config RScalar.
Hypothesis Hpq : pq_ok pq.

Definition knows_now (f : ekf RScalar) : Prop := knows tr f (fb_last_time f).
Definition true_snap (s : fstate RScalar) : Prop := same_state (fs_state s) (truth tr (fs_time s)).
Definition true_node (n : node RScalar unit) : Prop :=
  knows_now (n_filter n) /\ Forall true_snap (n_state_hist n) /\ (n_toggled n = true \/ still tr).

Lemma process_now (f : ekf RScalar) m : knows_now f -> told_op tr f (fb_last_time f) (OpProcess m) ->
  knows_now (processMeasurement vt f m).
Proof.
  intros H O. pose proof (told_step tr Htr eig f _ _ H O) as (F & S). cbn [time_of_estimate fb_exec] in *.
  split; [exact F|]. intros I. specialize (S I). destruct O as (_ & A & _). destruct (fb_initialized f) eqn:E.
  - destruct (A eq_refl) as [A'|(_ & A')]; [exact (same_still tr _ _ _ A' S)|].
    rewrite process_last; [exact S|]. intros _. exact A'.
  - rewrite process_last; [exact S|]. intros E'. rewrite E in E'. discriminate.
Qed.
Lemma save_true (f : ekf RScalar) : fb_initialized f = true -> knows_now f -> true_snap (snapshot f).
Proof. intros I (_ & S). exact (S I). Qed.
Lemma load_true (f : ekf RScalar) s : knows_now f -> true_snap s -> knows_now (load f s).
Proof. intros (F & _) S. split; [exact F|]. intros _. exact S. Qed.
Lemma project_true now (n : node RScalar unit) : fb_initialized (n_filter n) = true -> knows_now (n_filter n) ->
  knows_now (n_filter (project vt now n)).
Proof.
  intros I (F & S). unfold project. cbn [n_filter with_filter]. cbv zeta.
  set (d := (now - fb_last_time (n_filter n))%Z).
  change (v_predict vt (n_filter n) now d) with (ekf_predict (n_filter n) now d).
  pose proof (predict_truth tr Htr (n_filter n) now d _ F (S I)) as P.
  destruct (EkfFacts.predict_other (n_filter n) now d) as (_ & _ & _ & _ & L & _). cbv zeta in L.
  pose proof (free_pred (n_filter n) now d F) as F'.
  revert P L F'. generalize (ekf_predict (n_filter n) now d). intros q P L F'.
  split; [exact F'|]. intros _. rewrite state_last. cbn [fb_last_time set_last_time]. rewrite L. exact P.
Qed.

Lemma loop_true fuel : forall now restored n n' o, true_node n ->
  integrate_loop pq vt c fuel now restored n = (n', o) -> Forall (told_output tr) o -> true_node n'.
Proof.
  induction fuel as [|fuel IH]; intros now restored n n' o H Hrun HT.
  - cbn in Hrun. injection Hrun as <- <-. exact H.
  - rewrite loop_step in Hrun. destruct (pq_pop pq (n_queue n)) as [[m rest]|] eqn:Hpop.
    2:{ injection Hrun as <- <-. exact H. }
    destruct (now <? m_time m)%Z. { injection Hrun as <- <-. exact H. }
    destruct (integrate_loop pq vt c fuel now (loop_count c restored) (loop_node pq vt c restored n m rest))
      as [n3 o3] eqn:Hrec. injection Hrun as <- <-.
    inversion HT as [|x l Hx Hl]; subst. destruct H as (Hf & Hs & Ht).
    assert (Hf1 : knows_now (loop_filter c restored (n_filter n) m)).
    { unfold loop_filter. destruct (loop_control c restored); exact Hf. }
    pose proof (process_now _ m Hf1 Hx) as Hf2.
    assert (H2 : true_node (loop_node pq vt c restored n m rest)).
    { unfold true_node. cbn [loop_node n_filter n_state_hist n_toggled]. split; [exact Hf2|]. split; [|exact Ht].
      destruct (c_smooth c && _)%bool; [|exact Hs].
      apply Forall_app. split; [exact Hs|]. constructor; [|constructor]. apply save_true; [apply process_init|exact Hf2]. }
    exact (IH _ _ _ _ _ H2 Hrec Hl).
Qed.

Lemma revert_true (n : node RScalar unit) : true_node n -> true_node (snd (revert_if_lagged pq c n)).
Proof.
  intros H. unfold revert_if_lagged. destruct (pq_pop pq (n_queue n)) as [[first r]|]; [|exact H].
  destruct (c_smooth c && _)%bool; [|exact H].
  pose proof (revert_cases pq Hpq n (m_time first - 1)) as Hr.
  destruct (revertTo pq n (m_time first - 1)) as [ok n0]. cbn [snd].
  assert (Hgo : forall s kept, In s (n_state_hist n) -> incl kept (n_state_hist n) ->
    revert_to_snapshot n n0 (m_time first - 1) s kept -> true_node n0).
  { intros s kept Hin Hk (F1 & F2 & _ & F4). destruct H as (Hf & Hs & Ht). rewrite Forall_forall in Hs.
    split; [rewrite F1; apply load_true; [exact Hf|apply Hs; exact Hin]|]. split.
    - rewrite F2. apply Forall_forall. intros x Hx. apply Hs, Hk, Hx.
    - unfold untouched in F4. injection F4. intros. replace (n_toggled n0) with (n_toggled n) by congruence. exact Ht. }
  destruct Hr as [(_ & _ & ->)|[(pre & s & post & E1 & _ & _ & _ & Hrs)|(s & post & E1 & _ & _ & Hrs)]].
  - exact H.
  - apply (Hgo s (pre ++ [s])); [rewrite E1; apply in_or_app; right; left; reflexivity| |exact Hrs].
    intros x Hx. rewrite E1. apply in_app_or in Hx. apply in_or_app. destruct Hx as [Hx|[->|[]]]; [left; exact Hx|right; left; reflexivity].
  - apply (Hgo s []); [rewrite E1; left; reflexivity| |exact Hrs]. intros x [].
Qed.

Lemma working_true cur later (n : node RScalar unit) : true_node n -> Forall (told_output tr) (snd (working pq vt c cur later n)) ->
  true_node (fst (working pq vt c cur later n)).
Proof.
  intros H. unfold working. destruct (n_toggled n) eqn:Et.
  - rewrite (integrate_eq pq vt c Hpq).
    assert (Hcu : Forall (told_output tr) (snd (catch_up pq vt c cur n)) -> true_node (fst (catch_up pq vt c cur n))).
    { unfold catch_up. destruct (n_queue n); [intros _; exact H|]. pose proof (revert_true n H) as Hr.
      destruct (revert_if_lagged pq c n) as [restored n0]. cbn in Hr.
      destruct (integrate_loop pq vt c (List.length (n_queue n0)) cur restored n0) as [n1 o1] eqn:Hl.
      cbn [fst snd]. exact (loop_true _ _ _ _ _ _ Hr Hl). }
    destruct (catch_up pq vt c cur n) as [n1 o1]. cbn [fst snd] in Hcu.
    destruct (fb_initialized (n_filter n1) && projects c cur n)%bool eqn:Ep; cbn [fst snd].
    + intros HT. apply Forall_app in HT. specialize (Hcu (proj1 HT)). destruct Hcu as (Hf & Hs & Ht).
      apply andb_true_iff in Ep. pose proof (project_true cur n1 (proj1 Ep) Hf) as Hp.
      destruct (diff_fields cur (project vt cur n1)) as (A1 & _ & _ & A4 & _ & _ & _ & A8 & _).
      unfold true_node. rewrite A1, A4, A8. split; [exact Hp|]. split; [exact Hs|exact Ht].
    + intros HT. specialize (Hcu HT). destruct Hcu as (Hf & Hs & Ht).
      destruct (diff_fields cur n1) as (A1 & _ & _ & A4 & _ & _ & _ & A8 & _).
      unfold true_node. rewrite A1, A4, A8. split; [exact Hf|]. split; [exact Hs|exact Ht].
  - intros _. cbn [fst]. destruct H as (Hf & Hs & Ht). destruct Ht as [Ht|Ht]; [congruence|].
    destruct (fb_initialized (n_filter n)) eqn:I; (split; [|split; [exact Hs|right; exact Ht]]); [|exact Hf].
    destruct Hf as (F & S). split; [exact F|]. intros I'. exact (same_still tr _ _ _ Ht (S I')).
Qed.

(** What the cycle shows. *)
Lemma spin_true r p y r' p' y' v : same_angle r r' -> same_angle p p' -> same_angle y y' ->
  spin (@quat_setRPY RScalar r p y) v = oriented r' p' y' v.
Proof.
  intros A B C. rewrite <- of_quat_spin by apply setRPY_unit. rewrite quat_setRPY_matrix, setRPY_oriented.
  apply same_angle_trig in A, B, C. destruct A as (A1 & A2), B as (B1 & B2), C as (C1 & C2).
  unfold oriented, about_x, about_y, about_z. rewrite A1, A2, B1, B2, C1, C2. reflexivity.
Qed.
Lemma shown_true (P : node RScalar unit -> Prop) (o : output RScalar unit) : (forall n, P n -> true_node n) -> shown c P o -> true_output tr o.
Proof.
  intros HP H. destruct o as [m|m| | | | | | |]; cbn [shown true_output] in *; try exact I; destruct H as (n & Hn & Hm);
    destruct (HP n Hn) as ((_ & S) & _).
  - unfold getFilteredOdometryMessage in Hm. destruct (fb_initialized (n_filter n)); [|discriminate]. specialize (S eq_refl).
    injection Hm as <-. cbn [o_stamp o_position o_orientation o_linear o_angular].
    set (y := truth tr (fb_last_time (n_filter n))) in *. clearbody y.
    assert (V : forall k, (k < 15)%nat -> ~ angular k -> fb_state (n_filter n) k = y k) by (intros k Hk Ha; apply S; assumption).
    assert (A : forall k, (k < 15)%nat -> angular k -> same_angle (fb_state (n_filter n) k) (y k)) by (intros k Hk Ha; apply S; assumption).
    unfold angular in *. unfold v3. split.
    { rewrite (V StateMemberX), (V StateMemberY), (V StateMemberZ) by (cbv; lia). reflexivity. }
    split. { intros v. apply spin_true; apply A; cbv; lia. }
    split.
    { rewrite (V StateMemberVx), (V StateMemberVy), (V StateMemberVz) by (cbv; lia). reflexivity. }
    rewrite (V StateMemberVroll), (V StateMemberVpitch), (V StateMemberVyaw) by (cbv; lia). reflexivity.
  - unfold getFilteredAccelMessage in Hm. destruct (fb_initialized (n_filter n)); [|discriminate]. specialize (S eq_refl).
    injection Hm as <-. cbn [ac_stamp ac_linear].
    set (y := truth tr (fb_last_time (n_filter n))) in *. clearbody y.
    assert (V : forall k, (k < 15)%nat -> ~ angular k -> fb_state (n_filter n) k = y k) by (intros k Hk Ha; apply S; assumption).
    unfold angular in *. unfold v3.
    rewrite (V StateMemberAx), (V StateMemberAy), (V StateMemberAz) by (cbv; lia). reflexivity.
Qed.

Lemma step_true (n : node RScalar unit) e : true_node n -> told_input tr pq vt c n (Event e) ->
  Forall (told_output tr) (snd (node_step pq vt c n e)) ->
  true_node (fst (node_step pq vt c n e)) /\ Forall (true_output tr) (snd (node_step pq vt c n e)).
Proof.
  intros H HI HT. destruct e as [warn topic stamp upd thresh prep|frame ctl stamp|on| | |stamp prep now| |cur later lookup];
    cbn [node_step] in *.
  - split.
    + destruct H as (Hf & Hs & Ht). unfold sensorCallback. destruct (Z.geb _ _); [destruct warn; split; auto|]. cbv zeta.
      destruct (sm_mem _ _); destruct (sm_find _ topic); try (split; auto; fail); destruct (Z.leb _ _); try (split; auto; fail);
        destruct (pr_ok _); (split; [exact Hf|split; [exact Hs|exact Ht]]).
    + unfold sensorCallback. destruct (Z.geb _ _); [constructor|]. cbv zeta.
      destruct (sm_find _ topic); [|constructor]. destruct (Z.leb _ _); [|constructor].
      destruct (pr_ok _); repeat constructor.
  - cbn [fst snd]. split; [|constructor]. destruct H as (Hf & Hs & Ht). unfold controlStampedCallback. destruct (_ || _)%bool; (split; [exact Hf|split; [exact Hs|exact Ht]]).
  - destruct H as (Hf & Hs & Ht). unfold toggleFilterProcessingCallback. destruct (Bool.eqb on (n_toggled n)); cbn [fst snd];
      (split; [|repeat constructor]); (split; [exact Hf|split; [exact Hs|]]); [exact Ht|]. cbn. destruct HI as [->|HI]; auto.
  - destruct H as (Hf & Hs & Ht). unfold enableFilterSrvCallback. cbn [fst snd]. split; [|repeat constructor].
    destruct (n_enabled n); (split; [exact Hf|split; [exact Hs|exact Ht]]).
  - destruct H as (Hf & Hs & Ht). split; [|constructor]. split; [|split; [constructor|exact Ht]].
    destruct (told_step tr Htr eig (n_filter n) _ OpReset Hf I) as (F & _). cbn [fb_exec] in F.
    split; [exact F|]. discriminate.
  - destruct H as (Hf & Hs & Ht). split; [|constructor]. split; [|split; [constructor|exact Ht]]. split; [exact (proj1 Hf)|exact HI].
  - destruct (aggregateDiagnostics (n_diag n)) as [r d]. cbn [fst snd]. split; [exact H|repeat constructor].
  - destruct (n_enabled n) eqn:He.
    2:{ rewrite (cycle_disabled pq vt c _ _ _ _ He). split; [exact H|constructor]. }
    rewrite (cycle_eq pq vt c cur later lookup n He) in *.
    pose proof (working_true cur later n H) as Hw.
    pose proof (working_quiet pq vt c Hpq true_node cur later n) as Hq.
    destruct (working pq vt c cur later n) as [n1 o1]. cbn [fst snd] in *.
    apply Forall_app in HT. specialize (Hw (proj1 HT)). split.
    + destruct Hw as (Hf & Hs & Ht). split; [exact Hf|]. split; [|exact Ht]. cbn [concluded n_state_hist].
      destruct (c_smooth c); [|exact Hs]. apply Forall_forall. intros x Hx. apply pop_front_while_incl in Hx. eapply Forall_forall; eassumption.
    + apply Forall_app. split; [eapply Forall_impl; [|exact Hq]; intros a; apply shown_true; auto|]. apply Forall_app.
      split; [eapply Forall_impl; [|apply (visible_shown c true_node n1 lookup Hw)]; intros a; apply shown_true; auto|].
      destruct (diag_due c cur n1); repeat constructor.
Qed.
Lemma raw_true es : Forall raw es -> forall n : node RScalar unit, true_node n -> Forall (told_output tr) (snd (node_run pq vt c n es)) ->
  true_node (fst (node_run pq vt c n es)) /\ Forall (true_output tr) (snd (node_run pq vt c n es)).
Proof.
  induction 1 as [|e es He _ IH]; intros n H HT; [split; [exact H|constructor]|].
  cbn [node_run] in *. pose proof (step_true n e H) as Hst.
  destruct (node_step pq vt c n e) as [n1 o1]. cbn [fst snd] in *. specialize (IH n1).
  destruct (node_run pq vt c n1 es) as [n2 o2]. cbn [fst snd] in *. apply Forall_app in HT. destruct HT as [T1 T2].
  destruct Hst as [S1 S2]; [destruct e; try contradiction; exact I|exact T1|].
  destruct (IH S1 T2) as [I1 I2]. split; [exact I1|]. apply Forall_app. split; assumption.
Qed.
Lemma respond_true is : forall n : node RScalar unit, true_node n -> along (told_input tr pq vt c) pq vt c n is ->
  Forall (told_output tr) (snd (respond pq vt c n is)) ->
  true_node (fst (respond pq vt c n is)) /\ Forall (true_output tr) (snd (respond pq vt c n is)).
Proof.
  induction is as [|i is IH]; intros n H HA HT; [split; [exact H|constructor]|]. destruct HA as [HA1 HA2].
  rewrite (proj2 (respond_cons pq vt c EmptyString is n)) in *. cbn [fst snd] in *. apply Forall_app in HT. destruct HT as [T1 T2].
  assert (D : true_node (fst (deliver pq vt c n i)) /\ Forall (true_output tr) (snd (deliver pq vt c n i))).
  { destruct i as [e s m|ev]; [|apply step_true; assumption].
    cbn [deliver] in *. destruct (receive_expands pq vt c e s m n) as (es & R & Eq). rewrite Eq in *. apply raw_true; assumption. }
  destruct D as (D1 & D2). destruct (IH _ D1 HA2 T2) as [I1 I2]. split; [exact I1|]. apply Forall_app. split; assumption.
Qed.
End Node.

Lemma start_free (p : params RScalar) period now later g ang nothing ld n :
  start p period now later (@fb_init RScalar unit g tt) ang nothing = Ok (ld, n) -> p_use_control p = false -> free (n_filter n).
Proof.
  intros H U. apply start_eq in H. destruct H as (H & ->). rewrite loadParams_eq in H.
  apply obind_Ok in H. destruct H as (l & _ & H). apply obind_Ok in H. destruct H as (Q & HQ & H).
  apply obind_Ok in H. destruct H as (P & HP & H). cbv zeta in H. injection H as <-. cbv zeta.
  cbn [n_filter with_diag node_init ld_filter ld_config c_Q c_P].
  set (u := (cp_use (load_control p) && negb (Z.eqb (accumulate (l_control l)) 0))%bool).
  assert (Eu : u = false). { unfold u, load_control. rewrite U. reflexivity. }
  rewrite Eu. clear Eu u. pose proof (@tf_inv_init RScalar unit g tt) as I.
  match goal with |- free ?f => assert (HE : fb_F f = fb_F (@fb_init RScalar unit g tt) /\
    fb_use_control f = fb_use_control (@fb_init RScalar unit g tt) /\ fb_control_upd f = fb_control_upd (@fb_init RScalar unit g tt)) end.
  { destruct P, Q; cbn;
      (destruct (p_initial_state p) as [w|]; [match goal with |- context [if ?b then _ else _] => destruct b end|]; (split; [|split]); reflexivity). }
  destruct HE as (E1 & E2 & E3). split; [exact (tf_inv_congr _ _ E1 E2 E3 I)|exact E2].
Qed.

(** From start-up on. *)
Lemma started_true tr eig (pq : pqueue RScalar) (p : params RScalar) period now later g ang nothing ld n is :
  possible tr -> pq_ok pq -> start p period now later (@fb_init RScalar unit g tt) ang nothing = Ok (ld, n) -> p_use_control p = false ->
  along (told_input tr pq (ekf_vtbl eig) (ld_config ld)) pq (ekf_vtbl eig) (ld_config ld) n is ->
  Forall (told_output tr) (snd (respond pq (ekf_vtbl eig) (ld_config ld) n is)) ->
  Forall (true_output tr) (snd (respond pq (ekf_vtbl eig) (ld_config ld) n is)).
Proof.
  intros Ht Hq Hs Hu HA HT. pose proof (start_free _ _ _ _ _ _ _ _ _ Hs Hu) as F.
  destruct (start_fresh _ _ _ _ _ _ _ _ _ _ Hs) as (U & _).
  destruct U as (U1 & U2 & U3 & U4 & U5 & U6 & U8 & U9 & U10 & U11 & U12 & U7).
  apply (respond_true tr Ht eig pq (ld_config ld) Hq is n); [|exact HA|exact HT].
  split; [split; [exact F|rewrite U7; discriminate]|]. split; [rewrite U3; constructor|left; exact U12].
Qed.
