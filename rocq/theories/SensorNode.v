(** * A node whose sensors tell the truth publishes the truth (C107) *)

From Coq Require Import Reals ZArith List Bool Lia Lra String Arith Permutation.
From Verif Require Import Scalar Mat FilterBase FilterOps Ekf StrMap Tf Diagnostics RosFilter RosConfig RosPrepare
  SpecConfig SpecNode SpecTf SpecLin SpecFilter SpecPrepare SpecStart SpecMotion SpecTurn SpecPublished SpecTruth SpecSensor
  RBridge RLin NodeProofs NodeInv NodeFacts PrepareProofs PrepareSeq NodeCarry StartFacts TruthFacts TruthNode SensorFacts.
Import ListNotations.
Local Open Scope R_scope.

Section Node.
Variable tr : course.
Hypothesis Htr : possible tr.
Hypothesis Hrate : co_rate tr = 0.
Variable eig : Eigen RScalar.
Local Notation vt := (ekf_vtbl eig).
Variable pq : pqueue RScalar.
Variable c : config RScalar.
Hypothesis Hpq : pq_ok pq.

Definition good (m : meas RScalar) : Prop := truthful m (truth tr (m_time m)).
Definition unturned (f : ekf RScalar) : Prop := part (fb_state f) 9 = v3 0 0 0.
Record sound (n : node RScalar unit) : Prop := mkSound {
  so_true : true_node tr n;
  so_queue : Forall good (n_queue n);
  so_hist : Forall good (n_meas_hist n);
  so_turn : unturned (n_filter n);
  so_acc : a_acc (n_ang n) = v3 0 0 0;
  so_last : a_last_twist (n_ang n) = v3 0 0 0
}.

Lemma truth_part T : part (K := RScalar) (truth tr T) 9 = v3 0 0 0.
Proof. unfold part, truth, course_at. cbn. rewrite Hrate. reflexivity. Qed.
Lemma same_unturned x T : same_state x (truth tr T) -> part (K := RScalar) x 9 = v3 0 0 0.
Proof.
  intros S. rewrite <- (truth_part T). unfold part. cbn [Nat.add].
  assert (V : forall k, (k < 15)%nat -> ~ angular k -> x k = truth tr T k) by (intros k Hk Ha; apply S; assumption).
  unfold angular in V. rewrite !V by lia. reflexivity.
Qed.
Lemma knows_unturned (f : ekf RScalar) : fb_initialized f = true -> knows_now tr f -> unturned f.
Proof. intros I (_ & S). exact (same_unturned _ _ (S I)). Qed.

Lemma told_of f m : good m -> in_order (E := unit) tr (OutFused f m) -> told_output tr (OutFused f m).
Proof.
  intros G (A & B). cbn [told_output told_op]. split; [exact G|]. split; [|exact B].
  intros I. destruct (A I) as [S|L]; [left; exact S|right; auto].
Qed.

Lemma loop_sound fuel : forall now restored n n' o, sound n ->
  integrate_loop pq vt c fuel now restored n = (n', o) -> Forall (in_order tr) o -> sound n' /\ Forall (told_output tr) o.
Proof.
  induction fuel as [|fuel IH]; intros now restored n n' o H Hrun HT.
  - cbn in Hrun. injection Hrun as <- <-. split; [exact H|constructor].
  - rewrite loop_step in Hrun. destruct (pq_pop pq (n_queue n)) as [[m rest]|] eqn:Hpop.
    2:{ injection Hrun as <- <-. split; [exact H|constructor]. }
    destruct (now <? m_time m)%Z. { injection Hrun as <- <-. split; [exact H|constructor]. }
    destruct (integrate_loop pq vt c fuel now (loop_count c restored) (loop_node pq vt c restored n m rest))
      as [n3 o3] eqn:Hrec. injection Hrun as <- <-.
    inversion HT as [|x l Hx Hl]; subst. destruct H as [(Hf & Hs & Ht) Hq Hm Hu Ha Hla].
    pose proof (pop_perm pq Hpq _ _ _ Hpop) as Hperm.
    pose proof (Permutation_Forall Hperm Hq) as Hq'. inversion Hq' as [|x l Gm Gr]; subst.
    pose proof (told_of _ _ Gm Hx) as Ho.
    assert (Hf1 : knows_now tr (loop_filter c restored (n_filter n) m)).
    { unfold loop_filter. destruct (loop_control c restored); exact Hf. }
    pose proof (process_now tr Htr eig _ m Hf1 Ho) as Hf2.
    assert (H2 : sound (loop_node pq vt c restored n m rest)).
    { constructor; cbn [loop_node n_filter n_queue n_meas_hist n_ang].
      - unfold true_node. cbn [loop_node n_filter n_state_hist n_toggled]. split; [exact Hf2|]. split; [|exact Ht].
        destruct (c_smooth c && _)%bool; [|exact Hs].
        apply Forall_app. split; [exact Hs|]. constructor; [|constructor]. apply save_true; [apply process_init|exact Hf2].
      - exact Gr.
      - destruct (c_smooth c); [|exact Hm]. apply Forall_app. split; [exact Hm|]. constructor; [exact Gm|constructor].
      - apply knows_unturned; [apply process_init|exact Hf2].
      - exact Ha.
      - exact Hla. }
    destruct (IH _ _ _ _ _ H2 Hrec Hl) as (I1 & I2). split; [exact I1|]. constructor; assumption.
Qed.

Lemma revert_sound (n : node RScalar unit) : sound n -> sound (snd (revert_if_lagged pq c n)).
Proof.
  intros H. pose proof (revert_true tr pq c Hpq n (so_true n H)) as RT. revert RT.
  unfold revert_if_lagged. destruct (pq_pop pq (n_queue n)) as [[first r]|]; [|intros _; exact H].
  destruct (c_smooth c && _)%bool; [|intros _; exact H].
  pose proof (revert_cases pq Hpq n (m_time first - 1)) as Hr.
  destruct (revertTo pq n (m_time first - 1)) as [ok n0]. cbn [snd]. intros RT.
  assert (Hgo : forall s kept, In s (n_state_hist n) -> revert_to_snapshot n n0 (m_time first - 1) s kept -> sound n0).
  { intros s kept Hin (F1 & F2 & (d & D1 & _ & _ & D4) & F4). destruct H as [(Hf & Hs & Ht) Hq Hm Hu Ha Hla].
    rewrite D1 in Hm. apply Forall_app in Hm. destruct Hm as [Hm1 Hm2].
    assert (EA : n_ang n0 = n_ang n) by (unfold untouched in F4; congruence).
    constructor; rewrite ?EA; try assumption.
    - eapply Permutation_Forall; [apply Permutation_sym, D4|]. apply Forall_app. split; [exact Hq|].
      apply Forall_forall. intros x Hx. apply filter_In in Hx. rewrite Forall_forall in Hm2. apply Hm2, Hx.
    - rewrite F1. rewrite Forall_forall in Hs. exact (same_unturned _ _ (Hs s Hin)). }
  destruct Hr as [(_ & _ & ->)|[(pre & s & post & E1 & _ & _ & _ & Hrs)|(s & post & E1 & _ & _ & Hrs)]].
  - exact H.
  - apply (Hgo s (pre ++ [s])); [rewrite E1; apply in_or_app; right; left; reflexivity|exact Hrs].
  - apply (Hgo s []); [rewrite E1; left; reflexivity|exact Hrs].
Qed.

Lemma diff_ang cur (n : node RScalar unit) : unturned (n_filter n) -> a_acc (n_ang n) = v3 0 0 0 -> a_last_twist (n_ang n) = v3 0 0 0 ->
  a_acc (n_ang (differentiateMeasurements cur n)) = v3 0 0 0 /\ a_last_twist (n_ang (differentiateMeasurements cur n)) = v3 0 0 0.
Proof.
  intros U A L. unfold differentiateMeasurements. destruct (fb_initialized (n_filter n)); [|split; assumption].
  cbv zeta. cbn [with_ang n_ang a_acc a_last_twist]. rewrite L.
  change (mkV3 (fb_state (n_filter n) StateMemberVroll) (fb_state (n_filter n) StateMemberVpitch) (fb_state (n_filter n) StateMemberVyaw))
    with (part (K := RScalar) (fb_state (n_filter n)) 9).
  unfold unturned in U. rewrite U. split; [|reflexivity].
  assert (Z0 : forall d : R, @v3div RScalar (@v3sub RScalar (v3 0 0 0) (v3 0 0 0)) d = v3 0 0 0); [|apply Z0].
  intros d. unfold v3div, v3scale, v3sub, v3. cbn. unfold Rdiv, Rminus. rewrite Ropp_0, Rplus_0_r, !Rmult_0_l. reflexivity.
Qed.

Lemma working_sound cur later (n : node RScalar unit) : sound n -> Forall (in_order tr) (snd (working pq vt c cur later n)) ->
  sound (fst (working pq vt c cur later n)) /\ Forall (told_output tr) (snd (working pq vt c cur later n)).
Proof.
  intros H HT.
  assert (HO : Forall (told_output tr) (snd (working pq vt c cur later n)) /\
    (true_node tr (fst (working pq vt c cur later n)) -> sound (fst (working pq vt c cur later n)))).
  2:{ destruct HO as (HO & HG). split; [|exact HO]. apply HG. exact (working_true tr Htr eig pq c Hpq cur later n (so_true n H) HO). }
  revert HT. unfold working. destruct (n_toggled n) eqn:Et.
  - rewrite (integrate_eq pq vt c Hpq).
    assert (Hcu : Forall (in_order tr) (snd (catch_up pq vt c cur n)) ->
      sound (fst (catch_up pq vt c cur n)) /\ Forall (told_output tr) (snd (catch_up pq vt c cur n))).
    { unfold catch_up. destruct (n_queue n); [intros _; split; [exact H|constructor]|]. pose proof (revert_sound n H) as Hr.
      destruct (revert_if_lagged pq c n) as [restored n0]. cbn in Hr.
      destruct (integrate_loop pq vt c (List.length (n_queue n0)) cur restored n0) as [n1 o1] eqn:Hl.
      cbn [fst snd]. exact (loop_sound _ _ _ _ _ _ Hr Hl). }
    destruct (catch_up pq vt c cur n) as [n1 o1]. cbn [fst snd] in Hcu.
    destruct (fb_initialized (n_filter n1) && projects c cur n)%bool eqn:Ep; cbn [fst snd]; intros HT.
    + apply Forall_app in HT. destruct (Hcu (proj1 HT)) as ([T1 Q1 M1 U1 A1 L1] & O1). split; [apply Forall_app; split; [exact O1|repeat constructor]|].
      apply andb_true_iff in Ep. pose proof (project_true tr Htr eig cur n1 (proj1 Ep) (proj1 T1)) as Hp.
      assert (UP : unturned (n_filter (project vt cur n1))).
      { apply knows_unturned; [|exact Hp]. unfold project. cbn [n_filter with_filter]. cbv zeta.
        change (v_predict vt (n_filter n1) cur (cur - fb_last_time (n_filter n1))) with (ekf_predict (n_filter n1) cur (cur - fb_last_time (n_filter n1))).
        destruct (EkfFacts.predict_other (n_filter n1) cur (cur - fb_last_time (n_filter n1))) as (I1 & _). cbv zeta in I1.
        revert I1. generalize (ekf_predict (n_filter n1) cur (cur - fb_last_time (n_filter n1))). intros q I1. cbn. rewrite I1. exact (proj1 Ep). }
      assert (AP : n_ang (project vt cur n1) = n_ang n1) by reflexivity.
      destruct (diff_ang cur (project vt cur n1) UP ltac:(rewrite AP; exact A1) ltac:(rewrite AP; exact L1)) as (B1 & B2).
      destruct (diff_fields cur (project vt cur n1)) as (D1 & D2 & D3 & _).
      intros TN. constructor; [exact TN|rewrite D2; exact Q1|rewrite D3; exact M1|rewrite D1; exact UP|exact B1|exact B2].
    + destruct (Hcu HT) as ([T1 Q1 M1 U1 A1 L1] & O1). split; [exact O1|].
      destruct (diff_ang cur n1 U1 A1 L1) as (B1 & B2). destruct (diff_fields cur n1) as (D1 & D2 & D3 & _).
      intros TN. constructor; [exact TN|rewrite D2; exact Q1|rewrite D3; exact M1|rewrite D1; exact U1|exact B1|exact B2].
  - intros _. cbn [fst snd]. split; [constructor|]. destruct H as [T1 Q1 M1 U1 A1 L1].
    destruct (fb_initialized (n_filter n)); intros TN; constructor; try assumption; constructor.
Qed.

Lemma step_sound (n : node RScalar unit) e : sound n -> true_input tr c pq vt n (Event e) ->
  Forall (in_order tr) (snd (node_step pq vt c n e)) ->
  sound (fst (node_step pq vt c n e)) /\ Forall (true_output tr) (snd (node_step pq vt c n e)).
Proof.
  intros H HI HT.
  assert (HS : told_input tr pq vt c n (Event e)).
  { destruct e; cbn [true_input told_input] in *; try exact I; [exact HI|]. exact (proj1 HI). }
  assert (HO : Forall (told_output tr) (snd (node_step pq vt c n e)) /\
    (true_node tr (fst (node_step pq vt c n e)) -> sound (fst (node_step pq vt c n e)))).
  2:{ destruct HO as (HO & HG). destruct (step_true tr Htr eig pq c Hpq n e (so_true n H) HS HO) as (S1 & S2). split; [apply HG; exact S1|exact S2]. }
  clear HS. destruct e as [warn topic stamp upd thresh prep|frame ctl stamp|on| | |stamp prep now| |cur later lookup]; cbn [node_step] in *.
  - destruct HI.
  - cbn [fst snd]. split; [constructor|]. destruct H as [T1 Q1 M1 U1 A1 L1]. intros TN.
    unfold controlStampedCallback in *. destruct (_ || _)%bool; constructor; assumption.
  - destruct H as [T1 Q1 M1 U1 A1 L1]. unfold toggleFilterProcessingCallback. destruct (Bool.eqb on (n_toggled n)); cbn [fst snd];
      (split; [repeat constructor|]); intros TN; constructor; assumption.
  - destruct H as [T1 Q1 M1 U1 A1 L1]. unfold enableFilterSrvCallback. cbn [fst snd]. split; [repeat constructor|].
    destruct (n_enabled n); intros TN; constructor; assumption.
  - destruct H as [T1 Q1 M1 U1 A1 L1]. split; [constructor|]. intros TN. constructor; try assumption; try constructor.
  - destruct H as [T1 Q1 M1 U1 A1 L1]. split; [constructor|]. intros TN. constructor; try assumption; try constructor. exact (proj2 HI).
  - destruct H as [T1 Q1 M1 U1 A1 L1]. destruct (aggregateDiagnostics (n_diag n)) as [r d]. cbn [fst snd]. split; [repeat constructor|].
    intros TN; constructor; assumption.
  - destruct (n_enabled n) eqn:He.
    2:{ rewrite (cycle_disabled pq vt c _ _ _ _ He). split; [constructor|intros _; exact H]. }
    rewrite (cycle_eq pq vt c cur later lookup n He) in *.
    pose proof (working_sound cur later n H) as Hw.
    destruct (working pq vt c cur later n) as [n1 o1]. cbn [fst snd] in *.
    apply Forall_app in HT. destruct (Hw (proj1 HT)) as (S1 & O1). split.
    + apply Forall_app. split; [exact O1|]. apply Forall_app. split.
      * pose proof (visible_shown c (fun _ => True) n1 lookup I) as V. apply Forall_forall. intros x Hx. destruct x as [m|m|m|x|b| |m|f m|a b]; try exact I.
        exfalso. clear - Hx. unfold visible in Hx. apply in_app_or in Hx. destruct Hx as [Hx|Hx].
        { destruct (getFilteredOdometryMessage c n1); [|destruct Hx].
          apply in_app_or in Hx. destruct Hx as [Hx|Hx]; [destruct (validateFilterOutput _); [destruct Hx|destruct Hx as [Hx|[]]; discriminate Hx]|].
          apply in_app_or in Hx. destruct Hx as [Hx|Hx].
          - destruct (_ && _)%bool; [|destruct Hx]. unfold broadcast in Hx.
            destruct (_ =? _)%string; [destruct Hx as [Hx|[]]; discriminate Hx|].
            destruct (_ =? _)%string; [destruct lookup; [destruct Hx as [Hx|[]]; discriminate Hx|]|]; (destruct Hx as [Hx|[]] || destruct Hx); discriminate Hx.
          - destruct (corrected c n1); [destruct Hx|destruct Hx as [Hx|[]]; discriminate Hx]. }
        { destruct (_ && _)%bool; [|destruct Hx]. destruct (getFilteredAccelMessage c n1); [destruct Hx as [Hx|[]]; discriminate Hx|destruct Hx]. }
      * destruct (diag_due c cur n1); repeat constructor.
    + destruct S1 as [T1 Q1 M1 U1 A1 L1]. intros TN. constructor; try assumption.
      cbn [concluded n_meas_hist]. destruct (c_smooth c); [|exact M1].
      apply Forall_forall. intros x Hx. apply pop_front_while_incl in Hx. eapply Forall_forall; eassumption.
Qed.

Lemma unfused_told (o : list (output RScalar unit)) : fused o = [] -> Forall (told_output tr) o.
Proof.
  induction o as [|x o IH]; intros H; [constructor|]. destruct x as [m|m|m|x|b| |m|f m|a b]; cbn [fused] in H; try discriminate H;
    (constructor; [exact I|apply IH; exact H]).
Qed.
Lemma deliver_sound (n : node RScalar unit) i : sound n -> true_input tr c pq vt n i ->
  Forall (in_order tr) (snd (deliver pq vt c n i)) ->
  sound (fst (deliver pq vt c n i)) /\ Forall (true_output tr) (snd (deliver pq vt c n i)).
Proof.
  intros H HI HT. destruct i as [e s m|ev]; [|apply step_sound; assumption]. clear HT. cbn [true_input deliver] in *.
  assert (ST : stands (truth tr (stamp_of m)) (v3 0 0 0) n).
  { split; [|exact (so_acc n H)]. rewrite truth_part. exact (so_turn n H). }
  destruct (receive_reports pq c e s m _ _ Hpq HI n ST) as ((S1 & S2 & S3 & S4 & S5) & Q & F & SA).
  split.
  - destruct H as [(Hf & Hs & Ht) Hq Hm Hu Ha Hla]. constructor.
    + unfold true_node. rewrite S1, S3, S4. split; [exact Hf|]. split; assumption.
    + eapply Permutation_Forall; [apply Permutation_sym, Q|]. apply Forall_app. split; [exact Hq|].
      eapply Forall_impl; [|exact SA]. intros x (A & B). unfold good. rewrite A. exact B.
    + rewrite S2. exact Hm.
    + rewrite S1. exact Hu.
    + rewrite S5. exact Ha.
    + rewrite S5. exact Hla.
  - destruct (receive_expands pq vt c e s m n) as (es & R & Eq). rewrite Eq in *.
    apply (raw_true tr Htr eig pq c Hpq es R n (so_true n H)). apply unfused_told. exact F.
Qed.
Lemma respond_sound is : forall n : node RScalar unit, sound n -> along (true_input tr c pq vt) pq vt c n is ->
  Forall (in_order tr) (snd (respond pq vt c n is)) -> Forall (true_output tr) (snd (respond pq vt c n is)).
Proof.
  induction is as [|i is IH]; intros n H HA HT; [constructor|]. destruct HA as [HA1 HA2].
  rewrite (proj2 (respond_cons pq vt c EmptyString is n)) in *. cbn [fst snd] in *. apply Forall_app in HT. destruct HT as [T1 T2].
  destruct (deliver_sound n i H HA1 T1) as (D1 & D2). apply Forall_app. split; [exact D2|]. exact (IH _ D1 HA2 T2).
Qed.
End Node.

Lemma started_sound tr eig (pq : pqueue RScalar) (p : params RScalar) period now later g ang nothing ld n is :
  possible tr -> co_rate tr = 0 -> pq_ok pq ->
  start p period now later (@fb_init RScalar unit g tt) ang nothing = Ok (ld, n) -> p_use_control p = false ->
  part (fb_state (n_filter n)) 9 = v3 0 0 0 -> a_acc ang = v3 0 0 0 -> a_last_twist ang = v3 0 0 0 ->
  along (true_input tr (ld_config ld) pq (ekf_vtbl eig)) pq (ekf_vtbl eig) (ld_config ld) n is ->
  Forall (in_order tr) (snd (respond pq (ekf_vtbl eig) (ld_config ld) n is)) ->
  Forall (true_output tr) (snd (respond pq (ekf_vtbl eig) (ld_config ld) n is)).
Proof.
  intros Ht Hr Hq Hs Hu HP HA HL HI HT. pose proof (start_free _ _ _ _ _ _ _ _ _ Hs Hu) as F.
  destruct (start_fresh _ _ _ _ _ _ _ _ _ _ Hs) as (U & _).
  destruct U as (U1 & U2 & U3 & U4 & U5 & U6 & U8 & U9 & U10 & U11 & U12 & U7).
  assert (EA : a_acc (n_ang n) = a_acc ang /\ a_last_twist (n_ang n) = a_last_twist ang).
  { apply start_eq in Hs. destruct Hs as (Hs & ->). split; reflexivity. }
  destruct EA as (EA & EL).
  apply (respond_sound tr Ht Hr eig pq (ld_config ld) Hq is n); [|exact HI|exact HT].
  constructor.
  - split; [split; [exact F|rewrite U7; discriminate]|]. split; [rewrite U3; constructor|left; exact U12].
  - rewrite U1. constructor.
  - rewrite U2. constructor.
  - exact HP.
  - rewrite EA. exact HA.
  - rewrite EL. exact HL.
Qed.
