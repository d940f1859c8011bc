(** * What the main programs set up stays so (C102) *)

From Coq Require Import ZArith List Permutation Bool Lia String Arith.
From Verif Require Import Scalar Mat FilterBase Tf StrMap Diagnostics RosFilter RosConfig RosPrepare Ukf Mains SpecConfig SpecNode SpecPrepare SpecMains
  NodeProofs NodeInv NodeFacts NodeTime PrepareProofs PrepareSeq NodeCarry ConfigProofs ConfigFacts StartFacts UkfProofs.
Import ListNotations.
Local Open Scope Z_scope.

(** ** A predicate on the derived filter's own members along executions *)
Section Keep.
Context {K : Scalar} {E : Type}.
Variable pq : pqueue K.
Variable vt : vtbl K E.
Variable c : config K.
Variable P : E -> Prop.
Hypothesis Hpq : pq_ok pq.
Hypothesis H_predict : forall f r d, P (fb_ext f) -> P (fb_ext (v_predict vt f r d)).
Hypothesis H_correct : forall f m, P (fb_ext f) -> P (fb_ext (v_correct vt f m)).

Let good (n : node K E) : Prop := P (fb_ext (n_filter n)).
Let fine : output K E -> Prop := fusing (fun f => P (fb_ext f)).

Lemma process_keeps f m : P (fb_ext f) -> P (fb_ext (processMeasurement vt f m)).
Proof.
  intros H. unfold processMeasurement. destruct (fb_initialized f); [|exact H].
  destruct (Z.geb _ 0); cbn; apply H_correct; (destruct (Z.gtb _ 0); [apply H_predict|]); exact H.
Qed.

Lemma loop_keeps fuel : forall now restored n n' o, good n ->
  integrate_loop pq vt c fuel now restored n = (n', o) -> good n' /\ Forall fine o.
Proof.
  induction fuel as [|fuel IH]; intros now restored n n' o H Hrun.
  - cbn in Hrun. injection Hrun as <- <-. split; [exact H|constructor].
  - rewrite loop_step in Hrun. destruct (pq_pop pq (n_queue n)) as [[m rest]|].
    2:{ injection Hrun as <- <-. split; [exact H|constructor]. }
    destruct (now <? m_time m). { injection Hrun as <- <-. split; [exact H|constructor]. }
    destruct (integrate_loop pq vt c fuel now (loop_count c restored) (loop_node pq vt c restored n m rest))
      as [n3 o3] eqn:Hrec. injection Hrun as <- <-.
    assert (Hf1 : P (fb_ext (loop_filter c restored (n_filter n) m))).
    { unfold loop_filter. destruct (loop_control c restored); exact H. }
    assert (H2 : good (loop_node pq vt c restored n m rest)) by (apply process_keeps, Hf1).
    destruct (IH _ _ _ _ _ H2 Hrec) as [I1 I2]. split; [exact I1|]. constructor; [exact Hf1|exact I2].
Qed.

Lemma revert_keeps (n : node K E) : good n -> good (snd (revert_if_lagged pq c n)).
Proof.
  intros H. unfold revert_if_lagged. destruct (pq_pop pq (n_queue n)) as [[first r]|]; [|exact H].
  destruct (c_smooth c && _)%bool; [|exact H].
  pose proof (revert_cases pq Hpq n (m_time first - 1)) as Hr.
  destruct (revertTo pq n (m_time first - 1)) as [ok n0]. cbn [snd].
  assert (Hgo : forall s kept, revert_to_snapshot n n0 (m_time first - 1) s kept -> good n0).
  { intros s kept (F1 & _). unfold good. rewrite F1. exact H. }
  destruct Hr as [(_ & _ & ->)|[(pre & s & post & _ & _ & _ & _ & Hrs)|(s & post & _ & _ & _ & Hrs)]].
  - exact H.
  - exact (Hgo _ _ Hrs).
  - exact (Hgo _ _ Hrs).
Qed.

Lemma catch_up_keeps now n : good n -> good (fst (catch_up pq vt c now n)) /\ Forall fine (snd (catch_up pq vt c now n)).
Proof.
  intros H. unfold catch_up. destruct (n_queue n); [split; [exact H|constructor]|].
  pose proof (revert_keeps n H) as Hr. destruct (revert_if_lagged pq c n) as [restored n0]. cbn in Hr.
  destruct (integrate_loop pq vt c (List.length (n_queue n0)) now restored n0) as [n1 o1] eqn:Hl.
  exact (loop_keeps _ _ _ _ _ _ Hr Hl).
Qed.

Lemma integrate_keeps now n : good n ->
  good (fst (integrateMeasurements pq vt c now n)) /\ Forall fine (snd (integrateMeasurements pq vt c now n)).
Proof.
  intros H. rewrite (integrate_eq pq vt c Hpq). destruct (catch_up_keeps now n H) as (H1 & H2).
  destruct (catch_up pq vt c now n) as [n1 o1]. cbn [fst snd] in *.
  destruct (_ && _)%bool; [|split; assumption]. cbn [fst snd]. split.
  - unfold good. cbn. apply H_predict, H1.
  - apply Forall_app. split; [exact H2|]. constructor; [exact I|constructor].
Qed.

Lemma working_keeps cur later n : good n ->
  good (fst (working pq vt c cur later n)) /\ Forall fine (snd (working pq vt c cur later n)).
Proof.
  intros H. unfold working. destruct (n_toggled n).
  - destruct (integrate_keeps cur n H) as (H3 & H4). destruct (integrateMeasurements pq vt c cur n) as [n0 o]. cbn [fst snd] in *.
    split; [|exact H4]. unfold good. rewrite (proj1 (diff_fields cur n0)). exact H3.
  - cbn [fst snd]. split; [|constructor]. destruct (fb_initialized (n_filter n)); exact H.
Qed.

Lemma visible_fine (n : node K E) lookup : Forall fine (visible c n lookup).
Proof.
  unfold visible, getFilteredOdometryMessage, getFilteredAccelMessage. destruct (fb_initialized (n_filter n)).
  2:{ cbn. destruct (_ && _)%bool; constructor. }
  apply Forall_app. split.
  - apply Forall_app. split; [destruct (validateFilterOutput _); repeat constructor|]. apply Forall_app. split.
    + destruct (_ && _)%bool; [|constructor]. unfold broadcast.
      destruct (_ =? _)%string; [repeat constructor|]. destruct (_ =? _)%string; [destruct lookup|]; repeat constructor.
    + destruct (corrected c n); repeat constructor.
  - destruct (_ && _)%bool; repeat constructor.
Qed.

Lemma step_keeps n e : good n -> good (fst (node_step pq vt c n e)) /\ Forall fine (snd (node_step pq vt c n e)).
Proof.
  intros H. destruct e as [w topic stamp u th prep|fr ctl stamp|on| | |stamp prep now| |cur later lookup]; cbn [node_step].
  - unfold sensorCallback. destruct (_ >=? _); [split; [|constructor]; destruct w; exact H|].
    set (n1 := if sm_mem _ _ then n else _).
    assert (H1 : good n1) by (unfold n1; destruct (sm_mem _ _); exact H). clearbody n1.
    destruct (sm_find (n_last_msg n1) topic); [|split; [exact H1|constructor]].
    destruct (_ <=? _); [|split; [exact H1|constructor]].
    set (r := prep n1 u vzero mzero). clearbody r. destruct (pr_ok r); [|split; [exact H1|constructor]].
    cbn [enqueueMeasurement fst snd]. split; [exact H1|repeat constructor].
  - split; [|constructor]. unfold controlStampedCallback. destruct (_ || _)%bool; exact H.
  - unfold toggleFilterProcessingCallback. destruct (Bool.eqb _ _); (split; [exact H|repeat constructor]).
  - unfold enableFilterSrvCallback. destruct (n_enabled n); (split; [exact H|repeat constructor]).
  - split; [exact H|constructor].
  - split; [exact H|constructor].
  - destruct (aggregateDiagnostics (n_diag n)) as [r d]. split; [exact H|repeat constructor].
  - destruct (n_enabled n) eqn:En; [|unfold periodicUpdate; rewrite En; split; [exact H|constructor]].
    rewrite (cycle_eq pq vt c cur later lookup n En).
    destruct (working_keeps cur later n H) as (H1 & H2).
    destruct (working pq vt c cur later n) as [n1 o1]. cbn [fst snd] in *. split; [exact H1|].
    apply Forall_app. split; [exact H2|]. apply Forall_app. split; [apply visible_fine|].
    destruct (diag_due c cur n1); repeat constructor.
Qed.

Lemma run_keeps es : forall n, good n -> good (fst (node_run pq vt c n es)) /\ Forall fine (snd (node_run pq vt c n es)).
Proof.
  induction es as [|e es IH]; intros n H; [split; [exact H|constructor]|]. cbn [node_run].
  destruct (step_keeps n e H) as (H1 & H2). destruct (node_step pq vt c n e) as [n1 o1]. cbn [fst snd] in *.
  destruct (IH n1 H1) as (H3 & H4). destruct (node_run pq vt c n1 es) as [n2 o2]. cbn [fst snd] in *.
  split; [exact H3|]. apply Forall_app. split; assumption.
Qed.

Lemma respond_keeps is n : P (fb_ext (n_filter n)) -> P (fb_ext (n_filter (fst (respond pq vt c n is)))) /\
  Forall (fusing (fun f => P (fb_ext f))) (snd (respond pq vt c n is)).
Proof.
  intros H. destruct (respond_expands pq vt c is n) as (ess & _ & ->). apply run_keeps. exact H.
Qed.
End Keep.

(** ** Weights *)
Section Weights.
Context {K : Scalar} (eig : Eigen K).

Lemma start_ext {E} (p : params K) period now later g (e : E) ang nothing ld n :
  start p period now later (fb_init g e) ang nothing = Ok (ld, n) -> fb_ext (n_filter n) = e.
Proof.
  intros H. apply start_eq in H. destruct H as (H & ->). rewrite loadParams_eq in H.
  apply obind_Ok in H. destruct H as (l & _ & H). apply obind_Ok in H. destruct H as (Q & HQ & H).
  apply obind_Ok in H. destruct H as (P & HP & H). cbv zeta in H. injection H as <-. cbv zeta.
  cbn [n_filter with_diag node_init ld_filter ld_config c_Q c_P].
  set (u := (cp_use (load_control p) && negb (Z.eqb (accumulate (l_control l)) 0))%bool). clearbody u.
  destruct P, Q, u; cbn; try reflexivity;
    (destruct (p_initial_state p) as [w|]; [match goal with |- context [if ?b then _ else _] => destruct b end|]; reflexivity).
Qed.

Lemma weights_predict a k b (s : ukf K) r d : weights_from a k b (fb_ext s) -> weights_from a k b (fb_ext (ukf_predict eig s r d)).
Proof. intros H. unfold weights_from. rewrite ukf_predict_ext. exact H. Qed.
Lemma weights_correct a k b (s : ukf K) m : weights_from a k b (fb_ext s) -> weights_from a k b (fb_ext (ukf_correct eig s m)).
Proof.
  intros H. unfold ukf_correct. cbv zeta.
  destruct (u_uncorrected (fb_ext s)), (checkMahalanobisThreshold _ _ _ _); exact H.
Qed.
Lemma weights_set a k b (s : ukf K) : weights_from a k b (fb_ext (setConstants s a k b)).
Proof.
  unfold weights_from, setConstants, ukf_sw, ukf_cw, ukf_lambda. cbn [fb_ext set_ext u_lambda u_sw u_cw]. cbn [Nat.eqb].
  repeat split; (destruct i as [|i]; [lia|reflexivity]).
Qed.

Lemma main_weights (pq : pqueue K) alpha kappa beta p period now later g gs gq gl ang nothing ld n is : pq_ok pq ->
  ukf_main alpha kappa beta p period now later g gs gq gl ang nothing = Ok (ld, n) ->
  let w := weights_from (declare_parameter alpha (lit 1 3)) (declare_parameter kappa (s_ofZ 0)) (declare_parameter beta (s_ofZ 2)) in
  w (fb_ext (n_filter (fst (respond pq (ukf_vtbl eig) (ld_config ld) n is)))) /\
  Forall (fusing (fun f => w (fb_ext f))) (snd (respond pq (ukf_vtbl eig) (ld_config ld) n is)).
Proof.
  intros Hq H w. unfold ukf_main in H. cbv zeta in H. set (f0 := setConstants _ _ _ _) in H.
  assert (E0 : f0 = fb_init g (fb_ext f0)) by reflexivity. rewrite E0 in H. apply start_ext in H.
  apply respond_keeps; [exact Hq| | |].
  - intros f r d. apply weights_predict.
  - intros f m. apply weights_correct.
  - rewrite H. apply weights_set.
Qed.
End Weights.
