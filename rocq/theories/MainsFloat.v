(** * Constants that vanish in double precision (C102) *)

From Coq Require Import ZArith Floats List Bool Lia String Arith.
From Verif Require Import Scalar FloatScalar Mat FilterBase Tf StrMap Diagnostics RosFilter RosConfig RosPrepare Ukf Mains SpecConfig SpecNode SpecPrepare SpecMains
  NodeProofs NodeInv NodeFacts NodeTime PrepareProofs PrepareSeq NodeCarry NodeSmooth UkfProofs MainsFacts.
Import ListNotations.
Local Open Scope nat_scope.

Section Small.
Variable lm : LibM.
Let F := FScalar lm.

Lemma finite_spec (x : F) : @finite F x = match Prim2SF x with S754_zero _ | S754_finite _ _ _ => true | _ => false end.
Proof.
  unfold finite, F, FScalar. cbn [s_isnan s_isinf sc]. unfold PrimFloat.is_nan, PrimFloat.is_infinity.
  rewrite !FloatAxioms.eqb_spec, FloatAxioms.abs_spec. change (Prim2SF infinity) with (S754_infinity false).
  destruct (Prim2SF x) as [s|s| |s m e]; unfold SFeqb, SFabs, SFcompare; try reflexivity.
  - destruct s; reflexivity.
  - destruct s; rewrite ?Z.compare_refl, ?Pos.compare_cont_refl; reflexivity.
Qed.

Lemma inf_times (x y : F) : (exists s, Prim2SF x = S754_infinity s) -> @finite F (@s_mul F x y) = false.
Proof.
  intros (s & E). rewrite finite_spec. unfold F, FScalar. cbn [s_mul sc]. rewrite FloatAxioms.mul_spec, E.
  unfold SF64mul, SFmul. destruct (Prim2SF y); reflexivity.
Qed.
Lemma add_l (x y : F) : @finite F x = false -> @finite F (@s_add F x y) = false.
Proof.
  rewrite !finite_spec. unfold F, FScalar. cbn [s_add sc]. rewrite FloatAxioms.add_spec. unfold SF64add, SFadd.
  destruct (Prim2SF x) as [s|s| |s m e]; intros H; try discriminate; destruct (Prim2SF y) as [t|t| |t m' e']; try reflexivity.
  destruct (Bool.eqb s t); reflexivity.
Qed.
Lemma add_r (x y : F) : @finite F y = false -> @finite F (@s_add F x y) = false.
Proof.
  rewrite !finite_spec. unfold F, FScalar. cbn [s_add sc]. rewrite FloatAxioms.add_spec. unfold SF64add, SFadd.
  destruct (Prim2SF y) as [s|s| |s m e]; intros H; try discriminate; destruct (Prim2SF x) as [t|t| |t m' e']; try reflexivity.
  destruct (Bool.eqb t s); reflexivity.
Qed.

Lemma sum_not_finite n (f : nat -> F) : @finite F (f 0%nat) = false -> (0 < n)%nat -> @finite F (sumn n f) = false.
Proof.
  intros H. induction n as [|n IH]; [lia|]. intros _. cbn [sumn]. destruct n as [|n]; [apply add_r; exact H|].
  apply add_l, IH. lia.
Qed.
End Small.

Section Cycle.
Context {K : Scalar} {E : Type}.
Variable pq : pqueue K.
Variable vt : vtbl K E.
Variable c : config K.
Hypothesis Hpq : pq_ok pq.

Lemma visible_no_predict (n : node K E) lookup r d : ~ In (OutPredict r d) (visible c n lookup).
Proof.
  unfold visible, getFilteredOdometryMessage, getFilteredAccelMessage. intros H.
  destruct (fb_initialized (n_filter n)).
  2:{ cbn in H. destruct (_ && _)%bool in H; destruct H. }
  repeat (apply in_app_or in H; destruct H as [H|H]).
  - destruct (validateFilterOutput _) in H; [destruct H|destruct H as [H|[]]; discriminate].
  - destruct (_ && _)%bool in H; [|destruct H]. unfold broadcast in H.
    destruct (_ =? _)%string in H; [destruct H as [H|[]]; discriminate|]. destruct (_ =? _)%string in H; [|destruct H].
    destruct lookup; [destruct H as [H|[]]; discriminate|destruct H].
  - destruct (corrected c n) in H; [destruct H|destruct H as [H|[]]; discriminate].
  - destruct (_ && _)%bool in H; [destruct H as [H|[]]; discriminate|destruct H].
Qed.

Lemma loop_no_predict fuel : forall now restored n n' o r d,
  integrate_loop pq vt c fuel now restored n = (n', o) -> ~ In (OutPredict r d) o.
Proof.
  induction fuel as [|fuel IH]; intros now restored n n' o r d Hrun.
  - cbn in Hrun. injection Hrun as <- <-. intros [].
  - rewrite loop_step in Hrun. destruct (pq_pop pq (n_queue n)) as [[m rest]|].
    2:{ injection Hrun as <- <-. intros []. }
    destruct (Z.ltb now (m_time m)). { injection Hrun as <- <-. intros []. }
    destruct (integrate_loop pq vt c fuel now (loop_count c restored) (loop_node pq vt c restored n m rest))
      as [n3 o3] eqn:Hrec. injection Hrun as <- <-. intros [H|H]; [discriminate|]. exact (IH _ _ _ _ _ _ _ Hrec H).
Qed.

(** A cycle that predicts to its own time publishes what the prediction left. *)
Lemma predicting_cycle (n : node K E) cur later lookup : predicting (snd (node_step pq vt c n (EvCycle cur later lookup))) ->
  n_enabled n = true /\ n_toggled n = true /\
  exists n1, fst (node_step pq vt c n (EvCycle cur later lookup)) = concluded c cur (differentiateMeasurements cur (project vt cur n1)) /\
    n1 = fst (catch_up pq vt c cur n) /\ fb_initialized (n_filter n1) = true /\
    exists a b, snd (node_step pq vt c n (EvCycle cur later lookup)) = a ++ visible c (differentiateMeasurements cur (project vt cur n1)) lookup ++ b /\
      (forall o, In o a -> match o with OutFused _ _ | OutPredict _ _ => True | _ => False end) /\
      (forall o, In o b -> match o with OutReport _ => True | _ => False end).
Proof.
  cbn [node_step]. intros H.
  destruct (n_enabled n) eqn:En; [|exfalso; unfold periodicUpdate in H; rewrite En in H; destruct H as (r & d & [])].
  split; [reflexivity|]. rewrite (cycle_eq pq vt c cur later lookup n En) in H |- *. unfold working in H |- *.
  assert (NR : forall (x : node K E) r d, ~ In (@OutPredict K E r d) (if diag_due c cur x then [OutReport (fst (aggregateDiagnostics (n_diag x)))] else [])).
  { intros x r d. destruct (diag_due c cur x); [intros [X|[]]; discriminate|intros []]. }
  destruct (n_toggled n).
  2:{ exfalso. cbn [fst snd] in H. destruct H as (r & d & H). apply in_app_or in H. destruct H as [[]|H].
      apply in_app_or in H. destruct H as [H|H]; [exact (visible_no_predict _ _ _ _ H)|exact (NR _ _ _ H)]. }
  split; [reflexivity|]. rewrite (integrate_eq pq vt c Hpq) in H |- *.
  assert (NC : forall r d, ~ In (OutPredict r d) (snd (catch_up pq vt c cur n))).
  { intros r d. unfold catch_up. destruct (n_queue n); [intros []|]. destruct (revert_if_lagged pq c n) as [re n0].
    destruct (integrate_loop pq vt c _ cur re n0) as [n' o'] eqn:El. exact (loop_no_predict _ _ _ _ _ _ _ _ El). }
  assert (FC : forall o, In o (snd (catch_up pq vt c cur n)) -> match o with OutFused _ _ | OutPredict _ _ => True | _ => False end).
  { clear. unfold catch_up. destruct (n_queue n) as [|q0 q1]; [intros o []|]. destruct (revert_if_lagged pq c n) as [re n0].
    generalize (List.length (n_queue n0)) as fuel. intros fuel. revert re n0.
    induction fuel as [|fuel IH]; intros re n0 o; [intros []|]. rewrite loop_step. destruct (pq_pop pq (n_queue n0)) as [[m rest]|]; [|intros []].
    destruct (Z.ltb cur (m_time m)); [intros []|]. specialize (IH (loop_count c re) (loop_node pq vt c re n0 m rest) o).
    destruct (integrate_loop pq vt c fuel cur _ _) as [n3 o3]. cbn [snd] in *. intros [<-|Hi]; [exact I|exact (IH Hi)]. }
  destruct (catch_up pq vt c cur n) as [n1 o1]. cbn [fst snd] in *.
  destruct (fb_initialized (n_filter n1)) eqn:Ei; cbn [andb] in H |- *.
  2:{ exfalso. destruct H as (r & d & H). cbn [snd] in H. apply in_app_or in H. destruct H as [H|H]; [exact (NC _ _ H)|].
      apply in_app_or in H. destruct H as [H|H]; [exact (visible_no_predict _ _ _ _ H)|exact (NR _ _ _ H)]. }
  destruct (projects c cur n).
  2:{ exfalso. destruct H as (r & d & H). cbn [snd] in H. apply in_app_or in H. destruct H as [H|H]; [exact (NC _ _ H)|].
      apply in_app_or in H. destruct H as [H|H]; [exact (visible_no_predict _ _ _ _ H)|exact (NR _ _ _ H)]. }
  exists n1. cbn [fst snd]. split; [reflexivity|]. split; [reflexivity|]. split; [exact Ei|].
  eexists _, _. split; [reflexivity|]. split.
  - intros o Ho. apply in_app_or in Ho. destruct Ho as [Ho|[<-|[]]]; [exact (FC o Ho)|exact I].
  - intros o Ho. destruct (diag_due _ _ _) in Ho; [destruct Ho as [<-|[]]; exact I|destruct Ho].
Qed.
End Cycle.

Lemma other_unwrapped {K : Scalar} (x : vec K) k : is_angle k = false -> wrap_angles x k = x k.
Proof.
  intros H. unfold is_angle in H. apply orb_false_iff in H. destruct H as (H & H3). apply orb_false_iff in H. destruct H as (H1 & H2).
  unfold wrap_angles, vset. rewrite H1, H2, H3. reflexivity.
Qed.

Section Lost.
Variable lm : LibM.
Let F := FScalar lm.

Lemma infinite_weight (alpha kappa : float) : lm_ofZ lm 15 = 15%float ->
  (alpha * alpha * (15 + kappa) - 15)%float = (-15)%float ->
  exists s, Prim2SF (@s_div F (@s_sub F (@s_mul F (@s_mul F alpha alpha) (@s_add F (@s_ofZ F 15) kappa)) (@s_ofZ F 15))
     (@s_add F (@s_ofZ F 15) (@s_sub F (@s_mul F (@s_mul F alpha alpha) (@s_add F (@s_ofZ F 15) kappa)) (@s_ofZ F 15)))) = S754_infinity s.
Proof.
  intros H15 HL. unfold F, FScalar. cbn [s_div s_sub s_mul s_add s_ofZ sc]. rewrite !H15, !HL. exists true. vm_compute. reflexivity.
Qed.

Lemma lost_predict eig alpha kappa beta (s : ukf F) r d k : lm_ofZ lm 15 = 15%float ->
  (alpha * alpha * (15 + kappa) - 15)%float = (-15)%float -> @weights_from F alpha kappa beta (fb_ext s) -> is_angle k = false ->
  @finite F (fb_state (ukf_predict eig s r d) k) = false.
Proof.
  intros H15 HL (_ & W & _) Hk. destruct (infinite_weight alpha kappa H15 HL) as (si & HI).
  destruct (ukf_predict_state_P eig s r d) as [E1 _]. rewrite E1, other_unwrapped by exact Hk. unfold sigma_mean. rewrite Hk.
  unfold wsum. apply sum_not_finite; [|lia]. apply inf_times. exists si. rewrite <- HI. f_equal. exact W.
Qed.
End Lost.

(** A prediction that leaves no finite position, speed or rate shows in the cycle. *)
Section Shown.
Context {K : Scalar} {E : Type}.
Variable pq : pqueue K.
Variable vt : vtbl K E.
Variable c : config K.
Variable P : E -> Prop.
Hypothesis Hpq : pq_ok pq.
Hypothesis H_init : forall f r d, fb_initialized (v_predict vt f r d) = fb_initialized f.
Hypothesis H_predict : forall f r d, P (fb_ext f) -> P (fb_ext (v_predict vt f r d)).
Hypothesis H_correct : forall f m, P (fb_ext f) -> P (fb_ext (v_correct vt f m)).
Hypothesis H_lost : forall f r d k, P (fb_ext f) -> is_angle k = false -> finite (fb_state (v_predict vt f r d) k) = false.

Lemma lost_cycle n cur later lookup : P (fb_ext (n_filter n)) ->
  let os := snd (node_step pq vt c n (EvCycle cur later lookup)) in
  predicting os -> In OutNonFinite os /\
  forall m, In (OutOdom m) os ->
    Forall (fun x => finite x = false)
      [v3x (o_position m); v3y (o_position m); v3z (o_position m);
       v3x (o_linear m); v3y (o_linear m); v3z (o_linear m); v3x (o_angular m); v3y (o_angular m); v3z (o_angular m)].
Proof.
  intros HW. cbv zeta. intros HP. apply (predicting_cycle pq vt c Hpq) in HP.
  destruct HP as (_ & _ & n1 & _ & En1 & Ei & a & b & -> & Ha & Hb).
  assert (HW1 : P (fb_ext (n_filter n1))).
  { subst n1. apply (catch_up_keeps pq vt c P Hpq H_predict H_correct). exact HW. }
  set (n2 := differentiateMeasurements cur (project vt cur n1)).
  assert (F2 : n_filter n2 = n_filter (project vt cur n1)) by apply (diff_fields cur).
  assert (S2 : forall k, is_angle k = false -> finite (fb_state (n_filter n2) k) = false).
  { intros k Hk. rewrite F2. unfold project. cbn [n_filter with_filter fb_state set_last_time]. apply H_lost; assumption. }
  assert (I2 : fb_initialized (n_filter n2) = true).
  { rewrite F2. unfold project. cbn [n_filter with_filter fb_initialized set_last_time]. rewrite H_init. exact Ei. }
  clearbody n2. clear F2. unfold visible, getFilteredOdometryMessage. rewrite I2.
  set (o := mkOdom _ _ _ _ _ _ _ _ _ ).
  assert (HO : validateFilterOutput o = false).
  { unfold validateFilterOutput, o. cbn [forallb o_position v3x]. rewrite (S2 0%nat eq_refl). reflexivity. }
  split.
  - apply in_or_app. right. apply in_or_app. left. apply in_or_app. left. rewrite HO. apply in_or_app. left. left. reflexivity.
  - intros m Hm. assert (m = o).
    { apply in_app_or in Hm. destruct Hm as [Hm|Hm]; [destruct (Ha _ Hm)|]. apply in_app_or in Hm. destruct Hm as [Hm|Hm]; [|destruct (Hb _ Hm)].
      apply in_app_or in Hm. destruct Hm as [Hm|Hm].
      - rewrite HO in Hm. apply in_app_or in Hm. destruct Hm as [[Hm|[]]|Hm]; [discriminate|]. apply in_app_or in Hm. destruct Hm as [Hm|Hm].
        + destruct (_ && _)%bool in Hm; [|destruct Hm]. unfold broadcast in Hm.
          destruct (_ =? _)%string in Hm; [destruct Hm as [Hm|[]]; discriminate|]. destruct (_ =? _)%string in Hm; [|destruct Hm].
          destruct lookup; [destruct Hm as [Hm|[]]; discriminate|destruct Hm].
        + destruct (corrected _ _) in Hm; [destruct Hm|]. destruct Hm as [Hm|[]]. injection Hm as <-. reflexivity.
      - destruct (_ && _)%bool in Hm; [|destruct Hm]. unfold getFilteredAccelMessage in Hm. rewrite I2 in Hm. destruct Hm as [Hm|[]]; discriminate. }
    subst m. unfold o. cbn [o_position o_linear o_angular v3x v3y v3z].
    repeat (constructor; [apply S2; reflexivity|]). constructor.
Qed.
End Shown.

Lemma main_lost lm eig (pq : pqueue (FScalar lm)) (alpha kappa : float) beta p period now later g gs gq gl ang nothing ld n is cur later' lookup :
  pq_ok pq -> lm_ofZ lm 15 = 15%float -> (alpha * alpha * (15 + kappa) - 15)%float = (-15)%float ->
  @ukf_main (FScalar lm) (Some alpha) (Some kappa) beta p period now later g gs gq gl ang nothing = Ok (ld, n) ->
  let os := snd (node_step pq (ukf_vtbl eig) (ld_config ld) (fst (respond pq (ukf_vtbl eig) (ld_config ld) n is)) (EvCycle cur later' lookup)) in
  predicting os -> In OutNonFinite os /\
  forall m, In (OutOdom m) os ->
    Forall (fun x => @finite (FScalar lm) x = false)
      [v3x (o_position m); v3y (o_position m); v3z (o_position m);
       v3x (o_linear m); v3y (o_linear m); v3z (o_linear m); v3x (o_angular m); v3y (o_angular m); v3z (o_angular m)].
Proof.
  intros Hq H15 HL Hs. pose proof (main_weights eig pq _ _ _ _ _ _ _ _ _ _ _ _ _ _ _ is Hq Hs) as HW. destruct HW as (HW & _).
  set (n0 := fst (respond pq (ukf_vtbl eig) (ld_config ld) n is)) in *. clearbody n0.
  cbn [declare_parameter] in HW. set (be := declare_parameter beta _) in HW. clearbody be.
  apply (lost_cycle pq (ukf_vtbl eig) (ld_config ld) (@weights_from (FScalar lm) alpha kappa be) Hq).
  - intros f r d. exact (proj2 (proj1 (ukf_neutral eig) f r d)).
  - intros f r d. exact (weights_predict eig _ _ _ f r d).
  - intros f m. exact (weights_correct eig _ _ _ f m).
  - intros f r d k H Hk. exact (lost_predict lm eig alpha kappa be f r d k H15 HL H Hk).
  - exact HW.
Qed.
