(** * Angle normalisation (C04) and measurement time semantics (C05) *)

From Coq Require Import Reals ZArith List Bool Arith Lra Lia.
From Verif Require Import Scalar Mat FilterBase FilterOps Ekf EkfFacts Ukf SpecLin SpecFilter RBridge.
Import ListNotations.
Local Open Scope R_scope.

Lemma Int_part_bounds x : IZR (Int_part x) <= x < IZR (Int_part x) + 1.
Proof. pose proof (base_Int_part x). lra. Qed.

Lemma Rfmod_range x y : 0 < y ->
  (0 <= x -> 0 <= Rfmod x y < y) /\ (x < 0 -> - y < Rfmod x y <= 0).
Proof.
  intros Hy. unfold Rfmod, Rtrunc.
  assert (E : x = y * (x / y)) by (field; lra).
  split; intros Hx.
  - assert (0 <= x / y) by (apply Rle_mult_inv_pos; lra).
    destruct (Rle_dec 0 (x / y)); [|contradiction].
    pose proof (Int_part_bounds (x / y)) as [H1 H2]. split; nra.
  - assert (x / y < 0).
    { apply Ropp_lt_cancel. rewrite Ropp_0. unfold Rdiv. rewrite Ropp_mult_distr_l.
      apply Rmult_lt_0_compat; [lra|apply Rinv_0_lt_compat; lra]. }
    destruct (Rle_dec 0 (x / y)); [lra|].
    rewrite opp_IZR.
    pose proof (Int_part_bounds (- (x / y))) as [H1 H2]. split; nra.
Qed.

Lemma normalize_angle_R a :
  @normalize_angle RScalar a =
  if Rleb (Rfmod (a + PI) (2 * PI)) 0
  then Rfmod (a + PI) (2 * PI) + PI else Rfmod (a + PI) (2 * PI) - PI.
Proof. reflexivity. Qed.

Lemma normalize_angle_spec a : wrapped a (@normalize_angle RScalar a).
Proof.
  rewrite normalize_angle_R.
  pose proof PI_RGT_0.
  destruct (Rfmod_range (a + PI) (2 * PI)) as [H1 H2]; [lra|].
  assert (HR : - (2 * PI) < Rfmod (a + PI) (2 * PI) < 2 * PI).
  { destruct (Rle_dec 0 (a + PI)) as [h|h]; [specialize (H1 h)|specialize (H2 (Rnot_le_lt _ _ h))]; lra. }
  set (k := Rtrunc ((a + PI) / (2 * PI))).
  assert (E : Rfmod (a + PI) (2 * PI) = a + PI - 2 * PI * IZR k) by reflexivity.
  destruct (Rleb (Rfmod (a + PI) (2 * PI)) 0) eqn:El.
  - apply Rleb_true in El. split.
    + lra.
    + exists (1 - k)%Z. rewrite E, minus_IZR. ring.
  - apply Rleb_false in El. split.
    + lra.
    + exists (- k)%Z. rewrite E, opp_IZR. ring.
Qed.

(** The wrapped value is unique. *)
Lemma wrapped_unique a b c : wrapped a b -> wrapped a c -> b = c.
Proof.
  intros [Hb [k Ek]] [Hc [l El]]. pose proof PI_RGT_0.
  assert (IZR (k - l) * (2 * PI) = b - c) by (rewrite minus_IZR; lra).
  assert (-1 < IZR (k - l) < 1) as [h1 h2] by (split; nra).
  apply lt_IZR in h1. apply lt_IZR in h2.
  assert (k - l = 0)%Z by lia. rewrite H1 in H0. lra.
Qed.

Lemma wrapped_id a : - PI < a <= PI -> wrapped a a.
Proof. intros; split; auto. exists 0%Z. ring. Qed.

Lemma normalize_angle_id a : - PI < a <= PI -> @normalize_angle RScalar a = a.
Proof.
  intros. eapply wrapped_unique; [apply normalize_angle_spec|apply wrapped_id; assumption].
Qed.

Lemma normalize_angle_congr a b k :
  b = a + IZR k * (2 * PI) -> @normalize_angle RScalar a = @normalize_angle RScalar b.
Proof.
  intros ->. destruct (normalize_angle_spec (a + IZR k * (2 * PI))) as [H [j E]].
  eapply wrapped_unique; [apply normalize_angle_spec|]. split; auto.
  exists (k + j)%Z. rewrite E, plus_IZR. ring.
Qed.

Lemma wrap_angles_entry (x : rvec) k :
  @wrap_angles RScalar x k = if is_angle k then @normalize_angle RScalar (x k) else x k.
Proof.
  unfold wrap_angles, vset, is_angle.
  destruct (Nat.eqb_spec k 5); [subst; reflexivity|].
  destruct (Nat.eqb_spec k 4); [subst; reflexivity|].
  destruct (Nat.eqb_spec k 3); [subst; reflexivity|]. reflexivity.
Qed.

Lemma wrap_angles_normalised (x : rvec) : angles_normalised (@wrap_angles RScalar x).
Proof.
  unfold angles_normalised. rewrite !wrap_angles_entry. cbn [is_angle Nat.eqb orb].
  repeat split; apply (normalize_angle_spec _).
Qed.

Lemma wrap_angles_id (x : rvec) : angles_normalised x -> forall k, @wrap_angles RScalar x k = x k.
Proof.
  intros (H3 & H4 & H5) k. rewrite wrap_angles_entry. unfold is_angle.
  destruct (Nat.eqb_spec k 3); [subst; apply normalize_angle_id; assumption|].
  destruct (Nat.eqb_spec k 4); [subst; apply normalize_angle_id; assumption|].
  destruct (Nat.eqb_spec k 5); [subst; apply normalize_angle_id; assumption|]. reflexivity.
Qed.

(** ** Angles over histories *)

(** An operation that does not write raw angles: predict always normalises;
    the first measurement and setState copy their argument. *)
Definition op_angles_ok {E} (s : fb RScalar E) (o : fb_op RScalar) : Prop :=
  match o with
  | OpProcess m => fb_initialized s = false ->
      forall i, (i = 3 \/ i = 4 \/ i = 5)%nat -> nth i (m_upd m) false = true ->
        - PI < m_value m i <= PI
  | OpSetState x => angles_normalised x
  | _ => True
  end.
Fixpoint run_angles_ok {E} (vt : vtbl RScalar E) (s : fb RScalar E) (ops : list (fb_op RScalar)) : Prop :=
  match ops with
  | [] => True
  | o :: r => op_angles_ok s o /\ run_angles_ok vt (fb_exec vt s o) r
  end.

Lemma init_from_state {K E} (s : fb K E) m t i :
  fb_state (set_last_time (init_from s m) t) i =
  if (Nat.ltb i (length (m_upd m)) && nth i (m_upd m) false)%bool then m_value m i else fb_state s i.
Proof. reflexivity. Qed.

Section Gen.
Context {E : Type} (vt : vtbl RScalar E).
Hypothesis Hpred : forall s r d, angles_normalised (fb_state (v_predict vt s r d)).
Hypothesis Hcorr : forall (s : fb RScalar E) m, angles_normalised (fb_state s) -> angles_normalised (fb_state (v_correct vt s m)).

Lemma process_angles (s : fb RScalar E) m :
  angles_normalised (fb_state s) -> op_angles_ok s (OpProcess m) ->
  angles_normalised (fb_state (processMeasurement vt s m)).
Proof.
  intros Ha Hok. unfold processMeasurement.
  destruct (fb_initialized s) eqn:Ei.
  - cbv zeta. match goal with |- context [v_correct vt ?x m] => set (s1 := x) end.
    assert (H1 : angles_normalised (fb_state s1)).
    { unfold s1. destruct (Z.gtb _ _); [|assumption]. apply Hpred. }
    specialize (Hcorr s1 m H1). destruct (Z.geb _ _); assumption.
  - cbn in Hok. specialize (Hok Ei). destruct Ha as (H3 & H4 & H5).
    assert (G : forall i, (i = 3 \/ i = 4 \/ i = 5)%nat -> - PI < fb_state s i <= PI ->
      - PI < fb_state (set_last_time (init_from s m) (m_time m)) i <= PI).
    { intros i Hi Hs. rewrite init_from_state.
      destruct (Nat.ltb i (length (m_upd m))); [|exact Hs].
      destruct (nth i (m_upd m) false) eqn:Eb; [|exact Hs].
      exact (Hok i Hi Eb). }
    split; [|split]; apply G; auto.
Qed.

Lemma exec_angles (s : fb RScalar E) o :
  angles_normalised (fb_state s) -> op_angles_ok s o -> angles_normalised (fb_state (fb_exec vt s o)).
Proof.
  intros Ha Hok. destruct o; cbn in Hok |- *; auto.
  - apply process_angles; assumption.
  - pose proof PI_RGT_0. unfold angles_normalised, vzero. toR. lra.
Qed.

Lemma run_angles ops : forall (s : fb RScalar E),
  angles_normalised (fb_state s) -> run_angles_ok vt s ops ->
  angles_normalised (fb_state (fb_run vt s ops)).
Proof.
  induction ops as [|o r IH]; intros s Ha Hok; cbn in *; [assumption|].
  destruct Hok as [Ho Hr]. apply IH; [apply exec_angles|]; assumption.
Qed.
End Gen.

Lemma ekf_predict_angles (s : ekf RScalar) r d : angles_normalised (fb_state (ekf_predict s r d)).
Proof. rewrite predict_state. apply wrap_angles_normalised. Qed.

Lemma ekf_correct_angles eig (s : ekf RScalar) m :
  angles_normalised (fb_state s) -> angles_normalised (fb_state (ekf_correct eig s m)).
Proof.
  intros H. unfold ekf_correct. destruct (checkMahalanobisThreshold _ _ _ _); [|assumption].
  apply wrap_angles_normalised.
Qed.

Lemma ukf_predict_angles eig (s : ukf RScalar) r d :
  angles_normalised (fb_state (ukf_predict eig s r d)).
Proof.
  unfold ukf_predict. destruct (project_all _ _ _ _) as [F sg].
  apply wrap_angles_normalised.
Qed.

Lemma ukf_correct_angles eig (s : ukf RScalar) m :
  angles_normalised (fb_state s) -> angles_normalised (fb_state (ukf_correct eig s m)).
Proof.
  intros H. unfold ukf_correct. cbv zeta.
  destruct (checkMahalanobisThreshold _ _ _ _); [apply wrap_angles_normalised|].
  destruct (u_uncorrected (fb_ext s)); exact H.
Qed.

(** ** Time semantics, any scalar type and any subclass whose predict and
    correct leave the time stamp and the initialisation flag alone *)

Section Time.
Context {K : Scalar} {E : Type} (vt : vtbl K E).
Hypothesis Hpt : forall s r d, fb_last_time (v_predict vt s r d) = fb_last_time s.
Hypothesis Hct : forall s m, fb_last_time (v_correct vt s m) = fb_last_time s.
Hypothesis Hpi : forall s r d, fb_initialized (v_predict vt s r d) = fb_initialized s.
Hypothesis Hci : forall s m, fb_initialized (v_correct vt s m) = fb_initialized s.

Lemma process_initialized s m : fb_initialized (processMeasurement vt s m) = true.
Proof.
  unfold processMeasurement. destruct (fb_initialized s) eqn:Ei; [|reflexivity].
  cbv zeta. destruct (Z.geb _ _); cbn [fb_initialized set_last_time];
    rewrite Hci; destruct (Z.gtb _ _); cbn [fb_initialized set_predicted]; rewrite ?Hpi; assumption.
Qed.

Lemma process_last_time s m :
  fb_last_time (processMeasurement vt s m) =
  if fb_initialized s then Z.max (fb_last_time s) (m_time m) else m_time m.
Proof.
  unfold processMeasurement. destruct (fb_initialized s) eqn:Ei; [|reflexivity].
  cbv zeta. rewrite Z.geb_leb. destruct (Z.leb_spec 0 (m_time m - fb_last_time s)).
  - cbn [fb_last_time set_last_time]. lia.
  - rewrite Hct. destruct (Z.gtb_spec (m_time m - fb_last_time s) 0); lia.
Qed.

Lemma process_list_last_time ms : forall s,
  fb_initialized s = true ->
  fb_last_time (fold_left (processMeasurement vt) ms s) =
  fold_left Z.max (map m_time ms) (fb_last_time s).
Proof.
  induction ms as [|m r IH]; intros s Hs; cbn; [reflexivity|].
  rewrite IH by apply process_initialized. rewrite process_last_time, Hs. reflexivity.
Qed.
End Time.

Lemma ukf_predict_keeps {K} eig (s : ukf K) r d :
  fb_last_time (ukf_predict eig s r d) = fb_last_time s /\
  fb_initialized (ukf_predict eig s r d) = fb_initialized s /\
  fb_Q (ukf_predict eig s r d) = fb_Q s /\
  fb_control (ukf_predict eig s r d) = fb_control s /\
  fb_control_time (ukf_predict eig s r d) = fb_control_time s.
Proof.
  unfold ukf_predict. destruct (project_all _ _ _ _) as [F sg].
  destruct s as [i u dy a b c e f g h k l m n o p q r' s t v w]. destruct dy; repeat split.
Qed.

Lemma ukf_correct_keeps {K} eig (s : ukf K) m :
  fb_last_time (ukf_correct eig s m) = fb_last_time s /\
  fb_initialized (ukf_correct eig s m) = fb_initialized s /\
  fb_Q (ukf_correct eig s m) = fb_Q s /\
  fb_control (ukf_correct eig s m) = fb_control s /\
  fb_control_time (ukf_correct eig s m) = fb_control_time s.
Proof.
  unfold ukf_correct. cbv zeta.
  destruct (checkMahalanobisThreshold _ _ _ _); destruct (u_uncorrected (fb_ext s)); repeat split.
Qed.
