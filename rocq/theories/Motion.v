(** * Motion model of EKF and UKF (C07, C19), control input (C09, C10), first
      measurement (C06) *)

From Coq Require Import Reals ZArith List Bool Arith Lra Lia.
From Verif Require Import Scalar Mat FilterBase FilterOps Ekf EkfFacts Ukf SpecLin SpecFilter SpecMotion
  RLin RBridge Angles.
Import ListNotations.
Local Open Scope R_scope.

(** Entries of the transfer function written by predict. *)
Definition assigned (i j : nat) : bool :=
  match i with
  | 0 | 1 | 2 => ((Nat.leb 6 j && Nat.leb j 8) || (Nat.leb 12 j && Nat.leb j 14))%bool
  | 3 => (Nat.leb 9 j && Nat.leb j 11)%bool
  | 4 | 5 => (Nat.leb 10 j && Nat.leb j 11)%bool
  | 6 => Nat.eqb j 12 | 7 => Nat.eqb j 13 | 8 => Nat.eqb j 14
  | _ => false
  end%nat.

Definition F_ok {K : Scalar} (F : mat K) : Prop :=
  forall i j, assigned i j = false -> F i j = meye i j.

Section Transfer.
Context {K : Scalar}.

Lemma mset_F_ok (F : mat K) a b v : assigned a b = true -> F_ok F -> F_ok (mset F a b v).
Proof.
  intros Ha HF i j Hij. unfold mset.
  destruct (Nat.eqb_spec i a); [|apply HF; assumption].
  destruct (Nat.eqb_spec j b); [|apply HF; assumption]. subst. congruence.
Qed.

Lemma transfer_F_ok (F : mat K) x dt : F_ok F -> F_ok (ekf_transfer F x dt).
Proof. intros HF. unfold ekf_transfer. cbv zeta. repeat (apply mset_F_ok; [reflexivity|]). exact HF. Qed.

Lemma ukf_transfer_F_ok (F : mat K) x dt : F_ok F -> F_ok (ukf_transfer F x dt).
Proof. intros HF. unfold ukf_transfer. cbv zeta. repeat (apply mset_F_ok; [reflexivity|]). exact HF. Qed.

Lemma meye_F_ok : F_ok (@meye K).
Proof. intros i j _. reflexivity. Qed.

(** Both filters write the same transfer function. *)
Lemma transfer_same (F : mat K) x dt : ukf_transfer F x dt = ekf_transfer F x dt.
Proof. reflexivity. Qed.
End Transfer.

(** Predicted entries depend on F only outside the assigned cells. *)
Lemma F_ok_row (F : rmat) x dt i j :
  F_ok (K := RScalar) F -> (i < 15)%nat -> (j < 15)%nat ->
  @ekf_transfer RScalar F x dt i j = @ekf_transfer RScalar rI x dt i j.
Proof.
  intros HF Hi Hj.
  destruct (assigned i j) eqn:E.
  - do 9 (destruct i as [|i];
      [do 15 (destruct j as [|j]; [try discriminate E; reflexivity|]); lia|]).
    discriminate E.
  - rewrite (transfer_F_ok (K := RScalar) F x dt HF i j E).
    rewrite (transfer_F_ok (K := RScalar) rI x dt meye_F_ok i j E). reflexivity.
Qed.

Ltac destr_lt15 i :=
  do 15 (destruct i as [|i]; [|]); [..|exfalso; lia].

(** Row [i] of the product with the transfer function. *)
Lemma transfer_rows (x v : rvec) dt i :
  v 3%nat = x 3%nat -> v 4%nat = x 4%nat -> v 5%nat = x 5%nat -> (i < 15)%nat ->
  rmv 15 (@ekf_transfer RScalar rI x dt) v i = motion_fun dt v i.
Proof.
  intros E3 E4 E5 Hi.
  do 15 (destruct i as [|i];
    [unfold rmv, rsum; cbn [ekf_transfer mset Nat.eqb andb rI motion_fun];
     unfold ekf_transfer, mset; cbn [Nat.eqb andb];
     unfold rI; cbn [Nat.eqb]; rewrite ?lit_5_1; toR;
     unfold next_position, roll_rate, pitch_rate, yaw_rate, Rrpy, Rz, Ry, Rx, mat3, rmul, rsum;
     cbn [Nat.add]; rewrite ?E3, ?E4, ?E5; unfold Rdiv; try ring|]).
  lia.
Qed.

(** ** Reachable filters: the transfer function stays well formed, and without
    control parameters no axis is selected *)

Definition tf_inv {K : Scalar} {E} (s : fb K E) : Prop :=
  F_ok (fb_F s) /\ (fb_use_control s = false -> forall i, nth i (fb_control_upd s) false = false).

Section Reach.
Context {K : Scalar} {E : Type} (vt : vtbl K E).
Hypothesis Hp : forall s r d, tf_inv s -> tf_inv (v_predict vt s r d).
Hypothesis Hc : forall s m, tf_inv s -> tf_inv (v_correct vt s m).

Lemma tf_inv_congr (s s' : fb K E) :
  fb_F s' = fb_F s -> fb_use_control s' = fb_use_control s -> fb_control_upd s' = fb_control_upd s ->
  tf_inv s -> tf_inv s'.
Proof. unfold tf_inv. intros -> -> ->. auto. Qed.

Lemma tf_inv_exec s o : tf_inv s -> tf_inv (fb_exec vt s o).
Proof.
  intros H. destruct o; cbn [fb_exec]; auto;
    try (eapply tf_inv_congr; [| | |exact H]; reflexivity).
  - unfold processMeasurement. destruct (fb_initialized s).
    + cbv zeta. match goal with |- context [v_correct vt ?x m] => set (s1 := x) end.
      assert (H1 : tf_inv s1).
      { unfold s1. destruct (Z.gtb _ _); [|assumption].
        specialize (Hp s (m_time m) (m_time m - fb_last_time s) H).
        generalize dependent (v_predict vt s (m_time m) (m_time m - fb_last_time s)).
        intros p Hp'. eapply tf_inv_congr; [| | |exact Hp']; reflexivity. }
      specialize (Hc s1 m H1). generalize dependent (v_correct vt s1 m). intros c Hc'.
      destruct (Z.geb _ _); [|exact Hc']. eapply tf_inv_congr; [| | |exact Hc']; reflexivity.
    + eapply tf_inv_congr; [| | |exact H]; reflexivity.
  - destruct H as [HF Hu]. split; [exact HF|]. cbn. discriminate.
  - destruct H as [HF Hu]. split; [apply meye_F_ok|exact Hu].
Qed.

Lemma tf_inv_run ops : forall s, tf_inv s -> tf_inv (fb_run vt s ops).
Proof. induction ops as [|o r IH]; intros s H; cbn; [assumption|]. apply IH, tf_inv_exec, H. Qed.
End Reach.

Lemma tf_inv_init {K E} g (e : E) : tf_inv (@fb_init K E g e).
Proof.
  split; [apply meye_F_ok|]. intros _ i.
  cbn [fb_control_upd fb_init fb_reset]. do 7 (destruct i; try reflexivity).
Qed.

Lemma ekf_tf_pred {K} (s : ekf K) r d : tf_inv s -> tf_inv (ekf_predict s r d).
Proof.
  intros [HF Hu]. pose proof (predict_other s r d) as Ho. cbv zeta in Ho.
  destruct Ho as (_ & E1 & _ & _ & _ & _ & _ & _ & _ & _ & _ & E2 & _ & _ & _ & _ & E3 & _).
  unfold tf_inv. rewrite E1, E2, E3. split; [apply transfer_F_ok, HF|exact Hu].
Qed.
Lemma ekf_tf_corr {K} eig (s : ekf K) m : tf_inv s -> tf_inv (ekf_correct eig s m).
Proof.
  intros [HF Hu]. pose proof (correct_other eig s m) as Ho. cbv zeta in Ho.
  destruct Ho as (_ & E1 & _ & _ & _ & _ & _ & _ & _ & _ & _ & E2 & _ & _ & _ & _ & _ & E3 & _).
  unfold tf_inv. rewrite E1, E2, E3. split; assumption.
Qed.

Lemma project_all_F_ok {K : Scalar} n : forall (F : mat K) sg d,
  F_ok F -> F_ok (fst (project_all n F sg d)).
Proof.
  induction n; intros F sg d HF; cbn [project_all]; [exact HF|].
  specialize (IHn F sg d HF). destruct (project_all n F sg d) as [F1 sg1].
  cbn [fst] in *. unfold projectSigmaPoint. cbn [fst]. apply ukf_transfer_F_ok, IHn.
Qed.

Lemma ukf_predict_F {K} eig (s : ukf K) r d :
  fb_F (ukf_predict eig s r d) =
  fst (project_all 31 (fb_F s) (u_sigma (fb_ext (generateSigmaPoints eig s))) d).
Proof.
  unfold ukf_predict.
  change (fb_F (generateSigmaPoints eig (prepareControl s r))) with (fb_F s).
  change (u_sigma (fb_ext (generateSigmaPoints eig (prepareControl s r))))
    with (u_sigma (fb_ext (generateSigmaPoints eig s))).
  cbv zeta. destruct (project_all _ _ _ _) as [F sg].
  destruct s as [i u dy a b c e f g h k l m n o p q r' s t v w]. destruct dy; reflexivity.
Qed.

Lemma ukf_predict_ctl {K} eig (s : ukf K) r d :
  fb_use_control (ukf_predict eig s r d) = fb_use_control s /\
  fb_control_upd (ukf_predict eig s r d) = fb_control_upd s.
Proof.
  unfold ukf_predict. destruct (project_all _ _ _ _) as [F sg].
  destruct s as [i u dy a b c e f g h k l m n o p q r' s t v w]. destruct dy; split; reflexivity.
Qed.

Lemma ukf_tf_pred {K} eig (s : ukf K) r d : tf_inv s -> tf_inv (ukf_predict eig s r d).
Proof.
  intros [HF Hu]. destruct (ukf_predict_ctl eig s r d) as [E1 E2].
  unfold tf_inv. rewrite E1, E2, ukf_predict_F. split; [apply project_all_F_ok, HF|exact Hu].
Qed.
Lemma ukf_tf_corr {K} eig (s : ukf K) m : tf_inv s -> tf_inv (ukf_correct eig s m).
Proof.
  intros H. unfold ukf_correct. cbv zeta.
  destruct (u_uncorrected (fb_ext s)), (checkMahalanobisThreshold _ _ _ _);
    eapply tf_inv_congr; try exact H; reflexivity.
Qed.

(** ** C07 *)

Lemma apply_control_entry upd (acc x : rvec) dt k :
  @apply_control RScalar upd acc x dt k =
  controlled_state (fun i => nth i upd false) acc x dt k.
Proof.
  unfold apply_control, controlled_state, flag, vset.
  do 15 (destruct k as [|k]; [reflexivity|]). reflexivity.
Qed.

Lemma motion_step_wrap (xin x' : rvec) dt :
  (forall i, (i < 15)%nat -> x' i = @wrap_angles RScalar (motion_fun dt xin) i) ->
  motion_step xin dt x'.
Proof.
  intros H.
  assert (W : forall i, (i < 15)%nat ->
     x' i = if is_angle i then @normalize_angle RScalar (motion_fun dt xin i) else motion_fun dt xin i).
  { intros i Hi. rewrite H by assumption. apply wrap_angles_entry. }
  split; [|split; [|split; [|split; [|split; [|split]]]]].
  - intros k Hk. rewrite W by lia. do 3 (destruct k as [|k]; [reflexivity|]). lia.
  - rewrite W by lia. apply normalize_angle_spec.
  - rewrite W by lia. apply normalize_angle_spec.
  - rewrite W by lia. apply normalize_angle_spec.
  - intros k Hk. rewrite W by lia. do 3 (destruct k as [|k]; [reflexivity|]). lia.
  - intros k Hk. rewrite W by lia. do 3 (destruct k as [|k]; [reflexivity|]). lia.
  - intros k Hk. rewrite W by lia. do 3 (destruct k as [|k]; [reflexivity|]). lia.
Qed.

Lemma wrap_angles_ext (x y : rvec) i : x i = y i -> @wrap_angles RScalar x i = @wrap_angles RScalar y i.
Proof. intros H. rewrite !wrap_angles_entry, H. reflexivity. Qed.

Lemma ekf_predict_motion (s : ekf RScalar) r d :
  F_ok (fb_F s) ->
  motion_step
    (controlled_state (fun i => nth i (fb_control_upd s) false)
       (fb_control_acc (ekf_predict s r d)) (fb_state s) (IZR d / 1000000000))
    (IZR d / 1000000000) (fb_state (ekf_predict s r d)).
Proof.
  intros HF. apply motion_step_wrap. intros i Hi. rewrite predict_state.
  pose proof (predict_other s r d) as Ho. cbv zeta in Ho.
  destruct Ho as (_ & _ & _ & _ & _ & _ & _ & _ & _ & _ & _ & _ & _ & _ & _ & E & _).
  rewrite E. apply wrap_angles_ext.
  set (acc := predict_acc s r). rewrite <- (toSec_R d). unfold predict_F.
  set (dt := @toSec RScalar d).
  change (rmv 15 (@ekf_transfer RScalar (fb_F s) (fb_state s) dt)
    (@apply_control RScalar (fb_control_upd s) acc (fb_state s) dt) i =
    motion_fun dt (controlled_state (fun i0 => nth i0 (fb_control_upd s) false) acc (fb_state s) dt) i).
  set (v := controlled_state (fun i0 => nth i0 (fb_control_upd s) false) acc (fb_state s) dt).
  assert (ER : rmv 15 (@ekf_transfer RScalar rI (fb_state s) dt) v i = motion_fun dt v i)
    by (apply transfer_rows; [reflexivity|reflexivity|reflexivity|assumption]).
  rewrite <- ER.
  apply rmv_ext; intros l Hl; [apply F_ok_row; assumption|apply apply_control_entry].
Qed.

(** ** C09 / C10: commanded accelerations *)

Lemma s_max_R a b : @s_max RScalar a b = Rmax a b.
Proof. unfold s_max, Rmax. toR. unfold Rltb. destruct (Rlt_dec a b), (Rle_dec a b); lra. Qed.
Lemma s_min_R a b : @s_min RScalar a b = Rmin a b.
Proof. unfold s_min, Rmin. toR. unfold Rltb. destruct (Rlt_dec b a), (Rle_dec a b); lra. Qed.
Lemma lit_1_2 : @lit RScalar 1 2 = / 100.
Proof. unfold lit. toR. change (10 ^ 2)%Z with 100%Z. lra. Qed.

Lemma computeControlAcceleration_spec v c al ag dl dg :
  commanded_accel v c al ag dl dg (@computeControlAcceleration RScalar v c al ag dl dg).
Proof.
  unfold commanded_accel, computeControlAcceleration. cbv zeta. rewrite s_min_R, s_max_R, lit_1_2.
  toR. unfold Rleb.
  destruct (Rle_dec (Rabs (c - v)) (Rabs c + / 100)); split; intros Hb;
  match goal with |- context [Rltb ?x ?y] =>
    (assert (E : Rltb x y = true) by (apply Rltb_true; exact Hb)) ||
    (assert (E : Rltb x y = false) by (apply Rltb_false; lra)) end; rewrite E; reflexivity.
Qed.

Lemma clamp_bound x l : 0 <= l -> - l <= Rmin (Rmax x (- l)) l <= l.
Proof.
  intros H. pose proof (Rmin_r (Rmax x (- l)) l). split; [|assumption].
  apply Rmin_glb; [apply Rmax_r|lra].
Qed.

Lemma commanded_accel_bounded v c al ag dl dg a :
  0 <= al -> 0 <= dl -> commanded_accel v c al ag dl dg a ->
  Rabs a <= Rmax al dl /\ (al = dl -> Rabs a <= al).
Proof.
  intros Ha Hd [H1 H2]. cbv zeta in *.
  set (B := Rabs (if Rle_dec (Rabs (c - v)) (Rabs c + / 100) then c else 0) < Rabs v) in *.
  assert (Hx : (- dl <= a <= dl) \/ (- al <= a <= al)).
  { destruct (Rlt_dec (Rabs (if Rle_dec (Rabs (c - v)) (Rabs c + / 100) then c else 0)) (Rabs v)) as [Y|N].
    - left. rewrite (H1 Y). apply clamp_bound. assumption.
    - right. rewrite (H2 N). apply clamp_bound. assumption. }
  assert (Rabs a <= dl \/ Rabs a <= al).
  { destruct Hx; [left|right]; apply Rabs_le; assumption. }
  pose proof (Rmax_l al dl). pose proof (Rmax_r al dl). split; [|intros]; lra.
Qed.

(** The commanded acceleration never increases the velocity error (discretised
    with step dt) as long as the applicable gain times dt is at most one. *)
Lemma commanded_accel_converges v c al ag dl dg a dt :
  0 <= al -> 0 <= dl -> 0 <= ag -> 0 <= dg -> 0 <= dt -> ag * dt <= 1 -> dg * dt <= 1 ->
  commanded_accel v c al ag dl dg a -> Rabs (c - (v + a * dt)) <= Rabs (c - v).
Proof.
  intros Ha Hd Hag Hdg Ht H1 H2 [Hb Hn]. cbv zeta in *.
  assert (G : forall g l, 0 <= g -> 0 <= l -> g * dt <= 1 ->
     Rabs (c - (v + Rmin (Rmax (g * (c - v)) (- l)) l * dt)) <= Rabs (c - v)).
  { intros g l Hg Hl Hgt. set (e := c - v).
    replace (c - (v + Rmin (Rmax (g * e) (- l)) l * dt)) with (e - Rmin (Rmax (g * e) (- l)) l * dt)
      by (unfold e; ring).
    unfold Rmin, Rmax. destruct (Rle_dec (g * e) (- l)) as [h|h].
    - destruct (Rle_dec (- l) l); [|lra].
      destruct (Rle_lt_dec e 0) as [He|He].
      2:{ assert (0 <= g * e) by (apply Rmult_le_pos; lra). assert (l = 0) by lra. subst.
          replace (e - - 0 * dt) with e by ring. apply Rle_refl. }
      assert (g * dt * e >= e) by nra.
      rewrite (Rabs_left1 e) by assumption. apply Rabs_le. split; nra.
    - destruct (Rle_dec (g * e) l) as [h2|h2].
      + replace (e - g * e * dt) with ((1 - g * dt) * e) by ring. rewrite Rabs_mult.
        rewrite (Rabs_pos_eq (1 - g * dt)) by lra.
        pose proof (Rabs_pos e). assert (0 <= g * dt) by (apply Rmult_le_pos; assumption). nra.
      + assert (0 <= e) by nra. rewrite (Rabs_pos_eq e) by assumption.
        apply Rabs_le. split; nra. }
  destruct (Rlt_dec (Rabs (if Rle_dec (Rabs (c - v)) (Rabs c + / 100) then c else 0)) (Rabs v)) as [Y|N].
  - rewrite (Hb Y). apply G; assumption.
  - rewrite (Hn N). apply G; assumption.
Qed.

Lemma predict_acc_selected (s : ekf RScalar) r d i :
  fb_use_control s = true -> (i < 6)%nat -> nth i (fb_control_upd s) false = true ->
  commanded_accel (fb_state s (6 + i)%nat)
    (if Z_le_dec (fb_control_timeout s) (r - fb_control_time s) then 0 else fb_control s i)
    (nth i (fb_acc_limits s) 0) (nth i (fb_acc_gains s) 0)
    (nth i (fb_dec_limits s) 0) (nth i (fb_dec_gains s) 0)
    (fb_control_acc (ekf_predict s r d) i).
Proof.
  intros Hu Hi Hsel.
  pose proof (predict_other s r d) as Ho. cbv zeta in Ho.
  destruct Ho as (_ & _ & _ & _ & _ & _ & _ & _ & _ & _ & _ & _ & _ & _ & _ & E & _).
  rewrite E. unfold predict_acc, prepareControl, set_control_acc. cbn [fb_control_acc].
  unfold flag. rewrite Hu, Hsel. apply Nat.ltb_lt in Hi. rewrite Hi. cbn [andb].
  unfold control_timed_out. rewrite Z.geb_leb, (Nat.add_comm i).
  destruct (Z_le_dec (fb_control_timeout s) (r - fb_control_time s)) as [h|h];
    [apply Z.leb_le in h|apply Z.leb_nle in h]; rewrite h; apply computeControlAcceleration_spec.
Qed.

Lemma predict_acc_unselected (s : ekf RScalar) r d i :
  fb_use_control s = false \/ (6 <= i)%nat \/ nth i (fb_control_upd s) false = false ->
  fb_control_acc (ekf_predict s r d) i = 0.
Proof.
  intros H.
  pose proof (predict_other s r d) as Ho. cbv zeta in Ho.
  destruct Ho as (_ & _ & _ & _ & _ & _ & _ & _ & _ & _ & _ & _ & _ & _ & _ & E & _).
  rewrite E. unfold predict_acc, prepareControl, set_control_acc. cbn [fb_control_acc].
  unfold flag. destruct (fb_use_control s); [|reflexivity]. cbn [andb].
  destruct (Nat.ltb_spec i 6); [|reflexivity]. cbn [andb].
  destruct H as [H|[H|H]]; [discriminate|lia|rewrite H; reflexivity].
Qed.

(** No control configured: the controlled state is the state. *)
Lemma controlled_state_id (sel : nat -> bool) acc x dt k :
  (forall i, acc i = 0) -> (forall i, sel i = false) -> controlled_state sel acc x dt k = x k.
Proof.
  intros H1 H2. unfold controlled_state. rewrite H1, H2.
  destruct (_ && _)%bool; [ring|]. destruct (_ && _)%bool; reflexivity.
Qed.

Lemma motion_step_ext x y dt x' :
  (forall k, x k = y k) -> motion_step x dt x' -> motion_step y dt x'.
Proof.
  intros H. assert (x = y) by (apply FunctionalExtensionality.functional_extensionality; exact H).
  subst. auto.
Qed.

Lemma ekf_predict_motion_free (s : ekf RScalar) r d :
  tf_inv s -> fb_use_control s = false ->
  motion_step (fb_state s) (IZR d / 1000000000) (fb_state (ekf_predict s r d)).
Proof.
  intros [HF Hu] Hc. eapply motion_step_ext; [|apply ekf_predict_motion, HF].
  intros k. apply controlled_state_id; [|exact (Hu Hc)].
  intros i. apply predict_acc_unselected. left. exact Hc.
Qed.

Lemma commanded_accel_direction v c al ag dl dg a :
  0 <= al -> 0 <= dl -> 0 <= ag -> 0 <= dg ->
  commanded_accel v c al ag dl dg a -> 0 <= a * (c - v) /\ (v = c -> a = 0).
Proof.
  intros Ha Hd Hag Hdg [Hb Hn]. cbv zeta in *.
  assert (G : forall g l, 0 <= g -> 0 <= l ->
     0 <= Rmin (Rmax (g * (c - v)) (- l)) l * (c - v) /\
     (v = c -> Rmin (Rmax (g * (c - v)) (- l)) l = 0)).
  { intros g l Hg Hl. split.
    - set (e := c - v).
      assert (G0 : 0 <= g * e * e) by (rewrite Rmult_assoc; apply Rmult_le_pos; [assumption|apply Rle_0_sqr]).
      unfold Rmin, Rmax. destruct (Rle_dec (g * e) (- l)) as [h|h].
      + destruct (Rle_dec (- l) l) as [h2|h2]; [|exfalso; apply h2; lra].
        destruct (Rle_lt_dec 0 e) as [He|He].
        * assert (0 <= g * e) by (apply Rmult_le_pos; lra).
          assert (El : l = 0) by lra. rewrite El, Ropp_0, Rmult_0_l. apply Rle_refl.
        * replace (- l * e) with (l * - e) by ring. apply Rmult_le_pos; lra.
      + destruct (Rle_dec (g * e) l) as [h2|h2]; [exact G0|].
        assert (0 <= e) by (apply Rnot_lt_le; intros He; assert (g * e <= 0) by nra; lra).
        apply Rmult_le_pos; assumption.
    - intros ->. replace (g * (c - c)) with 0 by ring. unfold Rmin, Rmax.
      destruct (Rle_dec 0 (- l)) as [q|q].
      + assert (El : l = 0) by lra. rewrite El, Ropp_0. destruct (Rle_dec 0 0); reflexivity.
      + destruct (Rle_dec 0 l) as [q2|q2]; [reflexivity|contradiction]. }
  destruct (Rlt_dec (Rabs (if Rle_dec (Rabs (c - v)) (Rabs c + / 100) then c else 0)) (Rabs v)) as [Y|N].
  - rewrite (Hb Y). apply G; assumption.
  - rewrite (Hn N). apply G; assumption.
Qed.
