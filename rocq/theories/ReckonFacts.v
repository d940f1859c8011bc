(** * Dead reckoning (C108) *)

From Coq Require Import Reals ZArith List Bool Lia Lra Arith.
From Verif Require Import Scalar Mat FilterBase FilterOps Ekf EkfFacts SpecNode SpecLin SpecFilter SpecReckon RLin RBridge EkfPsd Motion Jacobian NodeProofs NodeInv NodeSmooth.
Import ListNotations.
Local Open Scope R_scope.

Lemma quad_position (S : rmat) x y : position_only S -> (forall i, (i < 3)%nat -> x i = y i) -> quad 15 S x = quad 15 S y.
Proof.
  intros HS H. unfold quad. apply rsum_ext. intros i Hi. apply rsum_ext. intros j Hj.
  destruct (Nat.lt_ge_cases i 3) as [A|A]; [|rewrite HS by lia; ring].
  destruct (Nat.lt_ge_cases j 3) as [B|B]; [|rewrite HS by lia; ring].
  rewrite !H by assumption. reflexivity.
Qed.

(** The columns of x, y and z in the Jacobian are those of the identity. *)
Lemma jacobian_position (s : ekf RScalar) d k i : F_ok (fb_F s) -> (k < 15)%nat -> (i < 3)%nat ->
  predict_J s d k i = if Nat.eqb k i then 1 else 0.
Proof.
  intros HF Hk Hi. unfold predict_J, predict_F. etransitivity; [apply jacobian_row; [exact HF|exact Hk|lia]|].
  generalize (fb_state s) (@toSec RScalar d). intros x t. clear HF.
  do 15 (destruct k as [|k]; [do 3 (destruct i as [|i]; [reflexivity|]); lia|]). lia.
Qed.
Lemma transposed_position (J : rmat) x i : (i < 3)%nat ->
  (forall k, (k < 15)%nat -> J k i = if Nat.eqb k i then 1 else 0) -> rmv 15 (rT J) x i = x i.
Proof.
  intros Hi HJ. unfold rmv, rT. rewrite (rsum_single 15 i); [|lia|].
  - rewrite HJ, Nat.eqb_refl by lia. ring.
  - intros l Hl Hne. rewrite HJ by exact Hl. apply Nat.eqb_neq in Hne. rewrite Hne. ring.
Qed.

Section Steps.
Variable eig : Eigen RScalar.
Variable dyn : Prop.

Lemma noise_psd (s : ekf RScalar) : inv dyn s -> psd 15 (noise_used s).
Proof.
  intros (HP & [HQ HQd] & Hdyn & Hu). unfold noise_used. destruct (fb_use_dyn s); [|assumption].
  assert (Hblk : forall i j, (i < 15)%nat -> (j < 15)%nat ->
    fb_dynQ (computeDynamicProcessNoiseCovariance s (fb_state s)) i j =
    if (pose_index i && pose_index j)%bool
    then rsum 6 (fun k => fb_state s (6 + k)%nat * fb_state s (6 + k)%nat) * fb_Q s i j
    else fb_Q s i j).
  { intros i j Hi Hj. unfold computeDynamicProcessNoiseCovariance, set_dynQ. cbv beta zeta iota delta [fb_dynQ fb_Q].
    specialize (Hdyn i j Hi Hj). unfold pose_index in *.
    destruct (Nat.ltb i 6 && Nat.ltb j 6)%bool eqn:Eij; [|apply Hdyn; reflexivity].
    apply andb_true_iff in Eij. destruct Eij as [Ei Ej]. apply Nat.ltb_lt in Ei, Ej.
    apply (dyn_block (fb_state s) (fb_Q s) i j Ei Ej). }
  eapply psd_scale_block; [| exact HQ | apply HQd; auto | exact Hblk].
  apply rsum_nonneg. intros. apply Rle_0_sqr.
Qed.

Lemma noise_floor (s : ekf RScalar) (q : rmat) : inv dyn s -> loewner_le 15 q (fb_Q s) -> (dyn -> forall i j, q i j = 0) ->
  loewner_le 15 q (noise_used s).
Proof.
  intros Hi Hq H0 x. destruct (fb_use_dyn s) eqn:Eu.
  - rewrite (quad_ext 15 q (fun _ _ => 0)); [|intros i j _ _; apply H0, Hi, Eu].
    apply Rle_trans with 0; [right|apply noise_psd, Hi].
    unfold quad. apply rsum_zero. intros. apply rsum_zero. intros. ring.
  - unfold noise_used. rewrite Eu. apply Hq.
Qed.

Lemma predict_above (S q : rmat) (s : ekf RScalar) r d : (0 <= d)%Z -> inv dyn s -> F_ok (fb_F s) ->
  position_only S -> loewner_le 15 q (fb_Q s) -> (dyn -> forall i j, q i j = 0) -> loewner_le 15 S (fb_P s) ->
  loewner_le 15 (fun i j => S i j + IZR d / 1000000000 * q i j) (fb_P (ekf_predict s r d)).
Proof.
  intros Hd Hi HF HS Hq H0 HP x. rewrite predict_P.
  change (quad 15 (fun i j => S i j + IZR d / 1000000000 * q i j) x <=
    quad 15 (fun i j => rmul 15 (rmul 15 (predict_J s d) (fb_P s)) (rT (predict_J s d)) i j + @toSec RScalar d * noise_used s i j) x).
  rewrite !quad_plus, !quad_scale, quad_sandwich, toSec_R.
  pose proof (noise_floor s q Hi Hq H0 x) as HN.
  pose proof (HP (rmv 15 (rT (predict_J s d)) x)) as HP'.
  rewrite (quad_position S _ x HS) in HP'.
  2:{ intros i Hi'. apply transposed_position; [exact Hi'|]. intros k Hk. apply jacobian_position; assumption. }
  assert (0 <= IZR d / 1000000000) by (apply IZR_le in Hd; lra).
  pose proof (Rmult_le_compat_l _ _ _ H HN). lra.
Qed.

Lemma unselected_column (m : meas RScalar) a i : no_position m -> (a < length (update_indices m))%nat -> (i < 3)%nat ->
  @state_to_meas RScalar (update_indices m) a i = 0.
Proof.
  intros Hm Ha Hi. unfold state_to_meas. destruct (_ && _)%bool eqn:E; [|reflexivity]. exfalso.
  apply andb_true_iff in E. destruct E as [_ E]. apply Nat.eqb_eq in E.
  pose proof (nth_In (update_indices m) 0%nat Ha) as HI. rewrite <- E in HI.
  rewrite update_indices_R in HI. apply filter_In in HI. destruct HI as [_ HI]. rewrite Hm in HI by exact Hi. discriminate.
Qed.

Lemma joseph_above n (G H Rm P S : rmat) : position_only S ->
  (forall a i, (a < n)%nat -> (i < 3)%nat -> H a i = 0) -> psd n Rm -> loewner_le 15 S P ->
  loewner_le 15 S (@joseph RScalar n G H Rm P).
Proof.
  intros HS HH HR HP x. unfold joseph.
  set (A := @msub RScalar meye (@mmul RScalar n G H)).
  change (quad 15 S x <= quad 15 (fun i j => rmul 15 (rmul 15 A P) (rT A) i j + rmul n (rmul n G Rm) (rT G) i j) x).
  rewrite quad_plus, !quad_sandwich.
  pose proof (HP (rmv 15 (rT A) x)) as HP'. rewrite (quad_position S _ x HS) in HP'.
  2:{ intros i Hi. apply transposed_position; [exact Hi|]. intros k Hk. unfold A, msub, meye.
      change (@mmul RScalar n G H) with (rmul n G H). unfold rmul. rewrite rsum_zero; [|intros l Hl; rewrite HH by assumption; ring].
      destruct (Nat.eqb k i); toR; ring. }
  pose proof (proj2 HR (rmv 15 (rT G) x)). lra.
Qed.

Lemma correct_above (S : rmat) (s : ekf RScalar) m : good_meas m -> no_position m -> position_only S -> loewner_le 15 S (fb_P s) ->
  loewner_le 15 S (fb_P (ekf_correct eig s m)).
Proof.
  intros Hm Hn HS HP. unfold ekf_correct. destruct (checkMahalanobisThreshold _ _ _ _); [|exact HP].
  cbn [fb_P wrapStateAngles set_state set_P]. apply joseph_above; [exact HS| |apply psd_cov_subset; exact Hm|exact HP].
  intros a i Ha Hi. apply unselected_column; assumption.
Qed.

Lemma first_above (sel : nat -> bool) (S P C D : rmat) : position_only S -> (forall i, (i < 3)%nat -> sel i = false) ->
  psd 15 C -> decoupled 15 sel P ->
  (forall i j, (i < 15)%nat -> (j < 15)%nat -> D i j = if (sel i && sel j)%bool then C i j else P i j) ->
  loewner_le 15 S P -> loewner_le 15 S D.
Proof.
  intros HS Hsel [_ HC] Hd HD HP x.
  assert (E : quad 15 D x =
    quad 15 C (fun i => if sel i then x i else 0) + quad 15 P (fun i => if sel i then 0 else x i)).
  { unfold quad. rewrite <- rsum_plus.
    apply rsum_ext. intros i Hi. rewrite <- rsum_plus.
    apply rsum_ext. intros j Hj. rewrite HD by assumption.
    specialize (Hd i j Hi Hj).
    destruct (sel i), (sel j); simpl; try ring; rewrite Hd by discriminate; ring. }
  rewrite E. pose proof (HC (fun i => if sel i then x i else 0)) as H1.
  pose proof (HP (fun i => if sel i then 0 else x i)) as H2.
  rewrite (quad_position S _ x HS) in H2 by (intros i Hi; rewrite Hsel by exact Hi; reflexivity). lra.
Qed.

Lemma kept_predicted (s : ekf RScalar) v : fb_P (set_predicted s v) = fb_P s.
Proof. reflexivity. Qed.
Lemma kept_time (s : ekf RScalar) v : fb_P (set_last_time s v) = fb_P s.
Proof. reflexivity. Qed.
Lemma process_above (S q : rmat) (s : ekf RScalar) m : op_ok dyn s (OpProcess m) -> no_position m -> inv dyn s -> F_ok (fb_F s) ->
  position_only S -> position_only q -> loewner_le 15 q (fb_Q s) -> (dyn -> forall i j, q i j = 0) -> loewner_le 15 S (fb_P s) ->
  loewner_le 15 (fun i j => S i j + IZR (predicted_over s (OpProcess m)) / 1000000000 * q i j) (fb_P (processMeasurement (ekf_vtbl eig) s m)).
Proof.
  intros [Hm Hdec] Hn Hi HF HS Hq1 Hq H0 HP. unfold processMeasurement. cbn [predicted_over].
  destruct (fb_initialized s).
  - cbv zeta. cbn [ekf_vtbl v_predict v_correct].
    match goal with |- context [ekf_correct eig ?x m] => set (s1 := x) end.
    assert (H1 : loewner_le 15 (fun i j => S i j + IZR (Z.max 0 (m_time m - fb_last_time s)) / 1000000000 * q i j) (fb_P s1)).
    { unfold s1. destruct (Z.gtb_spec (m_time m - fb_last_time s) 0).
      - rewrite Z.max_r by lia. rewrite kept_predicted. apply predict_above; try assumption. lia.
      - rewrite Z.max_l by lia. intros x. specialize (HP x). rewrite quad_plus, quad_scale. lra. }
    assert (H2 : position_only (fun i j => S i j + IZR (Z.max 0 (m_time m - fb_last_time s)) / 1000000000 * q i j)).
    { intros i j A B C. rewrite HS, Hq1 by assumption. ring. }
    pose proof (correct_above _ s1 m Hm Hn H2 H1) as H3.
    destruct (Z.geb _ _); [rewrite kept_time|]; exact H3.
  - specialize (Hdec eq_refl). destruct Hm as [Hlen HC].
    apply (first_above (fun i => nth i (m_upd m) false) _ (fb_P s) (m_cov m)).
    + intros i j A B C. rewrite HS, Hq1 by assumption. ring.
    + exact Hn.
    + exact HC.
    + exact Hdec.
    + intros i j A B. cbn [fb_P set_last_time init_from set_initialized set_P set_state]. rewrite Hlen. unfold flag.
      apply Nat.ltb_lt in A, B. change (Nat.leb i 14) with (Nat.ltb i 15).
      change (Nat.leb j 14) with (Nat.ltb j 15). rewrite A, B. reflexivity.
    + intros x. specialize (HP x). rewrite quad_plus, quad_scale. lra.
Qed.

Lemma predict_Q (s : ekf RScalar) r d : fb_Q (ekf_predict s r d) = fb_Q s.
Proof. apply (predict_other s r d). Qed.
Lemma correct_Q (s : ekf RScalar) m : fb_Q (ekf_correct eig s m) = fb_Q s.
Proof. apply (correct_other eig s m). Qed.
Lemma process_Q (vt : vtbl RScalar unit) (s : ekf RScalar) m : (forall s r d, fb_Q (v_predict vt s r d) = fb_Q s) ->
  (forall s m, fb_Q (v_correct vt s m) = fb_Q s) -> fb_Q (processMeasurement vt s m) = fb_Q s.
Proof.
  intros Hp Hc. unfold processMeasurement. destruct (fb_initialized s); [|reflexivity]. cbv zeta.
  match goal with |- context [v_correct vt ?x m] => set (s1 := x) end.
  assert (E : fb_Q s1 = fb_Q s).
  { unfold s1. destruct (Z.gtb _ _); [|reflexivity]. specialize (Hp s (m_time m) (m_time m - fb_last_time s)%Z).
    generalize dependent (v_predict vt s (m_time m) (m_time m - fb_last_time s)%Z). intros x Hx. exact Hx. }
  specialize (Hc s1 m). rewrite E in Hc. generalize dependent (v_correct vt s1 m). intros x Hx. destruct (Z.geb _ _); exact Hx.
Qed.

Lemma exec_above (S q : rmat) (s : ekf RScalar) o : op_ok dyn s o -> reckoning q o -> inv dyn s -> F_ok (fb_F s) ->
  position_only S -> position_only q -> loewner_le 15 q (fb_Q s) -> (dyn -> forall i j, q i j = 0) -> loewner_le 15 S (fb_P s) ->
  loewner_le 15 (fun i j => S i j + IZR (predicted_over s o) / 1000000000 * q i j) (fb_P (fb_exec (ekf_vtbl eig) s o)).
Proof.
  intros Ho Hr Hi HF HS Hq1 Hq H0 HP.
  assert (Z0 : forall P, loewner_le 15 S P -> loewner_le 15 (fun i j => S i j + IZR 0 / 1000000000 * q i j) P)
    by (intros P H x; specialize (H x); rewrite quad_plus, quad_scale; lra).
  destruct o as [r d|m|m| | | | | | | | |]; cbn [reckoning] in Hr; try contradiction; try (apply Z0; exact HP).
  - exact (predict_above S q s r d Ho Hi HF HS Hq H0 HP).
  - exact (Z0 _ (correct_above S s m Ho Hr HS HP)).
  - exact (process_above S q s m Ho Hr Hi HF HS Hq1 Hq H0 HP).
Qed.
Lemma exec_noise (q : rmat) (s : ekf RScalar) o : reckoning q o -> loewner_le 15 q (fb_Q s) ->
  loewner_le 15 q (fb_Q (fb_exec (ekf_vtbl eig) s o)).
Proof.
  intros Hr Hq. destruct o as [r d|m|m| | | | | | | | |]; cbn [reckoning] in Hr; try contradiction; try exact Hq; try exact Hr.
  - cbn [fb_exec v_predict ekf_vtbl]. rewrite predict_Q. exact Hq.
  - cbn [fb_exec v_correct ekf_vtbl]. rewrite correct_Q. exact Hq.
  - cbn [fb_exec]. rewrite (process_Q (ekf_vtbl eig) s m predict_Q correct_Q). exact Hq.
Qed.

Lemma run_above ops : forall (S q : rmat) (s : ekf RScalar), run_ok dyn (ekf_vtbl eig) s ops -> Forall (reckoning q) ops ->
  inv dyn s -> tf_inv s -> position_only S -> position_only q -> loewner_le 15 q (fb_Q s) -> (dyn -> forall i j, q i j = 0) ->
  loewner_le 15 S (fb_P s) ->
  loewner_le 15 (fun i j => S i j + IZR (predicted (ekf_vtbl eig) s ops) / 1000000000 * q i j) (fb_P (fb_run (ekf_vtbl eig) s ops)).
Proof.
  induction ops as [|o r IH]; intros S q s Hok Hr Hi HF HS Hq1 Hq H0 HP.
  - intros x. specialize (HP x). cbn [predicted fb_run fold_left]. rewrite quad_plus, quad_scale. lra.
  - destruct Hok as [Ho Hok]. inversion Hr as [|? ? R1 R2]; subst.
    pose proof (exec_above S q s o Ho R1 Hi (proj1 HF) HS Hq1 Hq H0 HP) as E1. pose proof (exec_noise q s o R1 Hq) as E2.
    cbn [predicted]. change (fb_run (ekf_vtbl eig) s (o :: r)) with (fb_run (ekf_vtbl eig) (fb_exec (ekf_vtbl eig) s o) r).
    intros x. refine (Rle_trans _ _ _ (Req_le _ _ _) (IH _ q _ Hok R2 _ _ _ Hq1 E2 H0 E1 x)).
    + apply quad_ext. intros i j _ _. rewrite plus_IZR. field.
    + apply inv_exec; assumption.
    + apply tf_inv_exec; [intros; apply ekf_tf_pred; assumption|intros; apply ekf_tf_corr; assumption|exact HF].
    + intros i j A B C. rewrite HS, Hq1 by assumption. ring.
Qed.
End Steps.

Lemma run_app {E} (vt : vtbl RScalar E) a b s : fb_run vt s (a ++ b) = fb_run vt (fb_run vt s a) b.
Proof. apply fold_left_app. Qed.
Lemma run_ok_app {E} dyn (vt : vtbl RScalar E) a b : forall s,
  run_ok dyn vt s (a ++ b) -> run_ok dyn vt s a /\ run_ok dyn vt (fb_run vt s a) b.
Proof.
  induction a as [|o a IH]; intros s H; [split; [exact I|exact H]|]. destruct H as [H1 H2].
  destruct (IH _ H2) as [A B]. split; [split; assumption|exact B].
Qed.

Lemma reckoning_drifts eig (dyn : Prop) g before ops (S q : rmat) :
  let vt := ekf_vtbl eig in let s := fb_run vt (fb_init g tt) before in
  run_ok dyn vt (fb_init g tt) (before ++ ops) -> Forall (reckoning q) ops ->
  position_only S -> position_only q -> loewner_le 15 S (fb_P s) -> loewner_le 15 q (fb_Q s) -> (dyn -> forall i j, q i j = 0) ->
  loewner_le 15 (fun i j => S i j + IZR (predicted vt s ops) / 1000000000 * q i j) (fb_P (fb_run vt s ops)).
Proof.
  intros vt s Hok Hr HS Hq1 HP Hq H0. destruct (run_ok_app _ _ _ _ _ Hok) as [A B].
  apply (run_above eig dyn); try assumption.
  - apply inv_run; [exact A|apply inv_init].
  - apply tf_inv_run; [intros; apply ekf_tf_pred; assumption|intros; apply ekf_tf_corr; assumption|apply tf_inv_init].
Qed.

Lemma unit_quad n (M : rmat) i : (i < n)%nat -> quad n M (fun k => if Nat.eqb k i then 1 else 0) = M i i.
Proof.
  intros Hi. unfold quad. rewrite (rsum_single n i); [|exact Hi|].
  - rewrite (rsum_single n i); [|exact Hi|].
    + rewrite Nat.eqb_refl. ring.
    + intros j Hj Hne. apply Nat.eqb_neq in Hne. rewrite Hne. ring.
  - intros j Hj Hne. apply rsum_zero. intros. apply Nat.eqb_neq in Hne. rewrite Hne. ring.
Qed.
Lemma loewner_diag n (A B : rmat) i : loewner_le n A B -> (i < n)%nat -> A i i <= B i i.
Proof. intros H Hi. specialize (H (fun k => if Nat.eqb k i then 1 else 0)). rewrite !unit_quad in H by exact Hi. exact H. Qed.

(** Measurements only: the time predicted over is the time that passed. *)
Lemma predicted_passes {E} (vt : vtbl RScalar E) ms : time_neutral vt -> forall s, fb_initialized s = true ->
  predicted vt s (map OpProcess ms) = (fb_last_time (fb_run vt s (map OpProcess ms)) - fb_last_time s)%Z.
Proof.
  intros Hvt. induction ms as [|m ms IH]; intros s Hs; [cbn; lia|].
  cbn [map predicted]. change (fb_run vt s (OpProcess m :: map OpProcess ms)) with (fb_run vt (processMeasurement vt s m) (map OpProcess ms)).
  cbn [fb_exec]. pose proof (process_time vt Hvt s m) as [P1 P2]. rewrite IH by exact P2.
  cbn [predicted_over]. rewrite Hs in *. lia.
Qed.

Lemma measurements_drift eig (dyn : Prop) g before ms (S q : rmat) i :
  let vt := ekf_vtbl eig in let s := fb_run vt (fb_init g tt) before in let s' := fb_run vt s (map OpProcess ms) in
  run_ok dyn vt (fb_init g tt) (before ++ map OpProcess ms) -> fb_initialized s = true -> Forall no_position ms ->
  position_only S -> position_only q -> loewner_le 15 S (fb_P s) -> loewner_le 15 q (fb_Q s) -> (dyn -> forall i j, q i j = 0) ->
  (i < 15)%nat ->
  S i i + IZR (fb_last_time s' - fb_last_time s) / 1000000000 * q i i <= fb_P s' i i.
Proof.
  intros vt s s' Hok Hs Hm HS Hq1 HP Hq H0 Hi.
  change s' with (fb_run vt s (map OpProcess ms)).
  rewrite <- (predicted_passes vt ms (ekf_neutral eig) s Hs).
  refine (loewner_diag 15 (fun i j => S i j + IZR (predicted vt s (map OpProcess ms)) / 1000000000 * q i j) _ i _ Hi).
  apply (reckoning_drifts eig dyn g before); try assumption. apply Forall_map. exact Hm.
Qed.
