(** * Two-D mode (C20) *)

From Coq Require Import Reals ZArith String List Bool Arith Lra Lia FunctionalExtensionality.
From Verif Require Import Scalar Mat FilterBase FilterOps Ekf EkfFacts SpecLin SpecFilter SpecMotion
  RLin RBridge EkfPsd Angles EkfUpdate Motion Jacobian Pdef ForceTwoD.
Import ListNotations.
Local Open Scope R_scope.

(** ** Decoupled matrices *)

Definition dec2 (n m : nat) (A B : nat -> bool) (M : rmat) : Prop :=
  forall i j, (i < n)%nat -> (j < m)%nat -> A i <> B j -> M i j = 0.

Lemma dec2_mul n k m A B C (M N : rmat) :
  dec2 n k A B M -> dec2 k m B C N -> dec2 n m A C (rmul k M N).
Proof.
  intros HM HN i j Hi Hj Hne. unfold rmul. apply rsum_zero. intros l Hl.
  destruct (bool_dec (A i) (B l)) as [E|E].
  - rewrite (HN l j) by (auto; congruence). ring.
  - rewrite (HM i l) by auto. ring.
Qed.

Lemma dec2_T n m A B (M : rmat) : dec2 n m A B M -> dec2 m n B A (rT M).
Proof. intros H i j Hi Hj Hne. unfold rT. apply H; auto. Qed.

Lemma dec2_plus n m A B (M N : rmat) :
  dec2 n m A B M -> dec2 n m A B N -> dec2 n m A B (fun i j => M i j + N i j).
Proof. intros HM HN i j Hi Hj Hne. rewrite HM, HN by auto. ring. Qed.
Lemma dec2_minus n m A B (M N : rmat) :
  dec2 n m A B M -> dec2 n m A B N -> dec2 n m A B (fun i j => M i j - N i j).
Proof. intros HM HN i j Hi Hj Hne. rewrite HM, HN by auto. ring. Qed.
Lemma dec2_scale n m A B c (M : rmat) :
  dec2 n m A B M -> dec2 n m A B (fun i j => c * M i j).
Proof. intros HM i j Hi Hj Hne. rewrite HM by auto. ring. Qed.
Lemma dec2_I n A : dec2 n n A A rI.
Proof.
  intros i j Hi Hj Hne. unfold rI. destruct (Nat.eqb_spec i j); [subst; congruence|reflexivity].
Qed.

(** The inverse of a decoupled matrix is decoupled. *)
Lemma dec2_inverse n A (S T : rmat) : is_inverse n S T -> dec2 n n A A S -> dec2 n n A A T.
Proof.
  intros HI HS.
  set (D := fun i : nat => if A i then 1 else -1).
  assert (HD : forall i, D i * D i = 1) by (intros i; unfold D; destruct (A i); ring).
  assert (HSD : forall i j, (i < n)%nat -> (j < n)%nat -> D i * S i j * D j = S i j).
  { intros i j Hi Hj. destruct (bool_dec (A i) (A j)) as [E|E].
    - unfold D. rewrite E. destruct (A j); ring.
    - rewrite (HS i j Hi Hj E). ring. }
  set (T' := fun i j => D i * T i j * D j).
  (* T' is also a left inverse *)
  assert (HL : forall i j, (i < n)%nat -> (j < n)%nat -> rmul n T' S i j = rI i j).
  { intros i j Hi Hj. unfold rmul.
    rewrite (rsum_ext n _ (fun l => (D i * D j) * (T i l * S l j))).
    - rewrite rsum_scal_l. change (rsum n (fun l => T i l * S l j)) with (rmul n T S i j).
      rewrite (proj2 (HI i j Hi Hj)). unfold rI. destruct (Nat.eqb_spec i j); [subst; rewrite HD; ring|ring].
    - intros l Hl. unfold T'.
      transitivity (D i * T i l * D l * (D l * S l j * D j)); [rewrite (HSD l j Hl Hj); reflexivity|].
      transitivity ((D l * D l) * (D i * T i l * (S l j * D j))); [ring|]. rewrite HD. ring. }
  assert (HE : forall i j, (i < n)%nat -> (j < n)%nat -> T' i j = T i j).
  { intros i j Hi Hj.
    transitivity (rmul n T' rI i j); [symmetry; apply rmul_I_r; assumption|].
    transitivity (rmul n T' (rmul n S T) i j).
    - apply rmul_ext; [reflexivity|]. intros l Hl. symmetry. apply (HI l j); assumption.
    - rewrite <- rmul_assoc. transitivity (rmul n rI T i j); [|apply rmul_I_l; assumption].
      apply rmul_ext; [|reflexivity]. intros l Hl. apply HL; assumption. }
  intros i j Hi Hj Hne. specialize (HE i j Hi Hj). unfold T', D in HE.
  destruct (A i), (A j); try congruence; lra.
Qed.

(** ** Motion model and Jacobian at planar states *)

Lemma planar_motion (x : rvec) dt i : planar_state x -> vertical i = true ->
  motion_fun dt x i = 0.
Proof.
  intros Hx Hi.
  assert (E2 : x 2%nat = 0) by (apply Hx; reflexivity).
  assert (E3 : x 3%nat = 0) by (apply Hx; reflexivity).
  assert (E4 : x 4%nat = 0) by (apply Hx; reflexivity).
  assert (E8 : x 8%nat = 0) by (apply Hx; reflexivity).
  assert (E9 : x 9%nat = 0) by (apply Hx; reflexivity).
  assert (E10 : x 10%nat = 0) by (apply Hx; reflexivity).
  assert (E14 : x 14%nat = 0) by (apply Hx; reflexivity).
  do 15 (destruct i as [|i]; [try discriminate Hi;
    unfold motion_fun, next_position, roll_rate, pitch_rate, yaw_rate, Rrpy, Rz, Ry, Rx, mat3, rmul, rsum;
    cbn [Nat.add]; rewrite ?E2, ?E3, ?E4, ?E8, ?E9, ?E10, ?E14, ?sin_0, ?cos_0; unfold Rdiv; ring|]).
  discriminate Hi.
Qed.

Lemma planar_jacobian (x : rvec) dt : planar_state x ->
  dec2 15 15 vertical vertical (@ekf_jacobian RScalar (@ekf_transfer RScalar rI x dt) x dt).
Proof.
  intros Hx i j Hi Hj Hne.
  assert (E3 : x 3%nat = 0) by (apply Hx; reflexivity).
  assert (E4 : x 4%nat = 0) by (apply Hx; reflexivity).
  assert (E8 : x 8%nat = 0) by (apply Hx; reflexivity).
  assert (E9 : x 9%nat = 0) by (apply Hx; reflexivity).
  assert (E10 : x 10%nat = 0) by (apply Hx; reflexivity).
  assert (E14 : x 14%nat = 0) by (apply Hx; reflexivity).
  do 15 (destruct i as [|i];
   [do 15 (destruct j as [|j];
     [try (exfalso; apply Hne; reflexivity);
      unfold ekf_jacobian, ekf_transfer, mset; cbn [Nat.eqb andb]; unfold rI; cbn [Nat.eqb];
      toR; rewrite ?E3, ?E4, ?E8, ?E9, ?E10, ?E14, ?sin_0, ?cos_0; unfold Rdiv; ring
     |]); exfalso; lia|]).
  exfalso; lia.
Qed.

(** ** Invariant *)

Definition no_vertical_control {E} (s : fb RScalar E) : Prop :=
  nth 2 (fb_control_upd s) false = false /\ nth 3 (fb_control_upd s) false = false /\
  nth 4 (fb_control_upd s) false = false.

Definition planar (s : ekf RScalar) : Prop :=
  planar_state (fb_state s) /\ decoupled 15 vertical (fb_P s) /\
  decoupled 15 vertical (fb_Q s) /\ decoupled 15 vertical (fb_dynQ s) /\
  @F_ok RScalar (fb_F s) /\ no_vertical_control s.

Lemma planar_congr (s s' : ekf RScalar) :
  fb_state s' = fb_state s -> fb_P s' = fb_P s -> fb_Q s' = fb_Q s -> fb_dynQ s' = fb_dynQ s ->
  fb_F s' = fb_F s -> fb_control_upd s' = fb_control_upd s -> planar s -> planar s'.
Proof. unfold planar, no_vertical_control. intros -> -> -> -> -> ->. auto. Qed.

Lemma acc_unselected (s : ekf RScalar) r i :
  nth i (fb_control_upd s) false = false -> predict_acc s r i = 0.
Proof.
  intros H. unfold predict_acc, prepareControl. cbn [fb_control_acc set_control_acc].
  unfold flag. rewrite H. rewrite andb_false_r. reflexivity.
Qed.

Lemma planar_wrap (x : rvec) : planar_state x -> planar_state (@wrap_angles RScalar x).
Proof.
  intros H i Hi. rewrite wrap_angles_entry. rewrite (H i Hi).
  destruct (is_angle i); [|reflexivity]. pose proof PI_RGT_0. apply normalize_angle_id. lra.
Qed.

Lemma planar_dyn (s : ekf RScalar) : planar s ->
  decoupled 15 vertical (fb_dynQ (computeDynamicProcessNoiseCovariance s (fb_state s))).
Proof.
  intros (_ & _ & HQ & HD & _) i j Hi Hj Hne.
  unfold computeDynamicProcessNoiseCovariance. cbn [fb_dynQ set_dynQ].
  destruct (Nat.ltb i 6 && Nat.ltb j 6)%bool eqn:E; [|apply HD; assumption].
  apply andb_prop in E. destruct E as [E1 E2]. apply Nat.ltb_lt in E1, E2.
  rewrite dyn_block by assumption. rewrite (HQ i j Hi Hj Hne). ring.
Qed.

Lemma planar_predict (s : ekf RScalar) r d : planar s -> planar (ekf_predict s r d).
Proof.
  intros HS. pose proof HS as (Hx & HP & HQ & HD & HF & HC).
  destruct (predict_other s r d) as (_&_&_&_&_&_&_&_&_&_&_&E1&_&E2&_&_&E3&_).
  unfold planar, no_vertical_control. rewrite E1, E2, E3, predict_state, predict_P, predict_dynQ.
  repeat split; try apply HC; try assumption.
  - apply planar_wrap. intros i Hi.
    assert (Hi15 : (i < 15)%nat) by (do 15 (destruct i; [lia|]); discriminate Hi).
    set (x1 := apply_control (fb_control_upd s) (predict_acc s r) (fb_state s) (toSec d)).
    assert (Ex : forall k, k = 3%nat \/ k = 4%nat \/ k = 5%nat -> x1 k = fb_state s k).
    { intros k Hk. unfold x1. rewrite apply_control_entry. unfold controlled_state.
      destruct Hk as [->|[->| ->]]; reflexivity. }
    assert (Hx1 : planar_state x1).
    { intros k Hk. unfold x1. rewrite apply_control_entry. unfold controlled_state.
      do 15 (destruct k as [|k]; [try discriminate Hk; cbn [Nat.leb andb Nat.sub];
        rewrite ?(Hx _ Hk), ?(acc_unselected s r 3) by apply HC;
        rewrite ?(acc_unselected s r 4) by apply HC;
        unfold flag; rewrite ?(proj1 HC); try ring; try reflexivity|]).
      discriminate Hk. }
    toR. rewrite (rmv_ext 15 _ (@ekf_transfer RScalar rI (fb_state s) (toSec d)) x1 x1).
    + rewrite (transfer_rows (fb_state s) x1); [apply planar_motion; assumption|apply Ex; auto..|assumption].
    + intros l Hl. apply F_ok_row; assumption.
    + reflexivity.
  - unfold madd, mscale. toR.
    assert (HJ : dec2 15 15 vertical vertical (predict_J s d)).
    { intros i j Hi Hj Hne. unfold predict_J, predict_F.
      rewrite jacobian_row by assumption. apply planar_jacobian; assumption. }
    apply (dec2_plus 15 15 vertical vertical).
    + apply (dec2_mul 15 15 15 vertical vertical vertical); [|apply dec2_T, HJ].
      apply (dec2_mul 15 15 15 vertical vertical vertical); assumption.
    + apply (dec2_scale 15 15 vertical vertical). unfold noise_used.
      destruct (fb_use_dyn s); [apply planar_dyn, HS|assumption].
  - destruct (fb_use_dyn s); [apply planar_dyn, HS|assumption].
  - apply transfer_F_ok. assumption.
Qed.

Lemma ekf_correct_cases {K : Scalar} (eig : Eigen K) (s : ekf K) m u :
  u = ekf_compute_update eig (fb_state s) (fb_P s) m ->
  (fb_state (ekf_correct eig s m) = fb_state s /\ fb_P (ekf_correct eig s m) = fb_P s) \/
  (fb_state (ekf_correct eig s m) = wrap_angles (vadd (fb_state s) (mvmul (u_n u) (u_K u) (u_innov u))) /\
   fb_P (ekf_correct eig s m) = joseph (u_n u) (u_K u) (u_H u) (u_R u) (fb_P s)).
Proof.
  intros ->. unfold ekf_correct. destruct (checkMahalanobisThreshold _ _ _ _); [right|left]; split; reflexivity.
Qed.

Lemma u_H_def {K : Scalar} (eig : Eigen K) x P m :
  u_H (ekf_compute_update eig x P m) = state_to_meas (update_indices m).
Proof. reflexivity. Qed.
Lemma u_R_def {K : Scalar} (eig : Eigen K) x P m :
  u_R (ekf_compute_update eig x P m) = cov_subset (update_indices m) m.
Proof. reflexivity. Qed.

Lemma u_Sinv_ok eig (s : ekf RScalar) m : eigen_inverse_ok eig -> length (m_upd m) = 15%nat ->
  invertible (length (selected m)) (innovation_cov (fb_P s) m) ->
  is_inverse (length (selected m)) (innovation_cov (fb_P s) m)
    (u_Sinv (ekf_compute_update eig (fb_state s) (fb_P s) m)).
Proof.
  intros Heig Hlen HSi. eapply is_inverse_ext; [|apply (Sinv_model eig Heig m Hlen s HSi)].
  intros i j Hi Hj. apply (S_entry m Hlen (fb_P s)); assumption.
Qed.

Lemma u_innov_ok eig (s : ekf RScalar) m : length (m_upd m) = 15%nat ->
  innovation_of (fb_state s) m (u_innov (ekf_compute_update eig (fb_state s) (fb_P s) m)).
Proof. intros Hlen. exact (innov_model m Hlen (fb_state s)). Qed.

Lemma planar_set_last_time s t : planar s -> planar (set_last_time s t).
Proof. intros H. destruct s. exact H. Qed.
Lemma planar_set_predicted s t : planar s -> planar (set_predicted s t).
Proof. intros H. destruct s. exact H. Qed.

Lemma planar_update n vs (G H R : rmat) (nu x : rvec) (P : rmat) :
  planar_state x -> decoupled 15 vertical P ->
  dec2 15 n vertical vs G -> dec2 n 15 vs vertical H -> dec2 n n vs vs R ->
  (forall a, (a < n)%nat -> vs a = true -> nu a = 0) ->
  planar_state (@wrap_angles RScalar (@vadd RScalar x (@mvmul RScalar n G nu))) /\
  decoupled 15 vertical (@joseph RScalar n G H R P).
Proof.
  intros Hx HP HK HH HRs Hinn. split.
  - apply planar_wrap. intros i Hi.
    assert (Hi15 : (i < 15)%nat) by (do 15 (destruct i; [lia|]); discriminate Hi).
    unfold vadd. toR. rewrite (Hx i Hi). rewrite Rplus_0_l. unfold rmv. apply rsum_zero. intros a Ha.
    destruct (vs a) eqn:Ev; [rewrite Hinn by assumption; ring|].
    rewrite (HK i a) by (auto; congruence). ring.
  - unfold joseph, madd, msub. toR.
    assert (HG : dec2 15 15 vertical vertical (fun i j => rI i j - rmul n G H i j)).
    { apply dec2_minus; [apply dec2_I|]. apply (dec2_mul 15 n 15 vertical vs vertical); assumption. }
    apply (dec2_plus 15 15 vertical vertical).
    + apply (dec2_mul 15 15 15 vertical vertical vertical); [|apply dec2_T, HG].
      apply (dec2_mul 15 15 15 vertical vertical vertical); [exact HG|exact HP].
    + apply (dec2_mul 15 n 15 vertical vs vertical); [|apply dec2_T, HK].
      apply (dec2_mul 15 n n vertical vs vs); assumption.
Qed.

Section Corr.
Variable eig : Eigen RScalar.
Hypothesis Heig : eigen_inverse_ok eig.
Variable dyn : Prop.

Lemma planar_correct (s : ekf RScalar) m :
  psd 15 (fb_P s) -> planar_meas m -> planar s -> planar (ekf_correct eig s m).
Proof.
  intros HPsd (Hlen & Hval & Hcov & Hpd) HS. pose proof HS as (Hx & HP & HQ & HD & HF & HC).
  set (n := length (selected m)) in *.
  set (sel := fun a => nth a (selected m) 0%nat).
  set (vs := fun a => vertical (sel a)).
  assert (Hsel : forall a, (a < n)%nat -> (sel a < 15)%nat) by (intros; apply selected_lt; assumption).
  assert (HSi : invertible n (innovation_cov (fb_P s) m)).
  { apply pdef_invertible. apply (pdef_psd_plus n (fun a b => fb_P s (sel a) (sel b))); [|exact Hpd].
    apply (psd_sub (selected m) (fb_P s) 15); [|assumption].
    intros i Hi. destruct (In_nth _ _ 0%nat Hi) as (q & Hq & <-). apply selected_lt. assumption. }
  set (u := ekf_compute_update eig (fb_state s) (fb_P s) m).
  assert (HRd : forall i j, (i < 15)%nat -> (j < 15)%nat -> vertical i <> vertical j -> repaired_cov m i j = 0).
  { intros i j Hi Hj Hne. unfold repaired_cov. destruct (Nat.eqb_spec i j); [subst; congruence|]. apply Hcov; assumption. }
  assert (HSd : dec2 n n vs vs (innovation_cov (fb_P s) m)).
  { intros a b Ha Hb Hne. unfold innovation_cov. fold (sel a) (sel b).
    rewrite (HP (sel a) (sel b)), (HRd (sel a) (sel b)) by auto. ring. }
  assert (HH : dec2 n 15 vs vertical (u_H u)).
  { intros a k Ha Hk Hne. unfold u. rewrite u_H_def.
    rewrite (H_row m Hlen a k Ha). fold (sel a). destruct (Nat.eqb_spec k (sel a)); [|reflexivity].
    subst k. exfalso. apply Hne. reflexivity. }
  assert (HI : is_inverse n (innovation_cov (fb_P s) m) (u_Sinv u)).
  { apply (u_Sinv_ok eig s m Heig Hlen HSi). }
  assert (HT : dec2 n n vs vs (u_Sinv u)) by (eapply dec2_inverse; eassumption).
  assert (HK : dec2 15 n vertical vs (u_K u)).
  { unfold u. rewrite (u_K_eq eig m Hlen s).
    apply (dec2_mul 15 n n vertical vs vs); [|exact HT].
    apply (dec2_mul 15 15 n vertical vertical vs); [exact HP|apply dec2_T, HH]. }
  assert (HRs : dec2 n n vs vs (u_R u)).
  { intros a b Ha Hb Hne. unfold u. rewrite u_R_def.
    rewrite (selected_update_indices m Hlen). rewrite cov_subset_entry by assumption.
    destruct (Nat.eqb_spec a b) as [->|Hab]; [congruence|].
    apply Hcov; [apply Hsel; assumption|apply Hsel; assumption|exact Hne]. }
  assert (En : u_n u = n) by (exact (u_n_eq eig m Hlen s)).
  assert (Hinn : forall a, (a < n)%nat -> vs a = true -> u_innov u a = 0).
  { intros a Ha Hv.
    assert (H0 : innovation_of (fb_state s) m (u_innov u)) by (apply (u_innov_ok eig s m Hlen)).
    specialize (H0 a Ha). cbv zeta in H0. fold (sel a) in H0.
    rewrite (Hval (sel a) Hv), (Hx (sel a) Hv), Rminus_0_r in H0.
    destruct (is_angle (sel a)) eqn:E.
    - apply is_angle_true in E. apply H0 in E. eapply wrapped_unique; [exact E|].
      apply wrapped_id. pose proof PI_RGT_0. lra.
    - apply is_angle_false in E. apply H0. assumption. }
  destruct (correct_other eig s m) as (_&_&_&_&_&_&_&_&_&_&_&E1&_&E2&_&E3&_&E4&_).
  unfold planar, no_vertical_control. rewrite E1, E2, E3, E4.
  assert (Hsp : planar_state (fb_state (ekf_correct eig s m)) /\ decoupled 15 vertical (fb_P (ekf_correct eig s m))).
  { destruct (ekf_correct_cases eig s m u eq_refl) as [[Ea Eb]|[Ea Eb]]; rewrite Ea, Eb; [split; assumption|].
    rewrite En. apply (planar_update n vs); assumption. }
  destruct Hsp. repeat split; try apply HC; assumption.
Qed.

Lemma planar_init_from (s : ekf RScalar) m t : planar_meas m -> planar s ->
  planar (set_last_time (init_from s m) t).
Proof.
  intros (Hlen & Hval & Hcov & _) HS. pose proof HS as (Hx & HP & HQ & HD & HF & HC).
  unfold planar. cbn [fb_state fb_P fb_Q fb_dynQ fb_F set_last_time init_from set_initialized set_P set_state].
  repeat split; try apply HC; try assumption.
  - intros i Hi. destruct (_ && _)%bool; [apply Hval|apply Hx]; assumption.
  - intros i j Hi Hj Hne. destruct (_ && _)%bool; [apply Hcov|apply HP]; assumption.
Qed.

Lemma planar_process (s : ekf RScalar) m :
  inv dyn s -> good_meas m -> planar_meas m -> planar s ->
  planar (processMeasurement (ekf_vtbl eig) s m).
Proof.
  intros HI HG Hm HS. unfold processMeasurement. destruct (fb_initialized s).
  2:{ apply planar_init_from; assumption. }
  cbv zeta. cbn [v_predict v_correct ekf_vtbl].
  match goal with |- context [ekf_correct eig ?x m] => set (s1 := x) end.
  assert (H1 : planar s1 /\ inv dyn s1).
  { unfold s1. destruct (Z.gtb (m_time m - fb_last_time s) 0) eqn:E; [|split; assumption].
    apply Z.gtb_lt in E. split.
    - apply planar_set_predicted, planar_predict. exact HS.
    - apply inv_set_predicted, ekf_predict_inv; [lia|assumption]. }
  pose proof (planar_correct s1 m (proj1 (proj2 H1)) Hm (proj1 H1)) as H2.
  destruct (Z.geb _ _); [apply planar_set_last_time|]; exact H2.
Qed.

Lemma diag_decoupled A (d : rvec) M :
  (forall i j, M i j = if Nat.eqb i j then d i else 0) -> decoupled 15 A M.
Proof.
  intros HM i j Hi Hj Hne. rewrite HM. destruct (Nat.eqb_spec i j); [subst; congruence|reflexivity].
Qed.

Lemma default_Q_dec A : decoupled 15 A (@default_Q RScalar).
Proof.
  intros i j Hi Hj Hne. unfold default_Q. destruct (Nat.eqb_spec i j); [subst; congruence|reflexivity].
Qed.

Lemma planar_reset (s : ekf RScalar) : no_vertical_control s -> planar (fb_reset s).
Proof.
  intros HC. unfold planar. cbn [fb_reset fb_state fb_P fb_Q fb_dynQ fb_F].
  repeat split; try apply HC; try apply default_Q_dec.
  intros i j Hi Hj Hne. unfold mscale. toR. unfold rI.
  destruct (Nat.eqb_spec i j); [subst; congruence|ring].
Qed.

Lemma planar_exec (s : ekf RScalar) o : inv dyn s -> op_ok dyn s o -> op_planar o -> planar s ->
  planar (fb_exec (ekf_vtbl eig) s o).
Proof.
  intros HI Hok Hpl HS. pose proof HS as (Hx & HP & HQ & HD & HF & HC).
  destruct o; cbn [fb_exec op_ok op_planar] in *;
    try (eapply planar_congr; [..|exact HS]; reflexivity).
  - apply planar_predict. assumption.
  - apply planar_correct; [apply (proj1 HI)|assumption|assumption].
  - apply planar_process; [assumption|apply Hok|assumption|assumption].
  - repeat split; try assumption; apply Hpl.
  - repeat split; try assumption; apply HC.
  - repeat split; try assumption; apply HC.
  - repeat split; try assumption; apply HC.
  - apply planar_reset. assumption.
Qed.

Lemma planar_run ops : forall s : ekf RScalar, inv dyn s -> run_ok dyn (ekf_vtbl eig) s ops ->
  Forall op_planar ops -> planar s -> planar (fb_run (ekf_vtbl eig) s ops).
Proof.
  induction ops as [|o r IH]; intros s HI Hok Hpl HS; [exact HS|].
  destruct Hok as [Ho Hr]. inversion Hpl; subst. cbn.
  apply IH; [apply inv_exec; assumption|exact Hr|assumption|apply planar_exec; assumption].
Qed.
End Corr.

(** forceTwoD produces planar measurements. *)
Lemma set_flag_length l i b : length (set_flag l i b) = length l.
Proof. revert i. induction l; intros [|i]; cbn; congruence. Qed.

Lemma force_length {K} (m : meas K) : length (m_upd (force_meas m)) = length (m_upd m).
Proof.
  unfold force_meas, forceTwoD, two_d_members. cbn [fold_left m_upd]. rewrite !set_flag_length. reflexivity.
Qed.

Lemma set_flag_nth l i b k : nth k (set_flag l i b) false =
  if (Nat.eqb k i && Nat.ltb i (length l))%bool then b else nth k l false.
Proof.
  revert i k. induction l as [|a l IH]; intros i k; cbn [set_flag length].
  - cbn. destruct i; rewrite andb_false_r; destruct k; reflexivity.
  - destruct i, k; cbn [nth Nat.eqb andb]; try reflexivity. rewrite IH. reflexivity.
Qed.

Lemma force_flags {K} (m : meas K) i : length (m_upd m) = 15%nat ->
  nth i (m_upd (force_meas m)) false = (vertical i || nth i (m_upd m) false)%bool.
Proof.
  intros H. unfold force_meas, forceTwoD, two_d_members. cbn [fold_left m_upd].
  rewrite !set_flag_nth, !set_flag_length, H.
  do 15 (destruct i as [|i]; [reflexivity|]). reflexivity.
Qed.

Lemma force_value {K} (m : meas K) i :
  m_value (force_meas m) i = if vertical i then s_ofZ 0 else m_value m i.
Proof.
  unfold force_meas, forceTwoD, two_d_members. cbn [fold_left m_value]. unfold vset.
  do 15 (destruct i as [|i]; [reflexivity|]). reflexivity.
Qed.

Lemma force_cov {K} (m : meas K) i j :
  m_cov (force_meas m) i j = if (vertical i && Nat.eqb i j)%bool then lit 1 6 else m_cov m i j.
Proof.
  unfold force_meas, forceTwoD, two_d_members. cbn [fold_left m_cov]. unfold mset.
  destruct (Nat.eqb_spec i j) as [<-|Hne].
  - do 15 (destruct i as [|i]; [reflexivity|]). reflexivity.
  - rewrite andb_false_r.
    repeat match goal with |- (if ?b then _ else _) = _ =>
      let E := fresh in destruct b eqn:E;
      [exfalso; apply andb_prop in E; destruct E as [Ea Eb]; apply Nat.eqb_eq in Ea, Eb; congruence|] end.
    reflexivity.
Qed.
