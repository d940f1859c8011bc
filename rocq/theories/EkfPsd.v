(** * PSD preservation by the EKF (C01, C11, C13) *)

From Coq Require Import Reals ZArith List Bool Arith Lra Lia FunctionalExtensionality.
From Verif Require Import Scalar Mat FilterBase FilterOps Ekf EkfFacts SpecLin SpecFilter RLin RBridge.
Import ListNotations.
Local Open Scope R_scope.

(** ** Index subsets *)

Lemma update_indices_lt {K} (m : meas K) i :
  In i (update_indices m) -> (i < length (m_upd m))%nat.
Proof.
  unfold update_indices. rewrite filter_In, in_seq. lia.
Qed.

Lemma nth_idx_lt {K} (m : meas K) n a :
  (length (m_upd m) <= n)%nat -> (0 < n)%nat ->
  (nth a (update_indices m) 0 < n)%nat.
Proof.
  intros H H0. destruct (Nat.lt_ge_cases a (length (update_indices m))) as [L|L].
  - pose proof (update_indices_lt m _ (nth_In _ 0%nat L)). lia.
  - rewrite nth_overflow by lia. exact H0.
Qed.

Lemma update_indices_R (m : meas RScalar) :
  update_indices m = filter (fun i => nth i (m_upd m) false) (seq 0 (length (m_upd m))).
Proof.
  unfold update_indices. apply filter_ext. intros a. simpl. rewrite !andb_true_r. reflexivity.
Qed.

(** ** Submatrices *)

Lemma sub_as_sandwich (idx : list nat) (C : rmat) i j n :
  (forall a, In a idx -> (a < n)%nat) ->
  (i < length idx)%nat -> (j < length idx)%nat ->
  rmul n (rmul n (@state_to_meas RScalar idx) C) (rT (@state_to_meas RScalar idx)) i j
  = C (nth i idx 0%nat) (nth j idx 0%nat).
Proof.
  intros Hin Hi Hj. unfold rmul, rT, state_to_meas.
  assert (Hni : (nth i idx 0 < n)%nat) by (apply Hin, nth_In; assumption).
  assert (Hnj : (nth j idx 0 < n)%nat) by (apply Hin, nth_In; assumption).
  apply Nat.ltb_lt in Hi as Hi'. apply Nat.ltb_lt in Hj as Hj'.
  rewrite (rsum_single n (nth j idx 0%nat)); [|assumption|].
  - rewrite (rsum_single n (nth i idx 0%nat)); [|assumption|].
    + rewrite Hi', Hj', !Nat.eqb_refl. simpl. ring.
    + intros l Hl Hne. apply Nat.eqb_neq in Hne. rewrite Hne, andb_false_r. simpl. ring.
  - intros l Hl Hne. apply Nat.eqb_neq in Hne. rewrite Hne, andb_false_r. simpl. ring.
Qed.

Lemma psd_sub (idx : list nat) (C : rmat) n :
  (forall a, In a idx -> (a < n)%nat) -> psd n C ->
  psd (length idx) (fun i j => C (nth i idx 0%nat) (nth j idx 0%nat)).
Proof.
  intros Hin H.
  eapply psd_ext; [|apply (psd_sandwich (length idx) n (@state_to_meas RScalar idx) C H)].
  intros i j Hi Hj. apply sub_as_sandwich; assumption.
Qed.

Lemma psd_diag_nonneg n C i : psd n C -> (i < n)%nat -> 0 <= C i i.
Proof.
  intros [_ H] Hi. specialize (H (fun k => if Nat.eqb k i then 1 else 0)).
  unfold quad in H.
  rewrite (rsum_single n i) in H; [|assumption|].
  - rewrite (rsum_single n i) in H; [|assumption|].
    + rewrite Nat.eqb_refl in H. lra.
    + intros j Hj Hne. apply Nat.eqb_neq in Hne. rewrite Hne. ring.
  - intros j Hj Hne. apply rsum_zero. intros. apply Nat.eqb_neq in Hne. rewrite Hne. ring.
Qed.

Lemma repair_variance_R r :
  @repair_variance RScalar r = Rmax (Rabs r) (/ 1000000000).
Proof.
  unfold repair_variance. rewrite lit_1_9. toR. unfold Rltb.
  destruct (Rlt_dec r 0); destruct (Rlt_dec _ _) as [H|H];
  unfold Rmax; destruct (Rle_dec _ _); auto; try lra;
  unfold Rabs in *; destruct (Rcase_abs r); lra.
Qed.

Lemma repair_variance_ge r : 0 <= r -> r <= @repair_variance RScalar r.
Proof.
  intros. rewrite repair_variance_R. rewrite Rabs_pos_eq by assumption. apply Rmax_l.
Qed.

Lemma cov_subset_entry (idx : list nat) (m : meas RScalar) i j :
  (i < length idx)%nat -> (j < length idx)%nat ->
  cov_subset idx m i j =
  if Nat.eqb i j then Rmax (Rabs (m_cov m (nth i idx 0%nat) (nth i idx 0%nat))) (/ 1000000000)
  else m_cov m (nth i idx 0%nat) (nth j idx 0%nat).
Proof.
  intros Hi Hj. unfold cov_subset.
  apply Nat.ltb_lt in Hi, Hj. rewrite Hi, Hj. simpl.
  destruct (Nat.eqb_spec i j); [subst; apply repair_variance_R|reflexivity].
Qed.

Lemma psd_cov_subset (m : meas RScalar) :
  good_meas m -> psd (length (update_indices m)) (cov_subset (update_indices m) m).
Proof.
  intros [Hlen Hpsd]. set (idx := update_indices m).
  assert (Hin : forall a, In a idx -> (a < 15)%nat)
    by (intros a Ha; apply update_indices_lt in Ha; lia).
  pose (d := fun i => @repair_variance RScalar (m_cov m (nth i idx 0%nat) (nth i idx 0%nat))
                      - m_cov m (nth i idx 0%nat) (nth i idx 0%nat)).
  assert (Hd : forall i, (i < length idx)%nat -> 0 <= d i).
  { intros i Hi. unfold d.
    pose proof (psd_diag_nonneg 15 (m_cov m) _ Hpsd (Hin _ (nth_In idx 0%nat Hi))).
    pose proof (repair_variance_ge _ H). toR. lra. }
  eapply psd_ext;
    [| apply psd_plus; [apply (psd_sub idx (m_cov m) 15 Hin Hpsd) | apply (psd_diag _ d Hd)]].
  - intros i j Hi Hj. unfold cov_subset, d.
    apply Nat.ltb_lt in Hi, Hj. rewrite Hi, Hj. simpl.
    destruct (Nat.eqb_spec i j); [subst|]; simpl; ring.
Qed.

(** ** Joseph form, for an arbitrary gain *)

Lemma joseph_psd n G H R P :
  psd 15 P -> psd n R -> psd 15 (@joseph RScalar n G H R P).
Proof.
  intros HP HR. unfold joseph, madd. toR.
  apply psd_plus.
  - apply psd_sandwich; assumption.
  - apply psd_sandwich; assumption.
Qed.

(** ** Dynamic process noise *)

Lemma velocity_norm_R (x : rvec) :
  @velocity_norm RScalar x = sqrt (rsum 6 (fun i => x (6 + i)%nat * x (6 + i)%nat)).
Proof. reflexivity. Qed.

Lemma velocity_norm_sq (x : rvec) :
  @velocity_norm RScalar x * @velocity_norm RScalar x
  = rsum 6 (fun i => x (6 + i)%nat * x (6 + i)%nat).
Proof.
  rewrite velocity_norm_R. apply sqrt_sqrt. apply rsum_nonneg.
  intros. apply Rle_0_sqr.
Qed.

Lemma velocity_matrix_diag (x : rvec) i j :
  @velocity_matrix RScalar x i j = if Nat.eqb i j then @velocity_norm RScalar x else 0.
Proof.
  unfold velocity_matrix, meye. destruct (Nat.eqb i j); toR; ring.
Qed.

Lemma dyn_block (x : rvec) (Q : rmat) i j :
  (i < 6)%nat -> (j < 6)%nat ->
  rmul 6 (rmul 6 (@velocity_matrix RScalar x) Q) (rT (@velocity_matrix RScalar x)) i j
  = rsum 6 (fun k => x (6 + k)%nat * x (6 + k)%nat) * Q i j.
Proof.
  intros Hi Hj. rewrite <- velocity_norm_sq. unfold rmul, rT.
  rewrite (rsum_single 6 j); [|assumption|].
  - rewrite (rsum_single 6 i); [|assumption|].
    + rewrite !velocity_matrix_diag, !Nat.eqb_refl. ring.
    + intros l Hl Hne. rewrite velocity_matrix_diag.
      destruct (Nat.eqb_spec i l); [congruence|]. ring.
  - intros l Hl Hne. rewrite (velocity_matrix_diag x j l).
    destruct (Nat.eqb_spec j l); [congruence|]. ring.
Qed.

(** Scaling the pose block of a decoupled PSD matrix keeps it PSD. *)
Lemma psd_scale_block c Q D :
  0 <= c -> psd 15 Q -> decoupled 15 pose_index Q ->
  (forall i j, (i < 15)%nat -> (j < 15)%nat ->
     D i j = if (pose_index i && pose_index j)%bool then c * Q i j else Q i j) ->
  psd 15 D.
Proof.
  intros Hc [Hs Hq] Hd HD. split.
  - intros i j Hi Hj. rewrite !HD by assumption. rewrite (Hs i j) by assumption.
    rewrite (andb_comm (pose_index i)). reflexivity.
  - intros x.
    assert (E : quad 15 D x =
      c * quad 15 Q (fun i => if pose_index i then x i else 0)
      + quad 15 Q (fun i => if pose_index i then 0 else x i)).
    { unfold quad. rewrite <- rsum_scal_l. rewrite <- rsum_plus.
      apply rsum_ext. intros i Hi. rewrite <- rsum_scal_l. rewrite <- rsum_plus.
      apply rsum_ext. intros j Hj. rewrite HD by assumption.
      specialize (Hd i j Hi Hj).
      destruct (pose_index i), (pose_index j); simpl; try ring;
      rewrite Hd by discriminate; ring. }
    rewrite E. pose proof (Hq (fun i => if pose_index i then x i else 0)).
    pose proof (Hq (fun i => if pose_index i then 0 else x i)).
    assert (0 <= c * quad 15 Q (fun i => if pose_index i then x i else 0))
      by (apply Rmult_le_pos; assumption).
    lra.
Qed.

(** ** First measurement *)

Lemma psd_init_block (sel : nat -> bool) (P C D : rmat) :
  psd 15 P -> psd 15 C -> decoupled 15 sel P ->
  (forall i j, (i < 15)%nat -> (j < 15)%nat ->
     D i j = if (sel i && sel j)%bool then C i j else P i j) ->
  psd 15 D.
Proof.
  intros [Hs Hq] [Hs' Hq'] Hd HD. split.
  - intros i j Hi Hj. rewrite !HD by assumption.
    rewrite (Hs i j), (Hs' i j) by assumption. rewrite (andb_comm (sel i)). reflexivity.
  - intros x.
    assert (E : quad 15 D x =
      quad 15 C (fun i => if sel i then x i else 0)
      + quad 15 P (fun i => if sel i then 0 else x i)).
    { unfold quad. rewrite <- rsum_plus.
      apply rsum_ext. intros i Hi. rewrite <- rsum_plus.
      apply rsum_ext. intros j Hj. rewrite HD by assumption.
      specialize (Hd i j Hi Hj).
      destruct (sel i), (sel j); simpl; try ring;
      rewrite Hd by discriminate; ring. }
    rewrite E. pose proof (Hq' (fun i => if sel i then x i else 0)).
    pose proof (Hq (fun i => if sel i then 0 else x i)). lra.
Qed.

(** ** The invariant *)

Section Inv.
Variable eig : Eigen RScalar.
Variable dyn : Prop.

Definition inv (s : ekf RScalar) : Prop :=
  psd 15 (fb_P s) /\ noise_ok dyn (fb_Q s) /\
  (forall i j, (i < 15)%nat -> (j < 15)%nat ->
     (pose_index i && pose_index j)%bool = false -> fb_dynQ s i j = fb_Q s i j) /\
  (fb_use_dyn s = true -> dyn).

Lemma inv_congr (s s' : ekf RScalar) :
  fb_P s' = fb_P s -> fb_Q s' = fb_Q s -> fb_dynQ s' = fb_dynQ s -> fb_use_dyn s' = fb_use_dyn s ->
  inv s -> inv s'.
Proof. unfold inv. intros -> -> -> ->. auto. Qed.

Lemma inv_set_predicted s x : inv s -> inv (set_predicted s x).
Proof. apply inv_congr; reflexivity. Qed.
Lemma inv_set_last_time s x : inv s -> inv (set_last_time s x).
Proof. apply inv_congr; reflexivity. Qed.

Lemma ekf_predict_inv s r d : (0 <= d)%Z -> inv s -> inv (ekf_predict s r d).
Proof.
  intros Hd (HP & [HQ HQd] & Hdyn & Hu).
  assert (Hdt : 0 <= @toSec RScalar d).
  { rewrite toSec_R. apply IZR_le in Hd. lra. }
  destruct (predict_other s r d) as (_ & _ & Eu' & _ & _ & _ & _ & _ & _ & _ & _ & _ & _ & EQ & _).
  unfold inv. rewrite predict_P, predict_dynQ, Eu', EQ. unfold noise_used.
  assert (Hblk : forall i j, (i < 15)%nat -> (j < 15)%nat ->
    fb_dynQ (computeDynamicProcessNoiseCovariance s (fb_state s)) i j =
    if (pose_index i && pose_index j)%bool
    then rsum 6 (fun k => fb_state s (6 + k)%nat * fb_state s (6 + k)%nat) * fb_Q s i j
    else fb_Q s i j).
  { intros i j Hi Hj. unfold computeDynamicProcessNoiseCovariance, set_dynQ. cbv beta zeta iota delta [fb_dynQ fb_Q].
    specialize (Hdyn i j Hi Hj). unfold pose_index in *.
    destruct (Nat.ltb i 6 && Nat.ltb j 6)%bool eqn:Eij; [|apply Hdyn; reflexivity].
    apply andb_true_iff in Eij. destruct Eij as [Ei Ej]. apply Nat.ltb_lt in Ei, Ej.
    apply (dyn_block (fb_state s) (fb_Q s) i j Ei Ej). }
  split; [|split; [split; assumption|split]].
  - change (psd 15 (fun i j => rmul 15 (rmul 15 (predict_J s d) (fb_P s)) (rT (predict_J s d)) i j
      + @toSec RScalar d * (if fb_use_dyn s then fb_dynQ (computeDynamicProcessNoiseCovariance s (fb_state s))
                   else fb_Q s) i j)).
    apply psd_plus; [apply psd_sandwich; assumption|].
    apply psd_scale; [assumption|].
    destruct (fb_use_dyn s); [|assumption].
    eapply psd_scale_block; [| exact HQ | apply HQd; auto | exact Hblk].
    apply rsum_nonneg. intros. apply Rle_0_sqr.
  - intros i j Hi Hj Hij. destruct (fb_use_dyn s); [|apply Hdyn; assumption].
    rewrite Hblk, Hij by assumption. reflexivity.
  - exact Hu.
Qed.

Lemma ekf_correct_inv (s : ekf RScalar) m : good_meas m -> inv s -> inv (ekf_correct eig s m).
Proof.
  intros Hm (HP & HQ & Hdyn & Hu). unfold ekf_correct.
  destruct (checkMahalanobisThreshold _ _ _ _).
  - split; [|split; [|split]]; cbn; auto.
    apply joseph_psd; [assumption|]. apply psd_cov_subset; assumption.
  - repeat split; auto; try apply HP; try apply HQ.
Qed.

Lemma ekf_process_inv (s : ekf RScalar) m :
  good_meas m ->
  (fb_initialized s = false -> decoupled 15 (fun i => nth i (m_upd m) false) (fb_P s)) ->
  inv s -> inv (processMeasurement (ekf_vtbl eig) s m).
Proof.
  intros Hm Hdec Hi. unfold processMeasurement.
  destruct (fb_initialized s).
  - cbv zeta. cbn [ekf_vtbl v_predict v_correct].
    match goal with |- context [ekf_correct eig ?x m] => set (s1 := x) end.
    assert (H1 : inv s1).
    { unfold s1. destruct (Z.gtb_spec (m_time m - fb_last_time s) 0); [|assumption].
      apply inv_set_predicted, ekf_predict_inv; [lia|assumption]. }
    pose proof (ekf_correct_inv s1 m Hm H1) as H2.
    destruct (Z.geb _ _); [apply inv_set_last_time|]; exact H2.
  - specialize (Hdec eq_refl). destruct Hi as (HP & HQ & Hdyn & Hu). destruct Hm as [Hlen HC].
    split; [|split; [|split]]; cbn; auto.
    apply (psd_init_block (fun i => nth i (m_upd m) false) (fb_P s) (m_cov m)); auto.
    intros i j Hi Hj. rewrite Hlen. unfold flag.
    apply Nat.ltb_lt in Hi, Hj. change (Nat.leb i 14) with (Nat.ltb i 15).
    change (Nat.leb j 14) with (Nat.ltb j 15). rewrite Hi, Hj. reflexivity.
Qed.

Lemma default_Q_entry i :
  (i < 15)%nat -> 0 <= @default_Q RScalar i i.
Proof.
  intros Hi. unfold default_Q. rewrite Nat.eqb_refl. simpl negb. cbv iota.
  do 15 (destruct i as [|i]; [cbn [nth]; unfold lit; toR;
         match goal with |- context [(10 ^ ?k)%Z] => let v := eval compute in (10 ^ k)%Z in change (10 ^ k)%Z with v end; lra|]).
  lia.
Qed.

Lemma default_Q_psd : psd 15 (@default_Q RScalar).
Proof.
  eapply psd_ext; [|apply (psd_diag 15 (fun i => @default_Q RScalar i i) default_Q_entry)].
  intros i j Hi Hj. destruct (Nat.eqb_spec i j); [subst; reflexivity|].
  unfold default_Q. apply Nat.eqb_neq in n. rewrite n. reflexivity.
Qed.

Lemma default_P_psd : psd 15 (@mscale RScalar (lit 1 9) meye).
Proof.
  eapply psd_ext; [|apply (psd_diag 15 (fun _ => / 1000000000))].
  - intros i j Hi Hj. unfold mscale, meye. rewrite lit_1_9.
    destruct (Nat.eqb i j); toR; ring.
  - intros. lra.
Qed.

Lemma inv_reset s : inv s -> inv (fb_reset s).
Proof.
  intros (HP & HQ & Hdyn & Hu). split; [|split; [|split]]; cbn.
  - apply default_P_psd.
  - split; [apply default_Q_psd|]. intros _ i j Hi Hj Hne.
    unfold default_Q. destruct (Nat.eqb_spec i j); [congruence|]. reflexivity.
  - reflexivity.
  - exact Hu.
Qed.

Lemma inv_exec s o : op_ok dyn s o -> inv s -> inv (fb_exec (ekf_vtbl eig) s o).
Proof.
  intros Ho Hi. destruct o; cbn in Ho |- *.
  - apply ekf_predict_inv; assumption.
  - apply ekf_correct_inv; assumption.
  - destruct Ho. apply ekf_process_inv; assumption.
  - exact Hi.
  - exact Hi.
  - destruct Hi as (HP & HQ & Hdyn & Hu). repeat split; auto; try apply HP; try apply HQ.
  - destruct Hi as (HP & HQ & Hdyn & Hu). repeat split; auto; try apply Ho; try apply HQ.
  - exact Hi.
  - destruct Hi as (HP & HQ & Hdyn & Hu). repeat split; auto; try apply Ho; try apply HP.
  - exact Hi.
  - exact Hi.
  - apply inv_reset; assumption.
Qed.

Lemma inv_run ops : forall s, run_ok dyn (ekf_vtbl eig) s ops -> inv s -> inv (fb_run (ekf_vtbl eig) s ops).
Proof.
  induction ops as [|o r IH]; intros s Hok Hi; cbn in *; [assumption|].
  destruct Hok as [Ho Hr]. apply IH; [assumption|]. apply inv_exec; assumption.
Qed.

End Inv.

(** A freshly constructed filter satisfies the invariant. *)
Lemma inv_init garbage dyn : inv dyn (fb_init garbage tt).
Proof.
  split; [|split; [|split]]; cbn.
  - apply default_P_psd.
  - split; [apply default_Q_psd|]. intros _ i j Hi Hj Hne.
    unfold default_Q. destruct (Nat.eqb_spec i j); [congruence|]. reflexivity.
  - reflexivity.
  - discriminate.
Qed.
