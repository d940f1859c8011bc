(** * Two-D mode: the unconditional claim is false (C20) *)

From Coq Require Import Reals ZArith String List Bool Arith Lra Lia.
From Verif Require Import Scalar Mat FilterBase FilterOps Ekf EkfFacts SpecLin SpecFilter SpecMotion
  RLin RBridge EkfPsd Angles EkfUpdate Motion Pdef ForceTwoD TwoD.
Import ListNotations.
Local Open Scope R_scope.

(** An x measurement of 1 whose (PSD) covariance correlates x and z. *)
Definition tilt_cov : rmat := fun i j =>
  match i, j with
  | 0%nat, 0%nat => 1 | 2%nat, 2%nat => 1 | 0%nat, 2%nat => / 2 | 2%nat, 0%nat => / 2
  | _, _ => 0
  end.
Definition tilt_meas : meas RScalar :=
  @mkMeas RScalar "x" 0%Z (fun i => if Nat.eqb i 0 then 1 else 0 : RScalar) tilt_cov
    [true; false; false; false; false; false; false; false; false; false; false; false; false; false; false]
    100 (fun _ => 0 : RScalar) 0%Z.

Lemma tilt_psd : psd 15 tilt_cov.
Proof.
  split.
  - intros i j _ _. unfold tilt_cov. destruct i as [|[|[|i]]], j as [|[|[|j]]]; reflexivity.
  - intros x. unfold quad, tilt_cov, rsum.
    assert (H : 0 <= (x 0%nat + x 2%nat / 2) * (x 0%nat + x 2%nat / 2) + 3 / 4 * (x 2%nat * x 2%nat)).
    { apply Rplus_le_le_0_compat; [apply Rle_0_sqr|].
      apply Rmult_le_pos; [lra|apply Rle_0_sqr]. }
    eapply Rle_trans; [exact H|]. apply Req_le. field.
Qed.

Lemma tilt_forced_cov i j : m_cov (force_meas tilt_meas) i j =
  if (vertical i && Nat.eqb i j)%bool then / 1000000 else tilt_cov i j.
Proof.
  rewrite force_cov. destruct (_ && _)%bool; [|reflexivity].
  unfold lit. toR. change (10 ^ 6)%Z with 1000000%Z. lra.
Qed.

Lemma tilt_forced_not_psd : ~ psd 15 (m_cov (force_meas tilt_meas)).
Proof.
  intros [_ H].
  specialize (H (fun i => match i with 0%nat => 1 | 2%nat => -2 | _ => 0 end)).
  rewrite (quad_ext 15 _ (fun i j => if (vertical i && Nat.eqb i j)%bool then / 1000000 else tilt_cov i j)) in H
    by (intros i j _ _; apply tilt_forced_cov).
  unfold quad, rsum, tilt_cov, vertical in H. cbn [Nat.eqb andb] in H. lra.
Qed.

Lemma tilt_selected : selected (force_meas tilt_meas) = [0; 2; 3; 4; 8; 9; 10; 14]%nat.
Proof. reflexivity. Qed.

Definition tilt_S : rmat := fun a b =>
  match a, b with
  | 0%nat, 0%nat => 2 | 0%nat, 1%nat => / 2 | 1%nat, 0%nat => / 2
  | _, _ => if Nat.eqb a b then 1 + / 1000000 else 0
  end.

Lemma tilt_innov_cov : meq 8 8 (innovation_cov rI (force_meas tilt_meas)) tilt_S.
Proof.
  intros a b Ha Hb. unfold innovation_cov, repaired_cov. rewrite tilt_selected.
  assert (M : forall x y, y <= x -> Rmax x y = x) by (intros; apply Rmax_left; assumption).
  rewrite !tilt_forced_cov.
  do 8 (destruct a as [|a]; [do 8 (destruct b as [|b];
    [unfold tilt_S, rI; cbn [nth Nat.eqb vertical andb tilt_cov];
     rewrite ?(Rabs_right 1), ?(Rabs_right (/ 1000000)) by lra; rewrite ?M by lra; try lra|]); exfalso; lia|]).
  exfalso; lia.
Qed.

Lemma tilt_S_pdef : pdef 8 tilt_S.
Proof.
  split.
  - intros a b Ha Hb. unfold tilt_S. destruct a as [|[|a]], b as [|[|b]]; cbn [Nat.eqb]; try reflexivity.
    rewrite Nat.eqb_sym. reflexivity.
  - intros x Hx.
    pose proof (pdef_diag 8 (fun _ => / 2) ltac:(intros; lra)) as [_ Hd]. specialize (Hd x Hx).
    eapply Rlt_le_trans; [exact Hd|].
    assert (E : quad 8 tilt_S x - quad 8 (fun i j => if Nat.eqb i j then / 2 else 0) x =
      / 2 * ((x 0%nat + x 1%nat) * (x 0%nat + x 1%nat)) + x 0%nat * x 0%nat
      + / 1000000 * (x 1%nat * x 1%nat)
      + (/ 2 + / 1000000) * (x 2%nat * x 2%nat + x 3%nat * x 3%nat + x 4%nat * x 4%nat + x 5%nat * x 5%nat
            + x 6%nat * x 6%nat + x 7%nat * x 7%nat)).
    { unfold quad, rsum, tilt_S. cbn [Nat.eqb]. field. }
    assert (S : forall y : R, 0 <= y * y) by (intros; apply Rle_0_sqr).
    pose proof (S (x 0%nat + x 1%nat)). pose proof (S (x 0%nat)). pose proof (S (x 1%nat)).
    pose proof (S (x 2%nat)). pose proof (S (x 3%nat)). pose proof (S (x 4%nat)).
    pose proof (S (x 5%nat)). pose proof (S (x 6%nat)). pose proof (S (x 7%nat)). lra.
Qed.

(** State zero, unit covariance. *)
Definition level_filter : ekf RScalar :=
  set_P (@fb_init RScalar unit (fun _ => 0) tt) rI.

Definition tilt_det : R := 2 * (1 + / 1000000) - / 4.
Definition tilt_w : rvec := fun a =>
  match a with 0%nat => (1 + / 1000000) / tilt_det | 1%nat => - (/ 2) / tilt_det | _ => 0 end.

Lemma tilt_det_pos : 0 < tilt_det.
Proof. unfold tilt_det. lra. Qed.

Lemma two_d_leaves_plane eig : eigen_inverse_ok eig ->
  fb_state (ekf_correct eig level_filter (force_meas tilt_meas)) 2%nat <> 0.
Proof.
  intros Heig.
  pose proof tilt_det_pos as Hd.
  assert (Hlen : length (m_upd (force_meas tilt_meas)) = 15%nat) by reflexivity.
  assert (HSi : invertible (length (selected (force_meas tilt_meas)))
                  (innovation_cov (fb_P level_filter) (force_meas tilt_meas))).
  { rewrite tilt_selected. eapply invertible_ext; [|apply pdef_invertible, tilt_S_pdef].
    intros i j Hi Hj. symmetry. apply tilt_innov_cov; assumption. }
  set (nu := fun a : nat => match a with 0%nat => 1 | _ => 0 end).
  assert (Hnu : innovation_of (fb_state level_filter) (force_meas tilt_meas) nu).
  { intros a Ha i. unfold i. rewrite tilt_selected in *. pose proof PI_RGT_0.
    cbn [length] in Ha.
    assert (W : wrapped (0 - 0) 0) by (split; [lra|exists 0%Z; lra]).
    do 8 (destruct a as [|a]; [split; intros Hang; first [exact W|exfalso; unfold angular in Hang; cbn in Hang; lia
      |rewrite force_value; cbn; lra |exfalso; apply Hang; unfold angular; cbn; lia]|]). lia. }
  assert (Hw : veq (length (selected (force_meas tilt_meas)))
    (rmv (length (selected (force_meas tilt_meas))) (innovation_cov (fb_P level_filter) (force_meas tilt_meas)) tilt_w) nu).
  { rewrite tilt_selected. cbn [length]. intros a Ha.
    rewrite (rmv_ext 8 _ tilt_S tilt_w tilt_w) by (intros; auto; apply tilt_innov_cov; assumption).
    do 8 (destruct a as [|a]; [unfold rmv, rsum, tilt_S, tilt_w, nu; cbn [Nat.eqb];
      try (unfold tilt_det; field; unfold tilt_det in Hd; lra); try (field; lra)|]). lia. }
  destruct (ekf_accept eig Heig (force_meas tilt_meas) Hlen level_filter HSi nu tilt_w Hnu Hw) as [Hst _].
  { rewrite tilt_selected. cbn [length]. unfold rdot, rsum, nu, tilt_w.
    change (m_thresh (force_meas tilt_meas)) with 100.
    assert (H1 : (1 + / 1000000) / tilt_det < 2).
    { apply (Rmult_lt_reg_r tilt_det); [assumption|]. unfold Rdiv. rewrite Rmult_assoc, Rinv_l by lra.
      unfold tilt_det. lra. }
    lra. }
  destruct (Hst 2%nat ltac:(lia)) as [_ H2]. rewrite H2 by (unfold angular; lia).
  rewrite tilt_selected. cbn [length nth]. change (fb_P level_filter) with rI.
  unfold rsum, rI, tilt_w. cbn [Nat.eqb].
  change (fb_state level_filter 2%nat) with 0.
  intros E. assert (H3 : - / 2 / tilt_det = 0) by lra.
  assert (H4 : - / 2 / tilt_det * tilt_det = 0) by (rewrite H3; ring).
  unfold Rdiv in H4. rewrite Rmult_assoc, Rinv_l in H4 by lra. lra.
Qed.
