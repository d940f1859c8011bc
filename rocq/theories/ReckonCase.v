(** * Cases of dead reckoning (C108) *)

From Coq Require Import Reals ZArith List Bool Lia Lra String Arith.
From Verif Require Import Scalar Mat FilterBase FilterOps Ekf EkfFacts StrMap Tf RosFilter RosConfig RosPrepare
  SpecConfig SpecNode SpecLin SpecFilter SpecOrder SpecTune SpecPrepare SpecStart SpecAccess SpecPublished SpecReckon
  RLin RBridge EkfPsd FilterExtra Pdef UkfUpdate Order EigenExist NodeMore Tune ReckonFacts ReckonNode PublishedCase PropsFilter PropsConfig PropsStart.
Import ListNotations.
Local Open Scope R_scope.

(** A measurement of vx with unit variance. *)
Definition speed (t : Z) (v : R) : meas RScalar :=
  @mkMeas RScalar "twist0" t (fun i => if Nat.eqb i 6 then v else 0) (fun i j => if Nat.eqb i j then 1 else 0)
    (flags [6%nat]) 5 (fun _ => 0) 0.
Lemma speed_good t v : good_meas (speed t v).
Proof. split; [reflexivity|]. apply (psd_diag 15 (fun _ => 1)). intros; lra. Qed.
Lemma speed_blind t v : no_position (speed t v).
Proof. intros i Hi. do 3 (destruct i as [|i]; [reflexivity|]). lia. Qed.

Definition rk_before : list (fb_op RScalar) := [OpProcess (speed 1000000000 2)].
Definition rk_more : list (meas RScalar) := [speed 51000000000 2; speed 101000000000 2].
Definition rk_floor : rmat := position_part (fun i j => if Nat.eqb i j then / 1000000000 else 0).
Definition rk_noise : rmat := position_part (@default_Q RScalar).

Lemma rk_ok eig : run_ok False (ekf_vtbl eig) ex_init (rk_before ++ map OpProcess rk_more).
Proof.
  unfold rk_before, rk_more. cbn [map List.app run_ok]. split; [|split; [|split; [|exact I]]].
  - split; [apply speed_good|]. intros _ i j Hi Hj Hne. rewrite ex_init_P. destruct (Nat.eqb_spec i j); [subst; congruence|reflexivity].
  - split; [apply speed_good|]. intros H. exfalso. revert H. change (true = false -> False). discriminate.
  - split; [apply speed_good|]. intros H. exfalso. revert H. cbn [fb_exec].
    rewrite (proj2 (NodeInv.process_time (ekf_vtbl eig) (NodeSmooth.ekf_neutral eig) _ _)). discriminate.
Qed.
Lemma init_P_diag : diagonal 15 (fb_P ex_init).
Proof. intros i j _ _ Hne. rewrite ex_init_P. apply Nat.eqb_neq in Hne. rewrite Hne. reflexivity. Qed.
Lemma rk_floor_below eig : loewner_le 15 rk_floor (fb_P (fb_run (ekf_vtbl eig) ex_init rk_before)).
Proof.
  assert (G : loewner_le 15 (fun i j => rk_floor i j + IZR (predicted (ekf_vtbl eig) ex_init rk_before) / 1000000000 * 0)
    (fb_P (fb_run (ekf_vtbl eig) ex_init rk_before))).
  { apply (reckoning_drifts eig False (fun _ => 0) [] rk_before rk_floor (fun _ _ => 0)).
    - cbn [List.app]. split; [apply (rk_ok eig)|exact I].
    - constructor; [apply speed_blind|constructor].
    - apply part_only.
    - intros i j _ _ _. reflexivity.
    - apply part_below; [apply (inv_init (fun _ => 0) False)|exact init_P_diag|intros i j _ _; symmetry; apply ex_init_P].
    - intros x. apply Rle_trans with 0; [right|apply default_Q_psd]. unfold quad. apply rsum_zero. intros. apply rsum_zero. intros. ring.
    - intros []. }
  intros x. specialize (G x). rewrite quad_plus in G.
  rewrite (quad_ext 15 (fun _ _ => _ * 0) (fun _ _ => 0)) in G by (intros i j _ _; ring).
  assert (Z0 : quad 15 (fun _ _ => 0) x = 0) by (unfold quad; apply rsum_zero; intros; apply rsum_zero; intros; ring).
  rewrite Z0 in G. lra.
Qed.
Lemma rk_noise_below : loewner_le 15 rk_noise (@default_Q RScalar).
Proof.
  apply part_below; [apply default_Q_psd| |intros i j _ _; reflexivity].
  intros i j _ _ Hne. unfold default_Q. apply Nat.eqb_neq in Hne. rewrite Hne. reflexivity.
Qed.
Lemma rk_started eig : let s := fb_run (ekf_vtbl eig) ex_init rk_before in
  fb_initialized s = true /\ fb_Q s = @default_Q RScalar /\ fb_last_time s = 1000000000%Z.
Proof. split; [reflexivity|]. split; reflexivity. Qed.
Lemma rk_last eig : fb_last_time (fb_run (ekf_vtbl eig) (fb_run (ekf_vtbl eig) ex_init rk_before) (map OpProcess rk_more)) = 101000000000%Z.
Proof.
  destruct (rk_started eig) as (A & _ & B). generalize dependent (fb_run (ekf_vtbl eig) ex_init rk_before). intros s A B.
  unfold rk_more. cbn [map fb_run fold_left fb_exec].
  destruct (NodeInv.process_time (ekf_vtbl eig) (NodeSmooth.ekf_neutral eig) s (speed 51000000000 2)) as [C D].
  rewrite A, B in C. generalize dependent (processMeasurement (ekf_vtbl eig) s (speed 51000000000 2)). intros s1 C D.
  destruct (NodeInv.process_time (ekf_vtbl eig) (NodeSmooth.ekf_neutral eig) s1 (speed 101000000000 2)) as [F _].
  rewrite F, D, C. reflexivity.
Qed.

(** A node with one twist topic and a given initial covariance. *)
Definition rk_P : list R := repeat 2 15.
Lemma rk_tw : tw_fact (Some rk_P) 0 2.
Proof. tw_facts. split; [|split]; lazy; reflexivity. Qed.
Lemma rk_taken (M : rmat) : taken_as (K := RScalar) (Some rk_P) mzero M -> meq 15 15 M (fun i j => if Nat.eqb i j then 2 else 0).
Proof.
  intros [H _]. destruct (H eq_refl) as [A B]. intros i j Hi Hj. destruct (Nat.eqb_spec i j) as [<-|Hne].
  - specialize (A i Hi). unfold rk_P in A. do 15 (destruct i as [|i]; [injection A as A; symmetry; exact A|]). lia.
  - apply B; assumption.
Qed.

(** With a correlated position a velocity makes the position more certain. *)
Definition rk_tied (k : nat) : R := if Nat.eqb k 0 then 1 else if Nat.eqb k 6 then 1 else 0.
Definition tied : ekf RScalar := @set_P RScalar unit ex_init (fun i j => rk_tied i * rk_tied j).
Lemma tied_psd : psd 15 (fb_P tied).
Proof.
  eapply psd_ext; [|apply (psd_sandwich 15 1 (fun i _ => rk_tied i) (fun _ _ => 1))].
  - intros i j Hi Hj. unfold rmul, rT. cbn [rsum]. change (fb_P tied i j) with (rk_tied i * rk_tied j). ring.
  - split; [intros i j _ _; reflexivity|]. intros x. unfold quad. cbn [rsum]. pose proof (Rle_0_sqr (x 0%nat)) as Q. unfold Rsqr in Q. lra.
Qed.
Lemma speed_noise : repaired_cov (speed 0 0) 6 6 = 1.
Proof. change (Rmax (Rabs 1) (/ 1000000000) = 1). rewrite Rabs_right by lra. apply Rmax_left. lra. Qed.
Lemma tied_ex eig : eigen_inverse_ok eig -> exists (s : ekf RScalar) m,
  psd 15 (fb_P s) /\ good_meas m /\ no_position m /\ fb_P (ekf_correct eig s m) 0%nat 0%nat < fb_P s 0%nat 0%nat.
Proof.
  intros He. exists tied, (speed 0 0). split; [exact tied_psd|]. split; [apply speed_good|]. split; [apply speed_blind|].
  assert (SE : selected (speed 0 0) = [6%nat]) by reflexivity.
  assert (HN : noisy_meas (speed 0 0)).
  { split; [reflexivity|]. rewrite SE. cbn [List.length].
    apply (pdef_ext 1 _ (fun i j => if Nat.eqb i j then 1 else 0)).
    - intros i j Hi Hj. replace i with 0%nat by lia. replace j with 0%nat by lia. unfold selected_noise. rewrite SE. cbn [nth Nat.eqb]. exact speed_noise.
    - apply (pdef_diag 1 (fun _ => 1)). intros; lra. }
  assert (HG : passes_gate (fb_state tied) (fb_P tied) (speed 0 0)).
  { exists (fun _ => 0), (fun _ => 0). rewrite SE. cbn [List.length]. split; [|split].
    - intros a Ha. rewrite SE in *. cbn in Ha. replace a with 0%nat by lia. cbn [nth]. split; [intros H; unfold angular in H; lia|].
      intros _. change (0 = 0 - 0). ring.
    - intros a Ha. unfold rmv. cbn [rsum]. ring.
    - unfold rdot. cbn [rsum]. change (m_thresh (speed 0 0)) with 5. lra. }
  pose proof (below_any eig He tied (speed 0 0) (fun k => if Nat.eqb k 0 then 1 else 0) (fun _ => 1 / 2) tied_psd HN HG) as H.
  rewrite unit_quad in H by lia.
  refine (Rle_lt_trans _ _ _ H _). change (fb_P tied 0%nat 0%nat) with (1 * 1).
  assert (E1 : quad (List.length (selected (speed 0 0))) (selected_noise (speed 0 0)) (fun _ => 1 / 2) = 1 / 4).
  { rewrite SE. unfold quad, selected_noise. rewrite SE. cbn [List.length rsum nth]. rewrite speed_noise. lra. }
  rewrite E1.
  assert (E2 : quad 15 (fb_P tied) (fun k => (if Nat.eqb k 0 then 1 else 0) - at_selected (speed 0 0) (fun _ => 1 / 2) k) = 1 / 4).
  { change (fb_P tied) with (fun i j => rk_tied i * rk_tied j). unfold at_selected. rewrite SE. unfold quad, rk_tied.
    cbn [List.length rsum nth Nat.eqb]. lra. }
  rewrite E2. lra.
Qed.
