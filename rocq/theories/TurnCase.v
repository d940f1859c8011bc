(** * A history seen in two headings, and why the process noise matters (C98) *)

From Coq Require Import Reals ZArith List Bool Lia Lra Arith FunctionalExtensionality String.
From Verif Require Import Scalar Mat FilterBase FilterOps Ekf SpecLin SpecFilter SpecTurn
  RLin RBridge Angles EkfFacts EkfPsd EigenExist FilterExtra Pdef NodeInv NodeSmooth TurnMat TurnFilter.
Import ListNotations.
Local Open Scope R_scope.

Lemma tc_initialized eig (s : ekf RScalar) m : fb_initialized (processMeasurement (ekf_vtbl eig) s m) = true.
Proof. exact (proj2 (process_time (ekf_vtbl eig) (ekf_neutral eig) s m)). Qed.

Definition tc_diag (u v w : R) : rmat := fun i j => if Nat.eqb i j then nth i [u; v] w else 0.
Definition tc_meas (t : Z) (x y yaw u v : R) (with_yaw : bool) : meas RScalar :=
  @mkMeas RScalar "odom0"%string t (fun k => nth k [x; y; 0; 0; 0; yaw] 0) (tc_diag u v 1)
    ([true; true; false; false; false; with_yaw] ++ repeat false 9) 100 (fun _ => 0) 0%Z.
(** A quarter turn: east becomes north. *)
Definition tc_ops : list (fb_op RScalar) :=
  [OpProcess (tc_meas 1000000000 1 2 0 4 5 true); OpProcess (tc_meas 2000000000 3 1 0 2 3 false); OpPredict 3000000000 1000000000].
Definition tc_ops' : list (fb_op RScalar) :=
  [OpProcess (tc_meas 1000000000 (-2) 1 (PI / 2) 5 4 true); OpProcess (tc_meas 2000000000 (-1) 3 0 3 2 false); OpPredict 3000000000 1000000000].

Lemma tc_turned t x y yaw x' y' yaw' u v b : x' = - y -> y' = x -> (b = true -> yaw' = yaw + PI / 2) -> 1 <= u -> 1 <= v ->
  turned_meas (PI / 2) (tc_meas t x y yaw u v b) (tc_meas t x' y' yaw' v u b).
Proof.
  intros Ex Ey Eyaw Hu Hv. exists (fun k => nth k [x'; y'; 0; 0; 0; yaw'] 0), (tc_diag v u 1). split; [reflexivity|].
  cbn [m_upd tc_meas m_value m_cov]. pose proof cos_PI2 as Hc. pose proof sin_PI2 as Hs.
  assert (Hsel : forall k, nth k ([true; true; false; false; false; b] ++ repeat false 9) false = true -> (k < 6)%nat).
  { intros k Hk. do 15 (destruct k as [|k]; [try lia; cbn in Hk; discriminate|]). cbn in Hk. destruct k; discriminate. }
  split; [cbn; tauto|]. split; [|split; [|split]].
  - intros k Hk H5. specialize (Hsel k Hk). do 6 (destruct k as [|k]; [cbn; rewrite ?Hc, ?Hs; subst; try ring; try reflexivity; try lia|]). lia.
  - cbn. intros Hb. exists 0%Z. rewrite (Eyaw Hb). ring.
  - intros i j Hi Hj. apply Hsel in Hi, Hj. unfold turn_mat, tc_diag.
    destruct i as [|[|i]], j as [|[|j]]; cbn; rewrite ?Hc, ?Hs; try ring; reflexivity.
  - intros i Hi Hk. destruct i as [|[|i]]; [| |lia]; unfold tc_diag; cbn; split; lra.
Qed.
Lemma tc_good t x y yaw u v b : 1 <= u -> 1 <= v -> good_meas (tc_meas t x y yaw u v b) /\ noisy (tc_meas t x y yaw u v b).
Proof.
  intros Hu Hv. split.
  - split; [reflexivity|]. apply (psd_diag 15 (fun i => nth i [u; v] 1)). intros i _. destruct i as [|[|i]]; cbn; [lra|lra|destruct i; lra].
  - unfold noisy. eapply pdef_ext; [|apply (pdef_diag _ (fun i => repaired_cov (tc_meas t x y yaw u v b) (nth i (selected (tc_meas t x y yaw u v b)) 0%nat) (nth i (selected (tc_meas t x y yaw u v b)) 0%nat)))].
    + intros i j Hi Hj. cbv beta. destruct (Nat.eqb_spec i j) as [->|Hne]; [reflexivity|].
      assert (HN : NoDup (selected (tc_meas t x y yaw u v b))) by (apply NoDup_filter, seq_NoDup).
      assert (HE : nth i (selected (tc_meas t x y yaw u v b)) 0%nat <> nth j (selected (tc_meas t x y yaw u v b)) 0%nat)
        by (intros E; apply Hne; apply (proj1 (NoDup_nth _ 0%nat) HN); assumption).
      unfold repaired_cov. apply Nat.eqb_neq in HE. rewrite HE. cbn [m_cov tc_meas]. unfold tc_diag. rewrite HE. reflexivity.
    + intros i _. unfold repaired_cov. rewrite Nat.eqb_refl. apply Rlt_le_trans with (/ 1000000000); [lra|apply Rmax_r].
Qed.
Lemma tc_ok g eig : run_ok False (ekf_vtbl eig) (fb_init g tt) tc_ops.
Proof.
  unfold tc_ops. cbn [run_ok]. split; [|split; [|split; [cbn; lia|exact I]]].
  - cbn [op_ok]. split; [apply tc_good; lra|]. intros _ i j Hi Hj Hne. cbn [fb_P fb_init fb_reset]. unfold mscale, meye.
    destruct (Nat.eqb_spec i j) as [->|E]; [congruence|]. toR. ring.
  - cbn [op_ok]. split; [apply tc_good; lra|]. cbn [fb_exec]. rewrite tc_initialized. discriminate.
Qed.
Lemma tc_history g eig : turned_ops (PI / 2) (ekf_vtbl eig) (fb_init g tt) tc_ops tc_ops'.
Proof.
  unfold tc_ops, tc_ops'. cbn [turned_ops]. split; [|split; [|split; [|exact I]]].
  - cbn [turned_op]. split; [apply tc_turned; intros; lra|]. split; [apply tc_good; lra|]. intros _. split; [reflexivity|left; reflexivity].
  - cbn [turned_op]. split; [apply tc_turned; intros; lra || discriminate|]. split; [apply tc_good; lra|]. cbn [fb_exec]. rewrite tc_initialized. discriminate.
  - cbn [turned_op]. split; [reflexivity|]. cbn [fb_exec]. apply tc_initialized.
Qed.

(** With process noise in x only *)
Definition tc_Q : rmat := fun i j => match i, j with 0%nat, 0%nat => 1 | _, _ => 0 end.
Definition tc_filter (yaw : R) : ekf RScalar :=
  let f := @fb_init RScalar unit (fun _ => 0) tt in
  setProcessNoiseCovariance (set_initialized (set_P (set_state f (fun k => if Nat.eqb k 5 then yaw else 0)) (fun _ _ => 0)) true) tc_Q.
Lemma tc_spread yaw i j : fb_P (ekf_predict (tc_filter yaw) 0 1000000000) i j = tc_Q i j.
Proof.
  rewrite predict_P. unfold madd, mscale. change (@noise_used RScalar (tc_filter yaw)) with tc_Q. change (fb_P (tc_filter yaw)) with (fun _ _ : nat => 0).
  generalize (predict_J (tc_filter yaw) 1000000000). intros J.
  assert (E : toSec (K := RScalar) 1000000000 = 1).
  { unfold toSec. toR. cbn. lra. }
  rewrite E. toR.
  rewrite (rmul_ext 15 _ (fun _ _ => 0) _ (rT J) i j); [|intros l Hl; unfold rmul; apply rsum_zero; intros; ring|auto].
  unfold rmul. rewrite rsum_zero by (intros; ring). ring.
Qed.
Lemma tc_noise : exists (f f' : ekf RScalar), turned_filter (PI / 2) f f' /\ fb_initialized f = true /\
  f' = set_state f (fb_state f') /\ psd 15 (fb_Q f) /\
  ~ turned_filter (PI / 2) (ekf_predict f 0 1000000000) (ekf_predict f' 0 1000000000).
Proof.
  exists (tc_filter 0), (tc_filter (PI / 2)). split; [|split; [reflexivity|split; [reflexivity|split]]].
  - split; [reflexivity|split; [reflexivity|]]. intros _. split; [split|].
    + intros k Hk. cbn [fb_state tc_filter setProcessNoiseCovariance set_dynQ set_Q set_initialized set_P set_state].
      apply Nat.eqb_neq in Hk. rewrite Hk. destruct k as [|[|k]]; cbn [turn_vec]; [cbn; ring|cbn; ring|]. rewrite Hk. reflexivity.
    + exists 0%Z. cbn. ring.
    + intros i j. cbn [fb_P tc_filter setProcessNoiseCovariance set_dynQ set_Q set_initialized set_P set_state].
      unfold turn_mat. destruct i as [|[|i]], j as [|[|j]]; cbn; ring.
  - change (fb_Q (tc_filter 0)) with tc_Q. apply (psd_ext 15 (fun i j => if Nat.eqb i j then (if Nat.eqb i 0 then 1 else 0) else 0)).
    + intros i j _ _. destruct i, j; cbn; try reflexivity. destruct (Nat.eqb i j); reflexivity.
    + apply (psd_diag 15 (fun i => if Nat.eqb i 0 then 1 else 0)). intros i _. destruct (Nat.eqb i 0); lra.
  - intros (_ & _ & H). destruct H as (_ & H); [reflexivity|]. specialize (H 0%nat 0%nat). unfold turn_mat in H. cbn [turn_vec] in H.
    rewrite !tc_spread in H. rewrite cos_PI2, sin_PI2 in H. cbn in H. lra.
Qed.
Lemma tc_quarter (x : rvec) (A : rmat) : turn_vec (PI / 2) x 0%nat = - x 1%nat /\ turn_vec (PI / 2) x 1%nat = x 0%nat /\
  turn_mat (PI / 2) A 0%nat 0%nat = A 1%nat 1%nat /\ turn_mat (PI / 2) A 1%nat 1%nat = A 0%nat 0%nat.
Proof. unfold turn_mat. cbn [turn_vec]. rewrite cos_PI2, sin_PI2. repeat split; ring. Qed.
Lemma tc_result : exists g, run_ok False (ekf_vtbl ideal_eigen) (fb_init g tt) tc_ops /\
  turned_ops (PI / 2) (ekf_vtbl ideal_eigen) (fb_init g tt) tc_ops tc_ops' /\
  let f := fb_run (ekf_vtbl ideal_eigen) (fb_init g tt) tc_ops in
  let f' := fb_run (ekf_vtbl ideal_eigen) (fb_init g tt) tc_ops' in
  fb_state f' 0%nat = - fb_state f 1%nat /\ fb_state f' 1%nat = fb_state f 0%nat /\
  fb_P f' 0%nat 0%nat = fb_P f 1%nat 1%nat /\ fb_P f' 1%nat 1%nat = fb_P f 0%nat 0%nat.
Proof.
  set (g := (fun _ => 0) : vec RScalar). exists g. clearbody g. pose proof (tc_ok g ideal_eigen) as H1. pose proof (tc_history g ideal_eigen) as H2.
  split; [exact H1|split; [exact H2|]].
  pose proof (init_run_turned (PI / 2) ideal_eigen False g tc_ops tc_ops' ideal_inverse H1 H2) as (_ & _ & H).
  assert (HI : fb_initialized (fb_run (ekf_vtbl ideal_eigen) (fb_init g tt) tc_ops) = true).
  { unfold tc_ops. cbn [fb_run fold_left]. cbn [fb_exec v_predict ekf_vtbl].
    match goal with |- fb_initialized (ekf_predict ?s ?r ?d) = _ => pose proof (predict_other s r d) as (B1 & _) end.
    rewrite B1. apply tc_initialized. }
  destruct (H HI) as ((HX & _) & HP). cbv zeta. revert HX HP.
  generalize (fb_run (ekf_vtbl ideal_eigen) (fb_init g tt) tc_ops) (fb_run (ekf_vtbl ideal_eigen) (fb_init g tt) tc_ops').
  intros f f' HX HP. pose proof (tc_quarter (fb_state f) (fb_P f)) as (E1 & E2 & E3 & E4).
  rewrite !HX by discriminate. rewrite !HP. repeat split; assumption.
Qed.
