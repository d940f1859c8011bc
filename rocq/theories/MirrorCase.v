(** * A history and its mirror image; ties and negative limits (C106) *)

From Coq Require Import Reals ZArith List Bool Lia Lra Arith FunctionalExtensionality String.
From Verif Require Import Scalar Mat FilterBase FilterOps Ekf SpecLin SpecFilter SpecMotion SpecTurn SpecMirror
  RLin RBridge Angles EkfFacts EkfPsd EkfUpdate EigenExist FilterExtra Pdef Motion TurnFilter TurnCase MirrorFilter.
Import ListNotations.
Local Open Scope R_scope.

(** Two sightings at the same time, of which the second corrects the first,
    a command to turn, and a prediction *)
Definition mc_limits : list R := repeat 2 6.
Definition mc_ops (s : R) : list (fb_op RScalar) :=
  [@OpSetControlParams RScalar (repeat true 6) 1000000000 mc_limits mc_limits mc_limits mc_limits;
   @OpSetControl RScalar (fun i => if Nat.eqb i 5 then s * 1 else 0) 1000000000;
   OpProcess (tc_meas 1000000000 1 (s * 2) (s * 1) 4 5 true); OpProcess (tc_meas 1000000000 3 (s * 1) (s * - 1) 2 3 true);
   OpPredict 1500000000 500000000].

Lemma mc_mirrored t x y yaw u v b : mirrored_meas Left_right (tc_meas t x (1 * y) (1 * yaw) u v b) (tc_meas t x (-1 * y) (-1 * yaw) u v b).
Proof.
  exists (fun k => nth k [x; -1 * y; 0; 0; 0; -1 * yaw] 0), (tc_diag u v 1), (fun _ => 0). split; [reflexivity|].
  cbn [m_upd tc_meas m_value m_cov]. split.
  - intros k _. split; intros Hk.
    + destruct Hk as [->|[->| ->]]; cbn; exists 0%Z; ring.
    + do 3 (destruct k as [|k]; [cbn; ring|]). do 3 (destruct k as [|k]; [exfalso; apply Hk; unfold angular; lia|]).
      cbn [nth]. destruct k; ring.
  - intros i j _ _. change (tc_diag u v 1 i j = mirror_mat Left_right (tc_diag u v 1) i j). rewrite mm_diag; [reflexivity|].
    intros i' j' Hij. unfold tc_diag. apply Nat.eqb_neq in Hij. rewrite Hij. reflexivity.
Qed.
Lemma mc_tie x (m : meas RScalar) : (forall k, nth k (m_upd m) false = true -> angular k -> k = 5%nat) ->
  m_value m 5%nat = 1 * - 1 -> x 5%nat = 1 -> no_tie x m.
Proof.
  intros Hk Hm Hx k Ha Hs. rewrite (Hk k Hs Ha), Hm, Hx. intros (z & E).
  pose proof PI2_3_2. pose proof PI_4.
  assert (-1 < IZR z < 0).
  { split.
    - apply Rmult_lt_reg_r with (2 * PI); lra.
    - apply Rmult_lt_reg_r with (2 * PI); lra. }
  destruct H1 as (H1 & H2). apply (lt_IZR (-1)) in H1. apply (lt_IZR _ 0) in H2. lia.
Qed.

Lemma mc_good s : run_ok False (ekf_vtbl ideal_eigen) (@fb_init RScalar unit (fun _ => 0) tt) (mc_ops s).
Proof.
  unfold mc_ops. cbn [run_ok]. split; [exact I|split; [exact I|split; [|split; [|split; [cbn; lia|exact I]]]]].
  - cbn [op_ok]. split; [apply tc_good; lra|]. intros _ i j Hi Hj Hne. cbn. unfold mscale, meye.
    destruct (Nat.eqb_spec i j) as [->|E]; [congruence|]. toR. ring.
  - cbn [op_ok]. split; [apply tc_good; lra|]. cbn [fb_exec]. rewrite tc_initialized. discriminate.
Qed.
Lemma mc_history : mirrored_ops Left_right (ekf_vtbl ideal_eigen) (@fb_init RScalar unit (fun _ => 0) tt) (mc_ops 1) (mc_ops (-1)).
Proof.
  unfold mc_ops. cbn [mirrored_ops]. split; [|split; [|split; [|split; [|split; [|exact I]]]]].
  - cbn [mirrored_op]. split; [reflexivity|]. unfold mc_limits. split; repeat constructor; lra.
  - cbn [mirrored_op]. split; [reflexivity|]. intros i Hi. do 6 (destruct i as [|i]; [cbn; ring|]). lia.
  - cbn [mirrored_op]. split; [apply mc_mirrored|]. split; [apply tc_good; lra|]. discriminate.
  - cbn [mirrored_op]. split; [apply mc_mirrored|]. split; [apply tc_good; lra|]. intros _.
    apply mc_tie.
    + intros k Hk [->|[->| ->]]; cbn in Hk; try discriminate; reflexivity.
    + reflexivity.
    + cbn. ring.
  - reflexivity.
Qed.
Lemma mc_result : run_ok False (ekf_vtbl ideal_eigen) (@fb_init RScalar unit (fun _ => 0) tt) (mc_ops 1) /\
  mirrored_ops Left_right (ekf_vtbl ideal_eigen) (@fb_init RScalar unit (fun _ => 0) tt) (mc_ops 1) (mc_ops (-1)) /\
  let f := fb_run (ekf_vtbl ideal_eigen) (@fb_init RScalar unit (fun _ => 0) tt) (mc_ops 1) in
  let f' := fb_run (ekf_vtbl ideal_eigen) (@fb_init RScalar unit (fun _ => 0) tt) (mc_ops (-1)) in
  fb_state f' 0%nat = fb_state f 0%nat /\ fb_state f' 1%nat = - fb_state f 1%nat /\ fb_state f' 11%nat = - fb_state f 11%nat /\
  same_angle (fb_state f' 5%nat) (- fb_state f 5%nat) /\ fb_P f' 0%nat 5%nat = - fb_P f 0%nat 5%nat.
Proof.
  pose proof (mc_good 1) as H1. pose proof mc_history as H2. split; [exact H1|split; [exact H2|]].
  pose proof (init_run_mirrored Left_right ideal_eigen False _ _ _ ideal_inverse H1 H2) as (_ & _ & HX & HP).
  replace (@mirror_vec Left_right (fun _ => 0)) with (fun _ : nat => 0) in HX, HP by (extensionality k; unfold mirror_vec; ring).
  cbv zeta. revert HX HP.
  generalize (fb_run (ekf_vtbl ideal_eigen) (@fb_init RScalar unit (fun _ => 0) tt) (mc_ops 1)) (fb_run (ekf_vtbl ideal_eigen) (@fb_init RScalar unit (fun _ => 0) tt) (mc_ops (-1))).
  intros f f' HX HP.
  assert (N : forall k, ~ angular k -> fb_state f' k = sign Left_right k * fb_state f k) by (intros k Hk; exact (proj2 (HX k) Hk)).
  rewrite !N by (unfold angular; lia). rewrite HP. unfold mirror_mat, sign. cbn [flipped existsb Nat.eqb orb].
  change (sc RScalar) with R. split; [ring|split; [ring|split; [ring|split; [|ring]]]].
  pose proof (proj1 (HX 5%nat) ltac:(unfold angular; lia)) as E. unfold sign in E. cbn [flipped existsb Nat.eqb orb] in E.
  replace (- fb_state f 5%nat) with (-1 * fb_state f 5%nat) by ring. exact E.
Qed.

(** ** A tie *)
Definition mc_filter : ekf RScalar := set_initialized (set_P (@fb_init RScalar unit (fun _ => 0) tt) rI) true.
Definition mc_opposite : meas RScalar :=
  @mkMeas RScalar "odom0"%string 0%Z (fun k => if Nat.eqb k 5 then PI else 0) rI
    ([false; false; false; false; false; true] ++ repeat false 9) 100 (fun _ => 0) 0%Z.

Lemma mc_selected : selected mc_opposite = [5%nat].
Proof. reflexivity. Qed.
Lemma mc_noisy : good_meas mc_opposite /\ noisy mc_opposite.
Proof.
  split.
  - split; [reflexivity|]. apply (psd_diag 15 (fun _ => 1)). intros. lra.
  - unfold noisy. rewrite mc_selected. eapply pdef_ext; [|apply (pdef_diag _ (fun i => 1)); intros; lra].
    intros i j Hi Hj. cbn [List.length] in Hi, Hj. replace i with 0%nat by lia. replace j with 0%nat by lia. cbn.
    unfold repaired_cov. cbn. unfold rI. cbn. rewrite Rabs_R1. rewrite Rmax_left by lra. reflexivity.
Qed.
Lemma mc_self : mirrored_filter Left_right mc_filter mc_filter /\ mirrored_meas Left_right mc_opposite mc_opposite.
Proof.
  split.
  - split; [reflexivity|split; [reflexivity|split]].
    + intros k. cbn. unfold vzero. toR. split; intros _; [exists 0%Z|]; ring.
    + intros i j. change (rI i j = mirror_mat Left_right rI i j). rewrite mm_I. reflexivity.
  - exists (m_value mc_opposite), rI, (fun _ => 0). split; [reflexivity|]. cbn [m_upd mc_opposite m_value m_cov]. split.
    + intros k Hk. assert (E5 : k = 5%nat).
      { do 15 (destruct k as [|k]; [reflexivity || (exfalso; cbn in Hk; discriminate Hk)|]). cbn in Hk. destruct k; discriminate Hk. }
      subst k. unfold mirrored_entry, sign. cbn [flipped existsb Nat.eqb orb]. split; intros Ha; [exists 1%Z; ring|exfalso; apply Ha; unfold angular; lia].
    + intros i j _ _. rewrite mm_I. reflexivity.
Qed.

Lemma mc_tie_broken : exists (f : ekf RScalar) m, mirrored_filter Left_right f f /\ mirrored_meas Left_right m m /\
  psd 15 (fb_P f) /\ good_meas m /\ noisy m /\ (forall eig, eigen_inverse_ok eig -> ~ mirrored_filter Left_right (ekf_correct eig f m) (ekf_correct eig f m)).
Proof.
  exists mc_filter, mc_opposite. destruct mc_self as (H1 & H2). destruct mc_noisy as (H3 & H4).
  split; [exact H1|split; [exact H2|split; [apply (psd_diag 15 (fun _ => 1)); intros; lra|split; [exact H3|split; [exact H4|]]]]].
  intros eig Heig (_ & _ & HX & _).
  assert (ES : innovation_cov (fb_P mc_filter) mc_opposite 0%nat 0%nat = 2).
  { unfold innovation_cov. rewrite mc_selected. cbn. unfold repaired_cov. cbn. unfold rI. cbn. rewrite Rabs_R1. rewrite Rmax_left by lra. ring. }
  pose proof PI2_3_2. pose proof PI_4.
  assert (HI : invertible (List.length (selected mc_opposite)) (innovation_cov (fb_P mc_filter) mc_opposite)).
  { apply pdef_invertible. apply (pdef_psd_plus _ (fun a b => fb_P mc_filter (nth a (selected mc_opposite) 0%nat) (nth b (selected mc_opposite) 0%nat))); [|exact H4].
    rewrite mc_selected. cbn. apply (psd_ext 1 (fun i j => if Nat.eqb i j then 1 else 0)); [|apply (psd_diag 1 (fun _ => 1)); intros; lra].
    intros i j Hi Hj. replace i with 0%nat by lia. replace j with 0%nat by lia. reflexivity. }
  pose proof (ekf_accept eig Heig mc_opposite (proj1 H3) mc_filter HI (fun _ => PI) (fun _ => PI / 2)) as HA.
  rewrite mc_selected in HA. cbn [List.length] in HA.
  assert (HN : innovation_of (fb_state mc_filter) mc_opposite (fun _ => PI)).
  { intros a Ha. rewrite mc_selected in *. cbn [List.length] in Ha. replace a with 0%nat by lia. cbn.
    split; [intros _|intros N; exfalso; apply N; unfold angular; lia].
    split; [lra|]. exists 0%Z. unfold vzero. toR. ring. }
  specialize (HA HN). destruct HA as (HA & _).
  - intros i Hi. replace i with 0%nat by lia. unfold rmv. cbn [rsum]. rewrite ES. lra.
  - unfold rdot. cbn [rsum m_thresh mc_opposite]. nra.
  - specialize (HA 5%nat ltac:(lia)). cbv zeta in HA. rewrite mc_selected in HA. destruct HA as (HA & _).
    specialize (HA ltac:(unfold angular; lia)). destruct HA as (_ & k & E).
    pose proof (proj1 (HX 5%nat) ltac:(unfold angular; lia)) as (z & E2). unfold sign in E2. cbn [flipped existsb Nat.eqb orb] in E2.
    rewrite E in E2. clear E. cbn in E2. unfold vzero, rI in E2. cbn in E2. toR.
    assert (E3 : (1 + 4 * IZR k - 2 * IZR z) * PI = 0) by lra.
    apply Rmult_integral in E3. destruct E3 as [E3|E3]; [|lra].
    assert (E4 : IZR (1 + 4 * k - 2 * z) = 0) by (rewrite minus_IZR, plus_IZR, !mult_IZR; exact E3).
    apply eq_IZR_R0 in E4. lia.
Qed.

(** ** A negative limit *)
Definition mc_negative : ekf RScalar :=
  @setControlParams RScalar unit mc_filter (repeat true 6) 1000000000 (repeat (-1) 6) mc_limits mc_limits mc_limits.
Lemma mc_driven : fb_state (ekf_predict mc_negative 0 1000000000) 13%nat = -1.
Proof.
  rewrite predict_entry by apply meye_F_ok. rewrite wrap_angles_entry. change (is_angle 13) with false. cbv iota. cbn [Nat.ltb Nat.leb motion_fun].
  unfold shifted, controlled_state. cbn [Nat.leb andb Nat.sub]. cbn [fb_control_upd mc_negative setControlParams repeat nth].
  unfold predict_acc, prepareControl. cbn. unfold computeControlAcceleration, s_min, s_max, control_timed_out. cbn.
  unfold vzero. toR. unfold Rltb.
  repeat match goal with |- context [Rleb ?a ?b] => destruct (Rleb a b) end;
  repeat match goal with |- context [Rlt_dec ?a ?b] => lazymatch a with context [Rlt_dec] => fail | _ => lazymatch b with context [Rlt_dec] => fail | _ => destruct (Rlt_dec a b) end end end;
  rewrite ?Rabs_R0 in *; try lra.
Qed.
Lemma mc_limit : exists (f : ekf RScalar), mirrored_filter Left_right f f /\ (forall i, fb_control f i = 0) /\
  (forall k, fb_state f k = 0) /\
  ~ mirrored_filter Left_right (ekf_predict f 0 1000000000) (ekf_predict f 0 1000000000).
Proof.
  exists mc_negative. split; [exact (proj1 mc_self)|split; [reflexivity|split; [reflexivity|]]].
  intros (_ & _ & HX & _). pose proof (proj2 (HX 13%nat) ltac:(unfold angular; lia)) as E. rewrite mc_driven in E.
  unfold sign in E. cbn [flipped existsb Nat.eqb orb] in E. lra.
Qed.
