(** * A fix of two variables, at once and in parts (C100) *)

From Coq Require Import Reals ZArith String List Bool Arith Lra Lia Permutation.
From Verif Require Import Scalar Mat FilterBase Ekf SpecLin SpecFilter SpecOrder SpecBest RLin RBridge
  EkfPsd Angles EkfUpdate Pdef FilterExtra UkfFirst Order OrderCases Best.
Import ListNotations.
Local Open Scope R_scope.

(** A fix of x and y at (1, 1) with unit variances and gate [t], and its part
    of y; its part of x is [x_fix 1 1 t]. *)
Definition xy_fix (t : R) : meas RScalar :=
  @mkMeas RScalar "fix" 0 (fun i => if (i <? 2)%nat then 1 else 0) (fun i j => if Nat.eqb i j then 1 else 0)
    (true :: true :: repeat false 13) t (fun _ => 0) 0.
Definition y_fix (t : R) : meas RScalar :=
  @mkMeas RScalar "fix" 0 (fun i => if Nat.eqb i 1 then 1 else 0) (fun i j => if Nat.eqb i j then 1 else 0)
    (false :: true :: repeat false 13) t (fun _ => 0) 0.

Lemma one_repaired : Rmax (Rabs 1) (/ 1000000000) = 1.
Proof. rewrite Rabs_right by lra. apply Rmax_left. lra. Qed.

Lemma xy_selected t : selected (xy_fix t) = [0; 1]%nat.
Proof. reflexivity. Qed.
Lemma y_selected t : selected (y_fix t) = [1]%nat.
Proof. reflexivity. Qed.

Lemma two a : (a < 2)%nat -> a = 0%nat \/ a = 1%nat.
Proof. lia. Qed.

Lemma unit_pdef n A : meq n n A rI -> pdef n A.
Proof.
  intros H. apply (pdef_ext n _ (fun i j => if Nat.eqb i j then 1 else 0)).
  - intros i j Hi Hj. exact (H i j Hi Hj).
  - apply (pdef_diag n (fun _ => 1)). intros; lra.
Qed.

Lemma xy_noise t : meq 2 2 (selected_noise (xy_fix t)) rI.
Proof.
  intros i j Hi Hj. unfold selected_noise. rewrite xy_selected.
  destruct (two i Hi) as [->| ->], (two j Hj) as [->| ->]; cbn [nth]; unfold repaired_cov, rI; cbn [Nat.eqb];
    try reflexivity; exact one_repaired.
Qed.
Lemma y_noise t : meq 1 1 (selected_noise (y_fix t)) rI.
Proof.
  intros i j Hi Hj. unfold selected_noise. rewrite y_selected.
  replace i with 0%nat by lia. replace j with 0%nat by lia. exact one_repaired.
Qed.

Lemma xy_linear t : linear_meas (xy_fix t).
Proof.
  split; [reflexivity|]. split; [|rewrite xy_selected; apply unit_pdef, xy_noise].
  intros a Ha. rewrite xy_selected in *. cbn in Ha. unfold angular.
  destruct (two a Ha) as [->| ->]; cbn [nth]; lia.
Qed.
Lemma y_linear t : linear_meas (y_fix t).
Proof.
  split; [reflexivity|]. split; [|rewrite y_selected; apply unit_pdef, y_noise].
  intros a Ha. rewrite y_selected in *. cbn in Ha. replace a with 0%nat by lia. unfold angular; cbn; lia.
Qed.

Lemma x_selects t i : selects (x_fix 1 1 t) i <-> i = 0%nat.
Proof.
  unfold selects. cbn [m_upd x_fix]. destruct i as [|i]; [split; reflexivity|]. cbn [nth].
  rewrite (nth_repeat false 14 i). split; intros; discriminate.
Qed.
Lemma y_selects t i : selects (y_fix t) i <-> i = 1%nat.
Proof.
  unfold selects. cbn [m_upd y_fix]. destruct i as [|[|i]]; [split; intros; discriminate|split; reflexivity|]. cbn [nth].
  rewrite (nth_repeat false 13 i). split; intros; discriminate.
Qed.
Lemma xy_selects t i : selects (xy_fix t) i <-> (i = 0%nat \/ i = 1%nat).
Proof.
  unfold selects. cbn [m_upd xy_fix].
  destruct i as [|[|i]]; [split; auto|split; auto|]. cbn [nth].
  rewrite (nth_repeat false 13 i). split; [intros; discriminate|intros [|]; discriminate].
Qed.

Lemma fix_together t : put_together (x_fix 1 1 t) (y_fix t) (xy_fix t).
Proof.
  intros i Hi. pose proof (x_selects t i) as X. pose proof (y_selects t i) as Y. pose proof (xy_selects t i) as XY.
  split; [tauto|]. split; [intros [A B]; apply X in A; apply Y in B; lia|].
  split; [intros A; apply X in A; subst; reflexivity|]. split; [intros A; apply Y in A; subst; reflexivity|].
  intros j Hj. split; [reflexivity|]. split; [reflexivity|].
  intros A B. apply X in A. apply (y_selects t j) in B. subst. split; reflexivity.
Qed.

Section Unit.
Variables (x : rvec) (P : rmat).
Hypothesis HP : forall i j, (i < 2)%nat -> (j < 2)%nat -> P i j = rI i j.
Hypothesis Hx : forall i, (i < 2)%nat -> x i = 0.

Lemma xy_innov t : innovation_of x (xy_fix t) (fun _ => 1).
Proof.
  intros a Ha. rewrite xy_selected in *. cbn in Ha. cbv zeta. split.
  - unfold angular. destruct (two a Ha) as [->| ->]; cbn [nth]; lia.
  - intros _. destruct (two a Ha) as [->| ->]; cbn [nth]; rewrite Hx by lia; cbn; ring.
Qed.
Lemma xy_S t a b : (a < 2)%nat -> (b < 2)%nat -> innovation_cov P (xy_fix t) a b = 2 * rI a b.
Proof.
  intros Ha Hb.
  assert (E : innovation_cov P (xy_fix t) a b =
    P (nth a (selected (xy_fix t)) 0%nat) (nth b (selected (xy_fix t)) 0%nat) + selected_noise (xy_fix t) a b) by reflexivity.
  rewrite E, (xy_noise t a b Ha Hb). rewrite xy_selected.
  destruct (two a Ha) as [->| ->], (two b Hb) as [->| ->]; cbn [nth]; rewrite HP by lia; unfold rI; cbn [Nat.eqb]; ring.
Qed.
Lemma xy_solve t : veq (length (selected (xy_fix t)))
  (rmv (length (selected (xy_fix t))) (innovation_cov P (xy_fix t)) (fun _ => / 2)) (fun _ => 1).
Proof.
  rewrite xy_selected. cbn [length]. intros a Ha. unfold rmv. cbn [rsum]. rewrite !xy_S by lia.
  destruct (two a Ha) as [->| ->]; unfold rI; cbn [Nat.eqb]; lra.
Qed.
Lemma xy_dot t : rdot (length (selected (xy_fix t))) (fun _ => 1) (fun _ => / 2) = 1.
Proof. rewrite xy_selected. unfold rdot. cbn. lra. Qed.
Lemma xy_invertible t : invertible (length (selected (xy_fix t))) (innovation_cov P (xy_fix t)).
Proof.
  rewrite xy_selected. cbn [length]. exists (fun i j => / 2 * rI i j). intros i j Hi Hj.
  unfold rmul. cbn [rsum]. rewrite !xy_S by lia.
  destruct (two i Hi) as [->| ->], (two j Hj) as [->| ->]; unfold rI; cbn [Nat.eqb]; split; lra.
Qed.
Lemma xy_passes t : 1 < t * t -> passes_gate x P (xy_fix t).
Proof.
  intros Ht. exists (fun _ => 1), (fun _ => / 2). split; [apply xy_innov|]. split; [apply xy_solve|].
  rewrite xy_dot. exact Ht.
Qed.
End Unit.

Lemma y_passes (x : rvec) (P : rmat) t : P 1%nat 1%nat = 1 -> x 1%nat = 0 -> 1 < 2 * (t * t) -> passes_gate x P (y_fix t).
Proof.
  intros HP Hx Ht. exists (fun _ => 1), (fun _ => / 2).
  assert (ES : innovation_cov P (y_fix t) 0%nat 0%nat = 2).
  { change (P 1%nat 1%nat + selected_noise (y_fix t) 0%nat 0%nat = 2). rewrite HP, (y_noise t 0%nat 0%nat) by lia.
    unfold rI. cbn [Nat.eqb]. ring. }
  split; [|split].
  - intros a Ha. rewrite y_selected in *. cbn in Ha. replace a with 0%nat by lia. cbv zeta. cbn [nth]. split.
    + unfold angular. lia.
    + intros _. rewrite Hx. cbn. ring.
  - rewrite y_selected. cbn [length]. intros a Ha. replace a with 0%nat by lia. unfold rmv. cbn [rsum]. rewrite ES. lra.
  - rewrite y_selected. unfold rdot. cbn. change (m_thresh (y_fix t)) with t. lra.
Qed.

Section Ekf.
Variable eig : Eigen RScalar.
Hypothesis Heig : eigen_inverse_ok eig.
Variable s : ekf RScalar.
Hypothesis HP : meq 15 15 (fb_P s) rI.
Hypothesis Hx : forall i, (i < 2)%nat -> fb_state s i = 0.

(** The part of x leaves y as it is. *)
Lemma x_leaves_y t : 1 < 2 * (t * t) ->
  let s' := ekf_correct eig s (x_fix 1 1 t) in
  fb_P s' 1%nat 1%nat = 1 /\ fb_state s' 1%nat = 0.
Proof.
  intros Ht. assert (H00 : fb_P s 0%nat 0%nat = 1) by (rewrite HP by lia; reflexivity).
  destruct (fix_solve 1 1 t ltac:(lra) (fb_P s) 1 ltac:(lra) H00 (1 - 0)) as [A B].
  pose proof (fix_nu 1 1 t (fb_state s)) as N. cbv zeta in N. rewrite (Hx 0%nat ltac:(lia)) in N.
  destruct (ekf_accept eig Heig (x_fix 1 1 t) eq_refl s (fix_invertible 1 1 t ltac:(lra) (fb_P s) 1 ltac:(lra) H00) _ _ N A) as [C D].
  { rewrite B. apply gate_1; [lra|]. change (m_thresh (x_fix 1 1 t)) with t. lra. }
  cbv zeta. split.
  - destruct (fix_solve 1 1 t ltac:(lra) (fb_P s) 1 ltac:(lra) H00 0) as [A' _].
    rewrite (D 1%nat (fun _ => 0 / (1 + 1)) ltac:(lia)); [|  |lia].
    + rewrite fix_selected. cbn [length rsum nth]. rewrite !HP by lia. unfold rI. cbn [Nat.eqb]. lra.
    + intros a Ha. rewrite (A' a Ha). rewrite fix_selected in *. cbn in Ha. replace a with 0%nat by lia.
      cbn [nth]. rewrite HP by lia. reflexivity.
  - destruct (C 1%nat ltac:(lia)) as [_ C2]. rewrite C2 by (unfold angular; lia).
    rewrite fix_selected. cbn [length rsum nth]. rewrite HP by lia. rewrite Hx by lia. unfold rI. cbn [Nat.eqb]. lra.
Qed.

Lemma parts_accepted t : 1 < 2 * (t * t) -> all_accepted eig s [x_fix 1 1 t; y_fix t].
Proof.
  intros Ht. split; [|split; [|exact I]].
  - apply (fix_passes 1 1 t ltac:(lra) _ _ 1 ltac:(lra)); [rewrite HP by lia; reflexivity|]. rewrite Hx by lia. lra.
  - destruct (x_leaves_y t Ht) as [A B]. apply y_passes; assumption.
Qed.

Lemma xy_accepted t : 1 < t * t -> passes_gate (fb_state s) (fb_P s) (xy_fix t).
Proof. intros Ht. apply xy_passes; [intros; apply HP; lia|exact Hx|exact Ht]. Qed.

Lemma xy_refused : ekf_correct eig s (xy_fix 1) = s.
Proof.
  assert (H2 : forall i j, (i < 2)%nat -> (j < 2)%nat -> fb_P s i j = rI i j) by (intros; apply HP; lia).
  apply (ekf_reject eig Heig (xy_fix 1) eq_refl s (xy_invertible (fb_P s) H2 1) (fun _ => 1) (fun _ => / 2)
    (xy_innov (fb_state s) Hx 1) (xy_solve (fb_P s) H2 1)).
  rewrite xy_dot. change (m_thresh (xy_fix 1)) with 1. lra.
Qed.

Lemma parts_moved t : 1 < 2 * (t * t) ->
  fb_state (ekf_correct eig (ekf_correct eig s (x_fix 1 1 t)) (y_fix t)) 1%nat = / 2.
Proof.
  intros Ht. destruct (x_leaves_y t Ht) as [A B]. set (s' := ekf_correct eig s (x_fix 1 1 t)) in *.
  assert (ES : innovation_cov (fb_P s') (y_fix t) 0%nat 0%nat = 2).
  { change (fb_P s' 1%nat 1%nat + selected_noise (y_fix t) 0%nat 0%nat = 2). rewrite A, (y_noise t 0%nat 0%nat) by lia.
    unfold rI. cbn [Nat.eqb]. ring. }
  assert (HSi : invertible (length (selected (y_fix t))) (innovation_cov (fb_P s') (y_fix t))).
  { rewrite y_selected. apply invertible_1. rewrite ES. lra. }
  destruct (ekf_accept eig Heig (y_fix t) eq_refl s' HSi (fun _ => 1) (fun _ => / 2)) as [C _].
  - intros a Ha. rewrite y_selected in *. cbn in Ha. replace a with 0%nat by lia. cbv zeta. cbn [nth]. split.
    + unfold angular. lia.
    + intros _. rewrite B. cbn. ring.
  - rewrite y_selected. cbn [length]. intros a Ha. replace a with 0%nat by lia. unfold rmv. cbn [rsum]. rewrite ES. lra.
  - rewrite y_selected. unfold rdot. cbn. change (m_thresh (y_fix t)) with t. lra.
  - destruct (C 1%nat ltac:(lia)) as [_ C2]. rewrite C2 by (unfold angular; lia).
    rewrite y_selected. cbn [length rsum nth]. rewrite A, B. lra.
Qed.
End Ekf.

(** Both parts are taken, the whole is not. *)
Lemma whole_refused eig : eigen_inverse_ok eig ->
  forall s : ekf RScalar, meq 15 15 (fb_P s) rI -> (forall i, (i < 2)%nat -> fb_state s i = 0) ->
  exists p q m : meas RScalar, linear_meas p /\ linear_meas q /\ linear_meas m /\ put_together p q m /\
    m_thresh p = m_thresh m /\ m_thresh q = m_thresh m /\
    all_accepted eig s [p; q] /\ ekf_correct eig s m = s /\
    fb_state (ekf_correct eig (ekf_correct eig s p) q) 1%nat = 1 / 2.
Proof.
  intros Heig s HP Hx. exists (x_fix 1 1 1), (y_fix 1), (xy_fix 1).
  split; [apply fix_linear; lra|]. split; [apply y_linear|]. split; [apply xy_linear|].
  split; [apply fix_together|]. split; [reflexivity|]. split; [reflexivity|].
  split; [apply parts_accepted; try assumption; lra|]. split; [apply xy_refused; assumption|].
  rewrite parts_moved; try assumption; lra.
Qed.
