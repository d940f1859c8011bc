(** * Corrections whose order matters: the gate and the unscented filter (C85) *)

From Coq Require Import Reals ZArith String List Bool Arith Lra Lia Permutation.
From Verif Require Import Scalar Mat FilterBase Ekf Ukf SpecLin SpecFilter SpecOrder
  RLin RBridge EkfPsd Angles EkfUpdate UkfProofs UkfUpdate Pdef FilterExtra UkfFirst Order.
Import ListNotations.
Local Open Scope R_scope.

(** A fix of x with variance [r] and gate [t]. *)
Definition x_fix (z r t : R) : meas RScalar :=
  @mkMeas RScalar "fix" 0 (fun i => if Nat.eqb i 0 then z else 0) (fun i j => if Nat.eqb i j then r else 0)
    (true :: repeat false 14) t (fun _ => 0) 0.

Section Fix.
Variables (z r t : R).
Hypothesis Hr : 1 <= r.
Let m := x_fix z r t.

Lemma fix_selected : selected m = [0%nat].
Proof. reflexivity. Qed.
Lemma fix_noise : repaired_cov m 0 0 = r.
Proof.
  change (Rmax (Rabs r) (/ 1000000000) = r). rewrite Rabs_right by lra. apply Rmax_left. lra.
Qed.
Lemma fix_no_angle : no_angle_selected m.
Proof.
  intros a Ha. rewrite fix_selected in *. cbn in Ha. assert (a = 0%nat) by lia. subst. cbn. unfold angular. lia.
Qed.
Lemma fix_linear : linear_meas m.
Proof.
  split; [reflexivity|]. split; [exact fix_no_angle|]. rewrite fix_selected. cbn [length].
  apply (pdef_ext 1 _ (fun i j => if Nat.eqb i j then r else 0)).
  - intros i j Hi Hj. replace i with 0%nat by lia. replace j with 0%nat by lia. unfold selected_noise.
    rewrite fix_selected. cbn [nth Nat.eqb]. exact fix_noise.
  - apply (pdef_diag 1 (fun _ => r)). intros; lra.
Qed.

Variables (x : rvec) (P : rmat) (p : R).
Hypothesis Hp : 0 < p.
Hypothesis HP : P 0%nat 0%nat = p.
Let nu := z - x 0%nat.

Lemma fix_S : innovation_cov P m 0%nat 0%nat = p + r.
Proof. unfold innovation_cov. rewrite fix_selected. cbn [nth]. rewrite fix_noise, HP. reflexivity. Qed.
Lemma fix_invertible : invertible (length (selected m)) (innovation_cov P m).
Proof. rewrite fix_selected. apply invertible_1. rewrite fix_S. lra. Qed.
Lemma fix_nu : innovation_of x m (fun _ => nu).
Proof.
  intros a Ha. rewrite fix_selected in *. cbn in Ha. replace a with 0%nat by lia. cbn [nth].
  split; [intros H; unfold angular in H; lia|reflexivity].
Qed.
Lemma fix_solve c : veq (length (selected m)) (rmv (length (selected m)) (innovation_cov P m) (fun _ => c / (p + r))) (fun _ => c) /\
  rdot (length (selected m)) (fun _ => c) (fun _ => c / (p + r)) = c * c / (p + r).
Proof.
  rewrite fix_selected. cbn [length]. rewrite <- fix_S. apply solve_1. rewrite fix_S. lra.
Qed.
Lemma fix_gain : is_gain P m (fun k _ => P k 0%nat / (p + r)).
Proof.
  intros k a Hk Ha. rewrite fix_selected in *. cbn in Ha. replace a with 0%nat by lia. cbn [length rsum nth].
  rewrite fix_S. field. lra.
Qed.
Lemma fix_passes : nu * nu < (p + r) * (t * t) -> passes_gate x P m.
Proof.
  intros H. exists (fun _ => nu), (fun _ => nu / (p + r)). destruct (fix_solve nu) as [A B].
  split; [exact fix_nu|]. split; [exact A|]. rewrite B. apply gate_1; [lra|exact H].
Qed.
End Fix.

Lemma cov_1 p r : 0 < p -> 1 <= r -> p - (0 + p * (p / (p + r))) = p * r / (p + r).
Proof. intros. field. lra. Qed.
Lemma keep_1 nu S t : 0 < S -> S * t <= nu * nu -> t <= nu * nu / S.
Proof.
  intros H0 H. apply (Rmult_le_reg_l S); [lra|]. replace (S * (nu * nu / S)) with (nu * nu) by (field; lra). exact H.
Qed.

Section Ekf.
Variable eig : Eigen RScalar.
Hypothesis Heig : eigen_inverse_ok eig.

Lemma ekf_fix (s : ekf RScalar) z r t p x : 1 <= r -> 0 < p -> fb_P s 0%nat 0%nat = p -> fb_state s 0%nat = x ->
  (z - x) * (z - x) < (p + r) * (t * t) ->
  fb_state (ekf_correct eig s (x_fix z r t)) 0%nat = x + p / (p + r) * (z - x) /\
  fb_P (ekf_correct eig s (x_fix z r t)) 0%nat 0%nat = p * r / (p + r).
Proof.
  intros Hr Hp HP Hx Hg.
  destruct (fix_solve z r t Hr (fb_P s) p Hp HP (z - x)) as [A B].
  pose proof (fix_nu z r t (fb_state s)) as N. cbv zeta in N. rewrite Hx in N.
  destruct (ekf_accept eig Heig (x_fix z r t) eq_refl s (fix_invertible z r t Hr (fb_P s) p Hp HP) _ _ N A) as [C D].
  - rewrite B. apply gate_1; [lra|exact Hg].
  - split.
    + destruct (C 0%nat ltac:(lia)) as [_ C2]. rewrite C2 by (unfold angular; lia).
      rewrite fix_selected. cbn [length rsum nth]. rewrite HP, Hx. apply step_1.
    + destruct (fix_solve z r t Hr (fb_P s) p Hp HP p) as [A' _].
      rewrite (D 0%nat (fun _ => p / (p + r)) ltac:(lia)); [|  |lia].
      * rewrite fix_selected. cbn [length rsum nth]. rewrite HP. apply cov_1; assumption.
      * intros a Ha. rewrite (A' a Ha). rewrite fix_selected in *. cbn in Ha. replace a with 0%nat by lia. symmetry. exact HP.
Qed.

Lemma ekf_fix_out (s : ekf RScalar) z r t p x : 1 <= r -> 0 < p -> fb_P s 0%nat 0%nat = p -> fb_state s 0%nat = x ->
  (p + r) * (t * t) <= (z - x) * (z - x) -> ekf_correct eig s (x_fix z r t) = s.
Proof.
  intros Hr Hp HP Hx Hg.
  destruct (fix_solve z r t Hr (fb_P s) p Hp HP (z - x)) as [A B].
  pose proof (fix_nu z r t (fb_state s)) as N. cbv zeta in N. rewrite Hx in N.
  apply (ekf_reject eig Heig (x_fix z r t) eq_refl s (fix_invertible z r t Hr (fb_P s) p Hp HP) _ _ N A).
  rewrite B. apply keep_1; [lra|exact Hg].
Qed.

(** Unit prior at 0; a fix at 2 and a fix at 3 whose gate is 2: the second is
    accepted only after the first. *)
Lemma gate_order (s : ekf RScalar) : fb_P s 0%nat 0%nat = 1 -> fb_state s 0%nat = 0 ->
  let a := x_fix 2 1 10 in let b := x_fix 3 1 2 in
  fb_state (correct_all eig [a; b] s) 0%nat = 5 / 3 /\ fb_state (correct_all eig [b; a] s) 0%nat = 1.
Proof.
  intros HP Hx a b. unfold correct_all. cbn [fold_left].
  destruct (ekf_fix s 2 1 10 1 0 ltac:(lra) ltac:(lra) HP Hx ltac:(lra)) as [A1 A2]. fold a in A1, A2.
  split.
  - destruct (ekf_fix (ekf_correct eig s a) 3 1 2 (1 * 1 / (1 + 1)) (0 + 1 / (1 + 1) * (2 - 0)) ltac:(lra) ltac:(lra) A2 A1 ltac:(lra)) as [B1 B2].
    unfold b. rewrite B1. lra.
  - assert (Eb : ekf_correct eig s b = s) by (apply (ekf_fix_out s 3 1 2 1 0); try assumption; lra).
    rewrite Eb, A1. lra.
Qed.

Lemma gate_order_ex : exists (s : ekf RScalar) a b, pdef 15 (fb_P s) /\ linear_meas a /\ linear_meas b /\
    fb_state (correct_all eig [a; b] s) 0%nat = 5 / 3 /\ fb_state (correct_all eig [b; a] s) 0%nat = 1.
Proof.
  set (s := set_P (@fb_init RScalar unit (fun _ => 0) tt) (fun i j => if Nat.eqb i j then 1 else 0)).
  exists s, (x_fix 2 1 10), (x_fix 3 1 2).
  split; [apply (pdef_diag 15 (fun _ => 1)); intros; lra|].
  split; [apply fix_linear; lra|]. split; [apply fix_linear; lra|].
  apply gate_order; reflexivity.
Qed.
End Ekf.

(** ** The unscented filter *)
Section Ukf.
Variable eig : Eigen RScalar.
Hypothesis Heig : eigen_inverse_ok eig.
Hypothesis Hllt : eigen_llt_ok eig.
Variables (alpha kappa beta : R).
Hypothesis Hc : 0 < alpha * alpha * (15 + kappa).

(** Unit covariance except for [p] at x. *)
Definition unit_but (p : R) : rmat := fun i j => if Nat.eqb i j then (if Nat.eqb i 0 then p else 1) else 0.

Lemma unit_but_pdef p : 0 < p -> pdef 15 (unit_but p).
Proof.
  intros Hp. unfold unit_but. apply (pdef_diag 15 (fun i => if Nat.eqb i 0 then p else 1)).
  intros i _. destruct (Nat.eqb i 0); lra.
Qed.

Definition fresh_at (s : ukf RScalar) (x p : R) : Prop :=
  @consts RScalar alpha kappa beta s /\ u_uncorrected (fb_ext s) = false /\
  meq 15 15 (fb_P s) (unit_but p) /\ fb_state s 0%nat = x.

Lemma ucov_1 p r : 0 < p -> 1 <= r -> p - (0 + (0 + p / (p + r) * p) * (p / (p + r))) = p - p * p * p / ((p + r) * (p + r)).
Proof. intros. field. lra. Qed.

Lemma ukf_fix (s : ukf RScalar) z r t p x : 1 <= r -> 0 < p -> fresh_at s x p ->
  (z - x) * (z - x) < (p + r) * (t * t) ->
  fresh_at (ukf_correct eig s (x_fix z r t)) (x + p / (p + r) * (z - x)) (p - p * p * p / ((p + r) * (p + r))).
Proof.
  intros Hr Hp (Hk & Hun & HP & Hx) Hg.
  assert (HP0 : fb_P s 0%nat 0%nat = p) by (rewrite (HP 0%nat 0%nat); [reflexivity|lia|lia]).
  assert (Hpd : pdef 15 (fb_P s)).
  { apply (pdef_ext 15 _ (unit_but p)); [intros; apply HP; assumption|apply unit_but_pdef; exact Hp]. }
  destruct (fix_solve z r t Hr (fb_P s) p Hp HP0 (z - x)) as [A B].
  pose proof (fix_nu z r t (fb_state s)) as N. cbv zeta in N. rewrite Hx in N.
  destruct (ukf_fresh_accept eig Heig Hllt alpha kappa beta Hc s (x_fix z r t) Hk Hpd eq_refl (fix_no_angle z r t)
    Hun (fix_invertible z r t Hr (fb_P s) p Hp HP0) _ _ N A) as (C & D & _).
  { rewrite B. apply gate_1; [lra|exact Hg]. }
  split; [apply consts_correct; exact Hk|]. split; [|split].
  - unfold ukf_correct. rewrite Hun. cbv zeta. destruct (checkMahalanobisThreshold _ _ _ _); [reflexivity|exact Hun].
  - intros i j Hi Hj. rewrite (D _ (fix_gain z r t Hr (fb_P s) p Hp HP0) i j Hi Hj).
    rewrite fix_selected. cbn [length rsum nth]. rewrite HP0, (HP i j Hi Hj), (HP i 0%nat Hi ltac:(lia)), (HP j 0%nat Hj ltac:(lia)).
    unfold unit_but. destruct (Nat.eqb_spec i 0) as [->|Hi0].
    + destruct (Nat.eqb_spec 0 j) as [<-|Hj0].
      * cbn [Nat.eqb]. apply ucov_1; assumption.
      * destruct (Nat.eqb_spec j 0); [congruence|]. field. lra.
    + destruct (Nat.eqb i j); field; lra.
  - destruct (C 0%nat ltac:(lia)) as [_ C2]. rewrite C2 by (unfold angular; lia).
    rewrite fix_selected. cbn [length rsum nth]. rewrite HP0, Hx. apply step_1.
Qed.

(** Unit prior at 0, a fix at 0 with variance 1 and a fix at 1 with variance 3. *)
Lemma ukf_order (s : ukf RScalar) : fresh_at s 0 1 ->
  let a := x_fix 0 1 10 in let b := x_fix 1 3 10 in
  fb_state (ukf_correct eig (ukf_correct eig s a) b) 0%nat = 1 / 5 /\
  fb_state (ukf_correct eig (ukf_correct eig s b) a) 0%nat = 4 / 31.
Proof.
  intros H a b. split.
  - pose proof (ukf_fix s 0 1 10 1 0 ltac:(lra) ltac:(lra) H ltac:(lra)) as H1. fold a in H1.
    assert (E1 : 1 - 1 * 1 * 1 / ((1 + 1) * (1 + 1)) = 3 / 4) by lra. rewrite E1 in H1.
    pose proof (ukf_fix _ 1 3 10 (3 / 4) (0 + 1 / (1 + 1) * (0 - 0)) ltac:(lra) ltac:(lra) H1 ltac:(lra)) as (_ & _ & _ & H2). fold b in H2. rewrite H2. lra.
  - pose proof (ukf_fix s 1 3 10 1 0 ltac:(lra) ltac:(lra) H ltac:(lra)) as H1. fold b in H1.
    assert (E1 : 1 - 1 * 1 * 1 / ((1 + 3) * (1 + 3)) = 15 / 16) by lra. rewrite E1 in H1.
    pose proof (ukf_fix _ 0 1 10 (15 / 16) (0 + 1 / (1 + 3) * (1 - 0)) ltac:(lra) ltac:(lra) H1 ltac:(lra)) as (_ & _ & _ & H2). fold a in H2. rewrite H2. lra.
Qed.

Lemma ukf_order_ex (s : ukf RScalar) : @consts RScalar alpha kappa beta s -> u_uncorrected (fb_ext s) = false ->
  meq 15 15 (fb_P s) rI -> fb_state s 0%nat = 0 ->
  exists a b, linear_meas a /\ linear_meas b /\
    passes_gate (fb_state s) (fb_P s) a /\ passes_gate (fb_state s) (fb_P s) b /\
    (let s' := ukf_correct eig s a in passes_gate (fb_state s') (fb_P s') b) /\
    (let s' := ukf_correct eig s b in passes_gate (fb_state s') (fb_P s') a) /\
    fb_state (ukf_correct eig (ukf_correct eig s a) b) 0%nat = 1 / 5 /\
    fb_state (ukf_correct eig (ukf_correct eig s b) a) 0%nat = 4 / 31.
Proof.
  intros Hk Hun HP Hx.
  assert (HP0 : fb_P s 0%nat 0%nat = 1) by (rewrite (HP 0%nat 0%nat); [reflexivity|lia|lia]).
  assert (H : fresh_at s 0 1).
  { split; [exact Hk|]. split; [exact Hun|]. split; [|exact Hx]. intros i j Hi Hj. rewrite (HP i j Hi Hj).
    unfold rI, unit_but. destruct (Nat.eqb i j), (Nat.eqb i 0); reflexivity. }
  exists (x_fix 0 1 10), (x_fix 1 3 10).
  split; [apply fix_linear; lra|]. split; [apply fix_linear; lra|].
  split; [apply (fix_passes 0 1 10 ltac:(lra) _ _ 1 ltac:(lra) HP0); rewrite Hx; lra|].
  split; [apply (fix_passes 1 3 10 ltac:(lra) _ _ 1 ltac:(lra) HP0); rewrite Hx; lra|].
  split; [|split; [|apply ukf_order; exact H]].
  - destruct (ukf_fix s 0 1 10 1 0 ltac:(lra) ltac:(lra) H ltac:(lra)) as (_ & _ & P1 & X1).
    intros s'. fold s' in P1, X1. apply (fix_passes 1 3 10 ltac:(lra) _ _ (3 / 4) ltac:(lra)); [|rewrite X1; lra].
    rewrite (P1 0%nat 0%nat) by lia. unfold unit_but. cbn [Nat.eqb]. lra.
  - destruct (ukf_fix s 1 3 10 1 0 ltac:(lra) ltac:(lra) H ltac:(lra)) as (_ & _ & P1 & X1).
    intros s'. fold s' in P1, X1. apply (fix_passes 0 1 10 ltac:(lra) _ _ (15 / 16) ltac:(lra)); [|rewrite X1; lra].
    rewrite (P1 0%nat 0%nat) by lia. unfold unit_but. cbn [Nat.eqb]. lra.
Qed.
End Ukf.
