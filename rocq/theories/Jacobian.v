(** * The EKF Jacobian is the derivative of the motion model (C08) *)

From Coq Require Import Reals ZArith List Bool Arith Lra Lia FunctionalExtensionality.
From Verif Require Import Scalar Mat FilterBase FilterOps Ekf EkfFacts SpecLin SpecFilter SpecMotion
  RLin RBridge Angles Motion.
Import ListNotations.
Local Open Scope R_scope.

(** A small language of differentiable expressions. *)
Inductive expr : Type :=
| Var (i : nat) | Cst (c : R) | Add (a b : expr) | Mul (a b : expr) | Opp (a : expr)
| Sin (a : expr) | Cos (a : expr) | Inv (a : expr).

Fixpoint eval (x : rvec) (e : expr) : R :=
  match e with
  | Var i => x i | Cst c => c
  | Add a b => eval x a + eval x b
  | Mul a b => eval x a * eval x b
  | Opp a => - eval x a
  | Sin a => sin (eval x a) | Cos a => cos (eval x a)
  | Inv a => / eval x a
  end.

Fixpoint diff (j : nat) (e : expr) : expr :=
  match e with
  | Var i => Cst (if Nat.eqb i j then 1 else 0)
  | Cst _ => Cst 0
  | Add a b => Add (diff j a) (diff j b)
  | Mul a b => Add (Mul (diff j a) b) (Mul a (diff j b))
  | Opp a => Opp (diff j a)
  | Sin a => Mul (Cos a) (diff j a)
  | Cos a => Opp (Mul (Sin a) (diff j a))
  | Inv a => Opp (Mul (diff j a) (Mul (Inv a) (Inv a)))
  end.

Fixpoint defined (x : rvec) (e : expr) : Prop :=
  match e with
  | Var _ | Cst _ => True
  | Add a b | Mul a b => defined x a /\ defined x b
  | Opp a | Sin a | Cos a => defined x a
  | Inv a => defined x a /\ eval x a <> 0
  end.


Lemma with_var_same x j : with_var x j (x j) = x.
Proof. extensionality k. unfold with_var. destruct (Nat.eqb_spec k j); congruence. Qed.

Lemma derivable_ext f g x l :
  (forall t, f t = g t) -> derivable_pt_lim f x l -> derivable_pt_lim g x l.
Proof. intros H. replace g with f; auto. extensionality t. apply H. Qed.

Lemma diff_correct e x j : defined x e ->
  derivable_pt_lim (fun t => eval (with_var x j t) e) (x j) (eval x (diff j e)).
Proof.
  induction e; intros Hd; cbn [eval diff defined] in *.
  - unfold with_var. destruct (Nat.eqb i j); [apply derivable_pt_lim_id|apply derivable_pt_lim_const].
  - apply derivable_pt_lim_const.
  - destruct Hd. apply (derivable_pt_lim_plus (fun t => eval (with_var x j t) e1) (fun t => eval (with_var x j t) e2)); auto.
  - destruct Hd as [H1 H2].
    pose proof (derivable_pt_lim_mult _ _ _ _ _ (IHe1 H1) (IHe2 H2)) as HM.
    cbv beta in HM. rewrite with_var_same in HM. exact HM.
  - apply (derivable_pt_lim_opp (fun t => eval (with_var x j t) e)); auto.
  - pose proof (derivable_pt_lim_comp (fun t => eval (with_var x j t) e) sin (x j) _ (cos (eval x e)) (IHe Hd)) as HC.
    cbv beta in HC. rewrite with_var_same in HC. apply HC. apply derivable_pt_lim_sin.
  - pose proof (derivable_pt_lim_comp (fun t => eval (with_var x j t) e) cos (x j) _ (- sin (eval x e)) (IHe Hd)) as HC.
    cbv beta in HC. rewrite with_var_same in HC.
    replace (- (sin (eval x e) * eval x (diff j e))) with (- sin (eval x e) * eval x (diff j e)) by ring.
    apply HC. apply derivable_pt_lim_cos.
  - destruct Hd as [H1 H2].
    assert (Hn : (fun t => eval (with_var x j t) e) (x j) <> 0) by (rewrite with_var_same; exact H2).
    pose proof (derivable_pt_lim_div (fct_cte 1) (fun t => eval (with_var x j t) e) (x j) 0 _
      (derivable_pt_lim_const 1 (x j)) (IHe H1) Hn) as HD.
    cbv beta in HD. rewrite with_var_same in HD.
    replace (- (eval x (diff j e) * (/ eval x e * / eval x e)))
      with ((0 * eval x e - eval x (diff j e) * fct_cte 1 (x j)) / (eval x e)²)
      by (unfold fct_cte, Rsqr; field; exact H2).
    eapply derivable_ext; [|exact HD].
    intros t. unfold div_fct, fct_cte. unfold Rdiv. ring.
Qed.

(** The motion model as expressions. *)
Definition sr := Sin (Var 3). Definition cr := Cos (Var 3).
Definition sp := Sin (Var 4). Definition cp := Cos (Var 4).
Definition sy := Sin (Var 5). Definition cy := Cos (Var 5).
Definition disp (dt : R) (l : nat) : expr :=
  Add (Mul (Var (6 + l)) (Cst dt)) (Mul (Mul (Cst (/ 2)) (Var (12 + l))) (Cst (dt * dt))).
Definition pos3 dt k a b c : expr :=
  Add (Var k) (Add (Add (Mul a (disp dt 0)) (Mul b (disp dt 1))) (Mul c (disp dt 2))).
Definition sub a b := Add a (Opp b).
Definition motion_expr (dt : R) (i : nat) : expr :=
  match i with
  | 0%nat => pos3 dt 0 (Mul cy cp) (sub (Mul (Mul cy sp) sr) (Mul sy cr)) (Add (Mul (Mul cy sp) cr) (Mul sy sr))
  | 1%nat => pos3 dt 1 (Mul sy cp) (Add (Mul (Mul sy sp) sr) (Mul cy cr)) (sub (Mul (Mul sy sp) cr) (Mul cy sr))
  | 2%nat => pos3 dt 2 (Opp sp) (Mul cp sr) (Mul cp cr)
  | 3%nat => Add (Var 3) (Mul (Add (Add (Var 9) (Mul (Mul sr (Mul sp (Inv cp))) (Var 10)))
                            (Mul (Mul cr (Mul sp (Inv cp))) (Var 11))) (Cst dt))
  | 4%nat => Add (Var 4) (Mul (sub (Mul cr (Var 10)) (Mul sr (Var 11))) (Cst dt))
  | 5%nat => Add (Var 5) (Mul (Add (Mul (Mul sr (Inv cp)) (Var 10)) (Mul (Mul cr (Inv cp)) (Var 11))) (Cst dt))
  | 6%nat => Add (Var 6) (Mul (Var 12) (Cst dt))
  | 7%nat => Add (Var 7) (Mul (Var 13) (Cst dt))
  | 8%nat => Add (Var 8) (Mul (Var 14) (Cst dt))
  | _ => Var i
  end.

Lemma motion_expr_eval dt x i : eval x (motion_expr dt i) = motion_fun dt x i.
Proof.
  do 9 (destruct i as [|i];
    [cbn [motion_expr motion_fun pos3 disp sub eval sr cr sp cp sy cy Nat.add];
     unfold next_position, roll_rate, pitch_rate, yaw_rate, Rrpy, Rz, Ry, Rx, mat3, rmul, rsum;
     cbn [Nat.add]; unfold Rdiv; ring|]).
  reflexivity.
Qed.

Lemma motion_expr_defined dt x i : cos (x 4%nat) <> 0 -> defined x (motion_expr dt i).
Proof. intros H. do 9 (destruct i as [|i]; [cbn; tauto|]). cbn. exact I. Qed.

(** The Jacobian only keeps well-formed entries of F. *)
Definition jac_assigned (i j : nat) : bool :=
  (assigned i j ||
   match i with
   | 0%nat | 1%nat => (Nat.leb 3 j && Nat.leb j 5)
   | 2%nat | 3%nat | 5%nat => (Nat.leb 3 j && Nat.leb j 4)
   | 4%nat => Nat.eqb j 3
   | _ => false
   end)%bool.

Lemma jacobian_row (F : rmat) x dt i j :
  F_ok (K := RScalar) F -> (i < 15)%nat -> (j < 15)%nat ->
  @ekf_jacobian RScalar (@ekf_transfer RScalar F x dt) x dt i j
  = @ekf_jacobian RScalar (@ekf_transfer RScalar rI x dt) x dt i j.
Proof.
  intros HF Hi Hj. pose proof (F_ok_row F x dt i j HF Hi Hj) as E.
  revert E. generalize (@ekf_transfer RScalar F x dt) (@ekf_transfer RScalar rI x dt).
  intros A B E. unfold ekf_jacobian. cbv zeta. unfold mset.
  repeat match goal with |- (if ?b then _ else _) = _ => destruct b; [reflexivity|] end.
  exact E.
Qed.

Lemma sin2 a : sin a * sin a = 1 - cos a * cos a.
Proof. pose proof (sin2_cos2 a) as H. unfold Rsqr in H. lra. Qed.

Lemma jacobian_diff (x : rvec) dt i j :
  cos (x 4%nat) <> 0 -> (i < 15)%nat -> (j < 15)%nat ->
  @ekf_jacobian RScalar (@ekf_transfer RScalar rI x dt) x dt i j = eval x (diff j (motion_expr dt i)).
Proof.
  intros Hc Hi Hj.
  do 15 (destruct i as [|i];
   [do 15 (destruct j as [|j];
     [unfold ekf_jacobian, ekf_transfer, mset; cbn [Nat.eqb andb]; unfold rI; cbn [Nat.eqb];
      rewrite ?lit_5_1; toR;
      cbn [motion_expr pos3 disp sub eval diff sr cr sp cp sy cy Nat.add Nat.eqb];
      try (unfold Rdiv; ring);
      try (pose proof (sin2 (x 4%nat)) as Hs2; field_simplify_eq; [|assumption];
           rewrite ?Rpow_mult_distr; ring [Hs2])
     |]); exfalso; lia|]).
  exfalso; lia.
Qed.

Lemma predict_J_derivative (s : ekf RScalar) d i j :
  F_ok (fb_F s) -> cos (fb_state s 4%nat) <> 0 -> (i < 15)%nat -> (j < 15)%nat ->
  derivable_pt_lim (fun t => motion_fun (IZR d / 1000000000) (with_var (fb_state s) j t) i)
    (fb_state s j) (predict_J s d i j).
Proof.
  intros HF Hc Hi Hj.
  assert (E : predict_J s d i j
    = eval (fb_state s) (diff j (motion_expr (IZR d / 1000000000) i))).
  { rewrite <- jacobian_diff by assumption. rewrite <- toSec_R.
    apply (jacobian_row (fb_F s)); assumption. }
  rewrite E. eapply derivable_ext;
    [|apply diff_correct, motion_expr_defined, Hc].
  intros t. apply motion_expr_eval.
Qed.
