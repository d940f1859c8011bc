(** * Transformed queries of the listener over the reals (C61, C62) *)

From Coq Require Import Reals ZArith List Bool Arith String Lia Lra Nsatz.
From Verif Require Import Scalar Mat FilterBase StrMap Tf Estimator SpecEstimator RosFilter RosPrepare
  Listener SpecLin SpecTf SpecPrepare SpecListener ListenerAnc ListenerProofs RBridge Trig TfReal TfRot PrepareReal PrepareMotion.
Import ListNotations.
Local Open Scope R_scope.

(** ** Eigen's Euler angles *)
Lemma euler_core (m : M3) y p : rotation m ->
  cos p * cos y = v3x (m3r0 m) -> cos p * sin y = v3x (m3r1 m) -> sin p = - v3x (m3r2 m) ->
  @m3_setRPY RScalar (Ratan2 (sin y * v3z (m3r0 m) - cos y * v3z (m3r1 m)) (cos y * v3y (m3r1 m) - sin y * v3y (m3r0 m))) p y = m.
Proof.
  intros HR H1 H2 H3.
  set (S := sin y * v3z (m3r0 m) - cos y * v3z (m3r1 m)). set (C := cos y * v3y (m3r1 m) - sin y * v3y (m3r0 m)).
  pose proof (rotation_cofactor m HR) as (C0 & C1 & C2). pose proof (rotation_T m HR) as HT.
  pose proof (sin_cos1 y) as Ty. pose proof (sin_cos1 p) as Tp.
  destruct m as [[a b c] [d e f] [g h i]]. change (sc RScalar) with R in *. cbn [m3r0 m3r1 m3r2 v3x v3y v3z] in *. subst S C.
  tf_simp. injection C0 as K1 K2 K3. injection C1 as K4 K5 K6. injection C2 as K7 K8 K9.
  destruct HR as (A & B & Cc & D & F & G & I). destruct HT as (A' & B' & C' & D' & F' & G' & I').
  set (cy := cos y) in *. set (sy := sin y) in *. set (cp := cos p) in *. set (sp := sin p) in *.
  assert (U : (sy * c - cy * f) * (sy * c - cy * f) + (cy * e - sy * b) * (cy * e - sy * b) = 1) by (clearbody cy sy cp sp; nsatz).
  destruct (atan2_unit _ _ U) as [HS HC]. unfold m3_setRPY, m3_setEulerYPR. cbv zeta. cbn [s_sin s_cos RScalar].
  cbv [s_add s_sub s_mul s_opp]. fold cy sy cp sp. rewrite HS, HC. clearbody cy sy cp sp. clear HS HC U I I'.
  apply m3_eq; apply v3_eq; tf_simp.
  - nsatz.
  - nsatz.
  - nsatz.
  - nsatz.
  - nsatz.
  - nsatz.
  - nsatz.
  - nsatz.
  - nsatz.
Qed.

Lemma atan2_hyp y x : sin (Ratan2 y x) * sqrt (x * x + y * y) = y /\ cos (Ratan2 y x) * sqrt (x * x + y * y) = x.
Proof.
  destruct (Req_dec x 0) as [->|Nx]; [destruct (Req_dec y 0) as [->|Ny]|].
  - replace (0 * 0 + 0 * 0) with 0 by ring. rewrite sqrt_0. split; ring.
  - destruct (sin_cos_atan2 y 0 (or_intror Ny)) as [-> ->].
    assert (0 < sqrt (0 * 0 + y * y)) by (apply sqrt_lt_R0; nra). split; field; lra.
  - destruct (sin_cos_atan2 y x (or_introl Nx)) as [-> ->].
    assert (0 < sqrt (x * x + y * y)) by (apply sqrt_lt_R0; nra). split; field; lra.
Qed.
Lemma Ratan2_0 : Ratan2 0 0 = 0.
Proof. unfold Ratan2. repeat destruct (Rlt_dec _ _); lra. Qed.

Definition euler_yp (a d g c2 : R) : R * R :=
  if Rltb (Ratan2 d a) 0 then (Ratan2 d a + PI, Ratan2 (- g) (- c2)) else (Ratan2 d a, Ratan2 (- g) c2).
Lemma eig_euler_R (m : M3) : @eig_eulerAngles RScalar m =
  let '(y, p) := euler_yp (v3x (m3r0 m)) (v3x (m3r1 m)) (v3x (m3r2 m))
     (sqrt (v3z (m3r2 m) * v3z (m3r2 m) + v3y (m3r2 m) * v3y (m3r2 m))) in
  (y, p, Ratan2 (sin y * v3z (m3r0 m) - cos y * v3z (m3r1 m)) (cos y * v3y (m3r1 m) - sin y * v3y (m3r0 m))).
Proof. reflexivity. Qed.

Lemma euler_correct (m : M3) : rotation m -> exists y p r, @eig_eulerAngles RScalar m = (y, p, r) /\
  @m3_setRPY RScalar r p y = m /\ 0 <= y <= PI /\ - PI < p <= PI /\ - PI < r <= PI.
Proof.
  intros HR. rewrite eig_euler_R.
  set (a := v3x (m3r0 m)) in *. set (d := v3x (m3r1 m)) in *. set (g := v3x (m3r2 m)) in *. set (h := v3y (m3r2 m)) in *. set (i := v3z (m3r2 m)) in *.
  change (sc RScalar) with R in *.
  assert (N : i * i + h * h = a * a + d * d /\ g * g + (a * a + d * d) = 1).
  { pose proof (rotation_T m HR) as HT. unfold a, d, g, h, i. destruct m as [[? ? ?] [? ? ?] [? ? ?]]. change (sc RScalar) with R in *. tf_simp.
    destruct HR as (A & B & Cc & _). destruct HT as (A' & B' & C' & _). lra. }
  destruct N as [N1 N2]. rewrite N1. unfold euler_yp. set (rho := sqrt (a * a + d * d)).
  assert (R2 : rho * rho = a * a + d * d) by (apply sqrt_sqrt; nra).
  pose proof (atan2_hyp d a) as [Hs Hc]. fold rho in Hs, Hc. pose proof (Ratan2_range d a) as Rg. set (r0 := Ratan2 d a) in *.
  destruct (Rltb r0 0) eqn:Lt.
  - apply Rltb_true in Lt. do 3 eexists. split; [reflexivity|].
    destruct (atan2_unit (- g) (- rho)) as [Sp Cp]; [lra|].
    split; [|split; [lra|split; apply Ratan2_range]].
    apply euler_core; [exact HR|..].
    + rewrite Cp, neg_cos. fold a. lra.
    + rewrite Cp, neg_sin. fold d. lra.
    + exact Sp.
  - apply Rltb_false in Lt. do 3 eexists. split; [reflexivity|].
    destruct (atan2_unit (- g) rho) as [Sp Cp]; [lra|].
    split; [|split; [lra|split; apply Ratan2_range]].
    apply euler_core; [exact HR|..].
    + rewrite Cp. fold a. lra.
    + rewrite Cp. fold d. lra.
    + exact Sp.
Qed.

(** ** Eigen's quaternions *)
Lemma eig_spin (q : Q4) v : unit_quat q -> turn (@eig_matrix RScalar q) v = spin q v.
Proof.
  intros U. destruct q as [x y z w], v as [a b d]. change (sc RScalar) with R in *. unfold eig_matrix. cbv zeta.
  tf_simp. apply v3_eq; tf_simp; nsatz.
Qed.
Lemma eig_of_quat (q : Q4) : unit_quat q -> @eig_matrix RScalar q = m3_of_quat q.
Proof. intros U. apply turn_inj. intros v. rewrite eig_spin, of_quat_spin by exact U. reflexivity. Qed.
Lemma eig_rotation (q : Q4) : unit_quat q -> rotation (@eig_matrix RScalar q).
Proof. intros U. rewrite eig_of_quat by exact U. apply of_quat_rotation, unit_nonzero, U. Qed.

Lemma eig_angles r p y :
  @eig_qmul RScalar (@eig_qmul RScalar (@eig_about_z RScalar y) (@eig_about_y RScalar p)) (@eig_about_x RScalar r) = @quat_setRPY RScalar r p y.
Proof.
  unfold eig_qmul, eig_about_x, eig_about_y, eig_about_z, quat_setRPY. cbv zeta. cbn [qx qy qz qw].
  rewrite half_R.
  change (@s_mul RScalar (1 / 2) r) with (1 / 2 * r). change (@s_mul RScalar (1 / 2) p) with (1 / 2 * p). change (@s_mul RScalar (1 / 2) y) with (1 / 2 * y).
  change (@s_mul RScalar r (1 / 2)) with (r * (1 / 2)). change (@s_mul RScalar p (1 / 2)) with (p * (1 / 2)). change (@s_mul RScalar y (1 / 2)) with (y * (1 / 2)).
  rewrite (Rmult_comm (1 / 2) r), (Rmult_comm (1 / 2) p), (Rmult_comm (1 / 2) y).
  cbv [s_add s_sub s_mul s_opp s_ofZ s_sin s_cos RScalar].
  f_equal; ring.
Qed.
Lemma base_matrix r p y : @eig_matrix RScalar (@eig_qmul RScalar (@eig_qmul RScalar (@eig_about_z RScalar y) (@eig_about_y RScalar p)) (@eig_about_x RScalar r)) =
  @m3_setRPY RScalar r p y.
Proof. rewrite eig_angles, eig_of_quat by apply setRPY_unit. apply quat_setRPY_matrix. Qed.
