(** * tf2 linear algebra over the reals *)

From Coq Require Import Reals Lra Lia Psatz Nsatz ZArith.
From Verif Require Import Scalar Mat Tf SpecFilter SpecTf Trig RLin.
Local Open Scope R_scope.

Lemma v3_eq (a b : V3) : X a = X b -> Y a = Y b -> Z3 a = Z3 b -> a = b.
Proof. destruct a, b. cbn. intros -> -> ->. reflexivity. Qed.
Lemma m3_eq (a b : M3) : m3r0 a = m3r0 b -> m3r1 a = m3r1 b -> m3r2 a = m3r2 b -> a = b.
Proof. destruct a, b. cbn. intros -> -> ->. reflexivity. Qed.
Lemma t_eq (a b : T4) : t_basis a = t_basis b -> t_origin a = t_origin b -> a = b.
Proof. destruct a, b. cbn. intros -> ->. reflexivity. Qed.

Lemma half_R : @half RScalar = 1 / 2.
Proof. unfold half, lit. cbn. lra. Qed.

(** The operations of Tf.v are those of the specification. *)
Lemma m3mv_turn (m : M3) v : m3mv m v = turn m v.
Proof. reflexivity. Qed.
Lemma t_apply_move (t : T4) p : t_apply t p = move t p.
Proof. reflexivity. Qed.
Lemma v3cross_R (a b : V3) : v3cross a b = cross3 a b.
Proof. reflexivity. Qed.

Ltac tf_open := repeat match goal with
  | H : V3 |- _ => destruct H
  | H : M3 |- _ => destruct H
  | H : T4 |- _ => destruct H
  | H : Q4 |- _ => destruct H
  end.
Ltac tf_simp := cbv [m3mul m3T m3col m3mv m3eye m3r0 m3r1 m3r2 v3dot v3add v3sub v3neg v3x v3y v3z t_mult t_inverse t_inverseTimes t_apply
    t_basis t_origin t_identity v3zero v3scale turn move inner plus3 minus3 times3 cross3 v3 X Y Z3 rotation rigid v3cross
    qx qy qz qw unit_quat spin quat_length2 s_add s_mul s_sub s_opp s_ofZ s_div sc RScalar] in *.
Ltac tf_poly := intros; tf_open; tf_simp.
Ltac tf_ring := tf_poly; repeat (apply t_eq || apply m3_eq || apply v3_eq); tf_simp; ring.

Lemma turn_mul (a b : M3) v : turn (m3mul a b) v = turn a (turn b v).
Proof. tf_ring. Qed.
Lemma move_mult (a b : T4) p : move (t_mult a b) p = move a (move b p).
Proof. tf_ring. Qed.
Lemma turn_eye v : turn m3eye v = v.
Proof. tf_ring. Qed.
Lemma m3mul_assoc (a b c : M3) : m3mul (m3mul a b) c = m3mul a (m3mul b c).
Proof. tf_ring. Qed.
Lemma m3mul_eye_l (a : M3) : m3mul m3eye a = a.
Proof. tf_ring. Qed.
Lemma m3mul_eye_r (a : M3) : m3mul a m3eye = a.
Proof. tf_ring. Qed.
Lemma m3T_mul (a b : M3) : m3T (m3mul a b) = m3mul (m3T b) (m3T a).
Proof. tf_ring. Qed.
Lemma m3T_T (a : M3) : m3T (m3T a) = a.
Proof. tf_poly. reflexivity. Qed.

(** Matrices are determined by what they do. *)
Lemma turn_inj (a b : M3) : (forall v, turn a v = turn b v) -> a = b.
Proof.
  intros H. pose proof (H (v3 1 0 0)) as H1. pose proof (H (v3 0 1 0)) as H2. pose proof (H (v3 0 0 1)) as H3. clear H.
  tf_open. tf_simp.
  injection H1 as ? ? ?. injection H2 as ? ? ?. injection H3 as ? ? ?. apply m3_eq; apply v3_eq; tf_simp; lra.
Qed.

Lemma eye_entries (m : M3) : m3mul m (m3T m) = m3eye <->
  inner (m3r0 m) (m3r0 m) = 1 /\ inner (m3r1 m) (m3r1 m) = 1 /\ inner (m3r2 m) (m3r2 m) = 1 /\
  inner (m3r0 m) (m3r1 m) = 0 /\ inner (m3r0 m) (m3r2 m) = 0 /\ inner (m3r1 m) (m3r2 m) = 0.
Proof.
  split.
  - intros H. tf_open. tf_simp. injection H as. lra.
  - intros (A & B & C & D & F & G). tf_open. tf_simp.
    apply m3_eq; apply v3_eq; tf_simp; lra.
Qed.

(** Rows orthonormal and right-handed: every entry is its cofactor, so the
    columns are orthonormal as well. *)
Lemma rotation_cofactor (m : M3) : rotation m ->
  m3r0 m = cross3 (m3r1 m) (m3r2 m) /\ m3r1 m = cross3 (m3r2 m) (m3r0 m) /\ m3r2 m = cross3 (m3r0 m) (m3r1 m).
Proof.
  intros H. tf_open. tf_simp.
  destruct H as (A & B & C & D & F & G & I).
  repeat split; apply v3_eq; tf_simp; nsatz.
Qed.

Lemma rotation_T (m : M3) : rotation m -> rotation (m3T m).
Proof.
  intros H. pose proof (rotation_cofactor m H) as (C0 & C1 & C2). tf_open. tf_simp.
  injection C0 as ? ? ?. injection C1 as ? ? ?. injection C2 as ? ? ?.
  destruct H as (A & B & C & D & F & G & I). repeat split; nsatz.
Qed.
Lemma rotation_mul (a b : M3) : rotation a -> rotation b -> rotation (m3mul a b).
Proof.
  intros Ha Hb. apply rotation_T in Hb. tf_open. tf_simp.
  destruct Ha as (A & B & C & D & F & G & I), Hb as (A' & B' & C' & D' & F' & G' & I'). repeat split.
  1-6: clear I I'; nsatz.
  match goal with |- ?l = 1 => 
    match type of I with ?di = 1 => match type of I' with ?dj = 1 => replace l with (di * dj) by ring end end end.
  rewrite I, I'. ring.
Qed.
Lemma rotation_eye : rotation m3eye.
Proof. tf_simp. repeat split; ring. Qed.
Lemma rotation_mulT (m : M3) : rotation m -> m3mul m (m3T m) = m3eye.
Proof. intros (A & B & C & D & F & G & _). apply eye_entries. repeat split; assumption. Qed.
Lemma rotation_Tmul (m : M3) : rotation m -> m3mul (m3T m) m = m3eye.
Proof. intros H. apply rotation_T in H. apply rotation_mulT in H. rewrite m3T_T in H. exact H. Qed.

(** ** Rigid motions *)
Lemma turn_T_l (m : M3) v : rotation m -> turn (m3T m) (turn m v) = v.
Proof. intros H. rewrite <- turn_mul, rotation_Tmul by exact H. apply turn_eye. Qed.
Lemma turn_T_r (m : M3) v : rotation m -> turn m (turn (m3T m) v) = v.
Proof. intros H. rewrite <- turn_mul, rotation_mulT by exact H. apply turn_eye. Qed.
Lemma rigid_inverse (t : T4) : rigid t -> rigid (t_inverse t).
Proof. apply rotation_T. Qed.
Lemma rigid_mult (a b : T4) : rigid a -> rigid b -> rigid (t_mult a b).
Proof. apply rotation_mul. Qed.
Lemma rigid_identity : rigid t_identity.
Proof. apply rotation_eye. Qed.
Lemma turn_minus (m : M3) a b : turn m (minus3 a b) = minus3 (turn m a) (turn m b).
Proof. tf_ring. Qed.
Lemma turn_plus (m : M3) a b : turn m (plus3 a b) = plus3 (turn m a) (turn m b).
Proof. tf_ring. Qed.
Lemma turn_times (m : M3) k a : turn m (times3 k a) = times3 k (turn m a).
Proof. tf_ring. Qed.
Lemma move_inverse_eq (t : T4) p : move (t_inverse t) p = turn (m3T (t_basis t)) (minus3 p (t_origin t)).
Proof. tf_ring. Qed.
Lemma move_inverse_l (t : T4) p : rigid t -> move (t_inverse t) (move t p) = p.
Proof.
  intros H. rewrite move_inverse_eq. unfold move.
  replace (minus3 (plus3 (turn (t_basis t) p) (t_origin t)) (t_origin t)) with (turn (t_basis t) p) by tf_ring.
  apply turn_T_l, H.
Qed.
Lemma move_inverse_r (t : T4) p : rigid t -> move t (move (t_inverse t) p) = p.
Proof.
  intros H. rewrite move_inverse_eq. unfold move. rewrite turn_T_r by exact H. tf_ring.
Qed.
(** Motions are determined by what they do. *)
Lemma move_inj (a b : T4) : (forall p, move a p = move b p) -> a = b.
Proof.
  intros H. assert (Ho : t_origin a = t_origin b).
  { specialize (H (v3 0 0 0)). unfold move in H. 
    replace (turn (t_basis a) (v3 0 0 0)) with (v3 0 0 0) in H by tf_ring.
    replace (turn (t_basis b) (v3 0 0 0)) with (v3 0 0 0) in H by tf_ring.
    destruct (t_origin a), (t_origin b). tf_simp. injection H as. f_equal; lra. }
  apply t_eq; [|exact Ho]. apply turn_inj. intros v. specialize (H v). unfold move in H. rewrite Ho in H.
  destruct (turn (t_basis a) v), (turn (t_basis b) v), (t_origin b). tf_simp. injection H as. f_equal; lra.
Qed.
Lemma mult_inverse_l (t : T4) : rigid t -> t_mult (t_inverse t) t = t_identity.
Proof.
  intros H. apply move_inj. intros p. rewrite move_mult, move_inverse_l by exact H. tf_ring.
Qed.
Lemma mult_inverse_r (t : T4) : rigid t -> t_mult t (t_inverse t) = t_identity.
Proof.
  intros H. apply move_inj. intros p. rewrite move_mult, move_inverse_r by exact H. tf_ring.
Qed.
Lemma t_mult_assoc (a b c : T4) : t_mult (t_mult a b) c = t_mult a (t_mult b c).
Proof. apply move_inj. intros p. rewrite !move_mult. reflexivity. Qed.
Lemma t_mult_identity_l (a : T4) : t_mult t_identity a = a.
Proof. tf_ring. Qed.
Lemma t_mult_identity_r (a : T4) : t_mult a t_identity = a.
Proof. tf_ring. Qed.
Lemma inverseTimes_eq (a b : T4) : t_inverseTimes a b = t_mult (t_inverse a) b.
Proof. tf_ring. Qed.
Lemma inverse_inverse (t : T4) : rigid t -> t_inverse (t_inverse t) = t.
Proof.
  intros H. apply move_inj. intros p.
  transitivity (move (t_inverse (t_inverse t)) (move (t_inverse t) (move t p))); [rewrite (move_inverse_l t p H); reflexivity|].
  apply move_inverse_l, rigid_inverse, H.
Qed.
Lemma inverse_mult (a b : T4) : rigid a -> rigid b -> t_inverse (t_mult a b) = t_mult (t_inverse b) (t_inverse a).
Proof.
  intros Ha Hb. apply move_inj. intros p. rewrite move_mult.
  transitivity (move (t_inverse (t_mult a b)) (move (t_mult a b) (move (t_inverse b) (move (t_inverse a) p)))).
  - rewrite move_mult, move_inverse_r by exact Hb. rewrite move_inverse_r by exact Ha. reflexivity.
  - apply move_inverse_l, rigid_mult; assumption.
Qed.

(** ** Angles *)
Lemma sin_cos1 a : sin a * sin a + cos a * cos a = 1.
Proof. pose proof (sin2_cos2 a) as H. unfold Rsqr in H. exact H. Qed.
Lemma setRPY_oriented r p y v : turn (@m3_setRPY RScalar r p y) v = oriented r p y v.
Proof.
  destruct v. unfold oriented, about_x, about_y, about_z, m3_setRPY, m3_setEulerYPR. cbv zeta.
  apply v3_eq; cbn [s_sin s_cos RScalar]; tf_simp; ring.
Qed.
Lemma setRPY_rotation r p y : rotation (@m3_setRPY RScalar r p y).
Proof.
  unfold m3_setRPY, m3_setEulerYPR. cbv zeta. cbn [s_sin s_cos RScalar]. tf_simp.
  pose proof (sin_cos1 r). pose proof (sin_cos1 p). pose proof (sin_cos1 y).
  set (a := sin r) in *. set (b := cos r) in *. set (c := sin p) in *. set (d := cos p) in *. set (e := sin y) in *. set (f := cos y) in *.
  clearbody a b c d e f. repeat split; nsatz.
Qed.
Lemma setRPY_unit r p y : unit_quat (@quat_setRPY RScalar r p y).
Proof.
  unfold quat_setRPY. cbv zeta. cbn [s_sin s_cos RScalar]. tf_simp.
  match goal with |- context [sin ?u * cos ?v * cos ?w] => pose proof (sin_cos1 u); pose proof (sin_cos1 v); pose proof (sin_cos1 w);
    set (a := sin u) in *; set (b := cos u) in *; set (c := sin v) in *; set (d := cos v) in *; set (e := sin w) in *; set (f := cos w) in * end.
  clearbody a b c d e f. nsatz.
Qed.
Lemma of_quat_spin (q : Q4) v : unit_quat q -> turn (m3_of_quat q) v = spin q v.
Proof.
  intros H. unfold m3_of_quat. replace (quat_length2 q) with 1 by (symmetry; exact H). destruct q, v. clear H.
  cbv zeta. apply v3_eq; tf_simp; field.
Qed.
Lemma of_quat_rotation (q : Q4) : @quat_length2 RScalar q <> 0 -> rotation (m3_of_quat q).
Proof.
  intros H. unfold m3_of_quat. destruct q as [a b c d]. cbv zeta. tf_simp.
  repeat split; field; exact H.
Qed.
Lemma unit_nonzero (q : Q4) : unit_quat q -> @quat_length2 RScalar q <> 0.
Proof. intros H. replace (quat_length2 q) with 1 by (symmetry; exact H). lra. Qed.
