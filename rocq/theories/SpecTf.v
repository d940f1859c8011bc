(** * Vocabulary for rigid transforms (real arithmetic)

    Uses only the data records of Tf.v, none of its operations. *)

From Coq Require Import Reals.
From Verif Require Import Scalar Tf.
Local Open Scope R_scope.

Notation V3 := (vec3 RScalar).
Notation M3 := (mat3 RScalar).
Notation Q4 := (quat RScalar).
Notation T4 := (trans RScalar).
Definition v3 (x y z : R) : V3 := @mkV3 RScalar x y z.
Definition X (v : V3) : R := v3x v.
Definition Y (v : V3) : R := v3y v.
Definition Z3 (v : V3) : R := v3z v.

Definition inner (a b : V3) : R := X a * X b + Y a * Y b + Z3 a * Z3 b.
Definition plus3 (a b : V3) : V3 := v3 (X a + X b) (Y a + Y b) (Z3 a + Z3 b).
Definition minus3 (a b : V3) : V3 := v3 (X a - X b) (Y a - Y b) (Z3 a - Z3 b).
Definition times3 (k : R) (a : V3) : V3 := v3 (k * X a) (k * Y a) (k * Z3 a).
Definition cross3 (a b : V3) : V3 :=
  v3 (Y a * Z3 b - Z3 a * Y b) (Z3 a * X b - X a * Z3 b) (X a * Y b - Y a * X b).

(** Rotation matrices: orthonormal, right-handed rows. *)
Definition rotation (m : M3) : Prop :=
  let a := m3r0 m in let b := m3r1 m in let c := m3r2 m in
  inner a a = 1 /\ inner b b = 1 /\ inner c c = 1 /\ inner a b = 0 /\ inner a c = 0 /\ inner b c = 0 /\
  inner a (cross3 b c) = 1.

(** A matrix turning a vector, a rigid motion moving a point. *)
Definition turn (m : M3) (v : V3) : V3 := v3 (inner (m3r0 m) v) (inner (m3r1 m) v) (inner (m3r2 m) v).
Definition move (t : T4) (p : V3) : V3 := plus3 (turn (t_basis t) p) (t_origin t).
Definition rigid (t : T4) : Prop := rotation (t_basis t).

(** Elementary rotations; roll, pitch and yaw are applied in this order. *)
Definition about_x (a : R) (v : V3) : V3 := v3 (X v) (cos a * Y v - sin a * Z3 v) (sin a * Y v + cos a * Z3 v).
Definition about_y (a : R) (v : V3) : V3 := v3 (cos a * X v + sin a * Z3 v) (Y v) (cos a * Z3 v - sin a * X v).
Definition about_z (a : R) (v : V3) : V3 := v3 (cos a * X v - sin a * Y v) (sin a * X v + cos a * Y v) (Z3 v).
Definition oriented (roll pitch yaw : R) (v : V3) : V3 := about_z yaw (about_y pitch (about_x roll v)).

(** Unit quaternions: v + 2 w (u x v) + 2 u x (u x v) with u the vector part. *)
Definition unit_quat (q : Q4) : Prop := qx q * qx q + qy q * qy q + qz q * qz q + qw q * qw q = 1.
Definition spin (q : Q4) (v : V3) : V3 :=
  let u := v3 (qx q) (qy q) (qz q) in
  plus3 v (plus3 (times3 (2 * qw q) (cross3 u v)) (times3 2 (cross3 u (cross3 u v)))).
