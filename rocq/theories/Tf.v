(** * tf2 linear algebra used by the nodes

    External code: package tf2, headers tf2/LinearMath/{Vector3,Quaternion,
    Matrix3x3,Transform}.h.  /repo only calls it; the formulas below are those of
    the headers, written for the scalar type of the model.  SIMD variants and the
    asserts of debug builds are not modelled. *)

From Coq Require Import ZArith Bool List String.
From Verif Require Import Scalar Mat.

Section Tf.
Context {K : Scalar}.
Local Open Scope sc_scope.

(** tf2::Vector3 *)
Record vec3 : Type := mkV3 { v3x : K; v3y : K; v3z : K }.
(** tf2::Quaternion *)
Record quat : Type := mkQuat { qx : K; qy : K; qz : K; qw : K }.
(** tf2::Matrix3x3, three rows *)
Record mat3 : Type := mkM3 { m3r0 : vec3; m3r1 : vec3; m3r2 : vec3 }.
(** tf2::Transform *)
Record trans : Type := mkTrans { t_basis : mat3; t_origin : vec3 }.

(** 0.5 *)
Definition half : K := lit 5 1.

(** Vector3 operators *)
Definition v3zero : vec3 := mkV3 0 0 0.
Definition v3add (a b : vec3) : vec3 := mkV3 (v3x a + v3x b) (v3y a + v3y b) (v3z a + v3z b).
Definition v3sub (a b : vec3) : vec3 := mkV3 (v3x a - v3x b) (v3y a - v3y b) (v3z a - v3z b).
Definition v3neg (a : vec3) : vec3 := mkV3 (- v3x a) (- v3y a) (- v3z a).
(** v / s is v * (1 / s) in tf2 *)
Definition v3scale (a : vec3) (k : K) : vec3 := mkV3 (v3x a * k) (v3y a * k) (v3z a * k).
Definition v3div (a : vec3) (k : K) : vec3 := v3scale a (1 / k).
Definition v3dot (a b : vec3) : K := v3x a * v3x b + v3y a * v3y b + v3z a * v3z b.
Definition v3cross (a b : vec3) : vec3 :=
  mkV3 (v3y a * v3z b - v3z a * v3y b)
       (v3z a * v3x b - v3x a * v3z b)
       (v3x a * v3y b - v3y a * v3x b).

(** Matrix3x3 operators *)
Definition m3eye : mat3 := mkM3 (mkV3 1 0 0) (mkV3 0 1 0) (mkV3 0 0 1).
Definition m3mv (m : mat3) (v : vec3) : vec3 :=
  mkV3 (v3dot (m3r0 m) v) (v3dot (m3r1 m) v) (v3dot (m3r2 m) v).
Definition m3col (m : mat3) (j : nat) : vec3 :=
  match j with
  | O => mkV3 (v3x (m3r0 m)) (v3x (m3r1 m)) (v3x (m3r2 m))
  | S O => mkV3 (v3y (m3r0 m)) (v3y (m3r1 m)) (v3y (m3r2 m))
  | _ => mkV3 (v3z (m3r0 m)) (v3z (m3r1 m)) (v3z (m3r2 m))
  end.
Definition m3T (m : mat3) : mat3 := mkM3 (m3col m 0) (m3col m 1) (m3col m 2).
Definition m3mul (a b : mat3) : mat3 :=
  let row r := mkV3 (v3dot r (m3col b 0)) (v3dot r (m3col b 1)) (v3dot r (m3col b 2)) in
  mkM3 (row (m3r0 a)) (row (m3r1 a)) (row (m3r2 a)).
Definition v3get (v : vec3) (i : nat) : K :=
  match i with O => v3x v | S O => v3y v | _ => v3z v end.
Definition m3get (m : mat3) (i j : nat) : K :=
  match i with O => v3get (m3r0 m) j | S O => v3get (m3r1 m) j | _ => v3get (m3r2 m) j end.

(** Quaternion::setRPY *)
Definition quat_setRPY (roll pitch yaw : K) : quat :=
  let cy := s_cos (yaw * half) in let sy := s_sin (yaw * half) in
  let cp := s_cos (pitch * half) in let sp := s_sin (pitch * half) in
  let cr := s_cos (roll * half) in let sr := s_sin (roll * half) in
  mkQuat (sr * cp * cy - cr * sp * sy)
         (cr * sp * cy + sr * cp * sy)
         (cr * cp * sy - sr * sp * cy)
         (cr * cp * cy + sr * sp * sy).
Definition quat_identity : quat := mkQuat 0 0 0 1.
Definition quat_length2 (q : quat) : K := qx q * qx q + qy q * qy q + qz q * qz q + qw q * qw q.

(** Matrix3x3::setRotation *)
Definition m3_of_quat (q : quat) : mat3 :=
  let s := 2 / quat_length2 q in
  let xs := qx q * s in let ys := qy q * s in let zs := qz q * s in
  let wx := qw q * xs in let wy := qw q * ys in let wz := qw q * zs in
  let xx := qx q * xs in let xy := qx q * ys in let xz := qx q * zs in
  let yy := qy q * ys in let yz := qy q * zs in let zz := qz q * zs in
  mkM3 (mkV3 (1 - (yy + zz)) (xy - wz) (xz + wy))
       (mkV3 (xy + wz) (1 - (xx + zz)) (yz - wx))
       (mkV3 (xz - wy) (yz + wx) (1 - (xx + yy))).

(** Matrix3x3::setEulerYPR, setRPY *)
Definition m3_setEulerYPR (eulerZ eulerY eulerX : K) : mat3 :=
  let ci := s_cos eulerX in let cj := s_cos eulerY in let ch := s_cos eulerZ in
  let si := s_sin eulerX in let sj := s_sin eulerY in let sh := s_sin eulerZ in
  let cc := ci * ch in let cs := ci * sh in let sc := si * ch in let ss := si * sh in
  mkM3 (mkV3 (cj * ch) (sj * sc - cs) (sj * cc + ss))
       (mkV3 (cj * sh) (sj * ss + cc) (sj * cs - sc))
       (mkV3 (- sj) (cj * si) (cj * ci)).
Definition m3_setRPY (roll pitch yaw : K) : mat3 := m3_setEulerYPR yaw pitch roll.

(** Matrix3x3::getEulerYPR (solution 1), returned as (roll, pitch, yaw). *)
Definition m3_getRPY (m : mat3) : K * K * K :=
  if s_leb 1 (s_abs (v3x (m3r2 m))) then
    let delta := s_atan2 (v3y (m3r2 m)) (v3z (m3r2 m)) in
    if s_ltb (v3x (m3r2 m)) 0 then (delta, s_pi / 2, 0) else (delta, - s_pi / 2, 0)
  else
    let pitch := - s_asin (v3x (m3r2 m)) in
    (s_atan2 (v3y (m3r2 m) / s_cos pitch) (v3z (m3r2 m) / s_cos pitch),
     pitch,
     s_atan2 (v3x (m3r1 m) / s_cos pitch) (v3x (m3r0 m) / s_cos pitch)).

(** Matrix3x3::getRotation *)
Definition m3_getRotation (m : mat3) : quat :=
  let tr := v3x (m3r0 m) + v3y (m3r1 m) + v3z (m3r2 m) in
  if s_ltb 0 tr then
    let s := s_sqrt (tr + 1) in
    let s2 := half / s in
    mkQuat ((v3y (m3r2 m) - v3z (m3r1 m)) * s2)
           ((v3z (m3r0 m) - v3x (m3r2 m)) * s2)
           ((v3x (m3r1 m) - v3y (m3r0 m)) * s2)
           (s * half)
  else
    let i := if s_ltb (m3get m 0 0) (m3get m 1 1)
             then (if s_ltb (m3get m 1 1) (m3get m 2 2) then 2%nat else 1%nat)
             else (if s_ltb (m3get m 0 0) (m3get m 2 2) then 2%nat else 0%nat) in
    let j := Nat.modulo (i + 1) 3 in
    let k := Nat.modulo (i + 2) 3 in
    let s := s_sqrt (m3get m i i - m3get m j j - m3get m k k + 1) in
    let s2 := half / s in
    let ti := s * half in
    let tw := (m3get m k j - m3get m j k) * s2 in
    let tj := (m3get m j i + m3get m i j) * s2 in
    let tk := (m3get m k i + m3get m i k) * s2 in
    match i with
    | O => mkQuat ti tj tk tw
    | S O => mkQuat tk ti tj tw
    | _ => mkQuat tj tk ti tw
    end.

(** Transform: operator(), operator*, mult, inverse, inverseTimes *)
Definition t_identity : trans := mkTrans m3eye v3zero.
Definition t_apply (t : trans) (v : vec3) : vec3 := v3add (m3mv (t_basis t) v) (t_origin t).
Definition t_mult (a b : trans) : trans :=
  mkTrans (m3mul (t_basis a) (t_basis b)) (t_apply a (t_origin b)).
Definition t_inverse (t : trans) : trans :=
  let inv := m3T (t_basis t) in mkTrans inv (m3mv inv (v3neg (t_origin t))).
(** [inverseTimes]: basis^T * t.basis and (t.origin - origin) * basis *)
Definition t_inverseTimes (a b : trans) : trans :=
  mkTrans (m3mul (m3T (t_basis a)) (t_basis b))
          (m3mv (m3T (t_basis a)) (v3sub (t_origin b) (t_origin a))).
(** constructor from rotation and translation; tf2::fromMsg *)
Definition t_of (q : quat) (o : vec3) : trans := mkTrans (m3_of_quat q) o.

End Tf.

Arguments vec3 K : clear implicits.
Arguments quat K : clear implicits.
Arguments mat3 K : clear implicits.
Arguments trans K : clear implicits.
