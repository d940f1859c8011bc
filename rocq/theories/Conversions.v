(** * Geodetic to UTM conversion (navsat_conversions.hpp)

    Line numbers refer to /repo/include/robot_localization/navsat_conversions.hpp.
    LLtoUTM and UTMtoLL (153-220) only call GeographicLib and are not modelled. *)

From Coq Require Import ZArith.
From Verif Require Import Scalar.

Section Conversions.
Context {K : Scalar}.
Local Open Scope sc_scope.

(** External: tan and pow of the C library; pow with an integral exponent. *)
Variable c_tan : K -> K.
Variable c_pow : K -> Z -> K.

(** 64 *)
Definition RADIANS_PER_DEGREE : K := s_pi / lit 180 0.
(** 71, semi-major axis; [lit m k] is m / 10^k *)
Definition WGS84_A : K := lit 6378137 0.
(** 74, first eccentricity *)
Definition WGS84_E : K := lit 818191908 10.
(** 78, scale factor *)
Definition UTM_K0 : K := lit 9996 4.
(** 79, false easting *)
Definition UTM_FE : K := lit 500000 0.
(** 80, false northing of the northern hemisphere *)
Definition UTM_FN_N : K := lit 0 0.
(** 81, false northing of the southern hemisphere *)
Definition UTM_FN_S : K := lit 10000000 0.
(** 82 *)
Definition UTM_E2 : K := WGS84_E * WGS84_E.
(** 83 *)
Definition UTM_E4 : K := UTM_E2 * UTM_E2.
(** 84 *)
Definition UTM_E6 : K := UTM_E4 * UTM_E2.
(** 85 *)
Definition UTM_EP2 : K := UTM_E2 / (s_ofZ 1 - UTM_E2).

(** 107-109; the remainder of C++ takes the sign of the dividend.  The cast to
    int is undefined outside the range of int, which is not modelled. *)
Definition central_meridian (lon : K) : Z :=
  let t := s_trunc lon in
  if s_leb 0 lon then (t - Z.rem t 6 + 3)%Z else (t - Z.rem t 6 - 3)%Z.

(** 96-142 *)
Definition UTM (lat lon : K) : K * K :=
  let n z := @s_ofZ K z in
  let m0 := n 1%Z - UTM_E2 / n 4%Z - n 3%Z * UTM_E4 / n 64%Z - n 5%Z * UTM_E6 / n 256%Z in
  let m1 := - (n 3%Z * UTM_E2 / n 8%Z + n 3%Z * UTM_E4 / n 32%Z + n 45%Z * UTM_E6 / n 1024%Z) in
  let m2 := n 15%Z * UTM_E4 / n 256%Z + n 45%Z * UTM_E6 / n 1024%Z in
  let m3 := - (n 35%Z * UTM_E6 / n 3072%Z) in
  let rlat := lat * RADIANS_PER_DEGREE in
  let rlon := lon * RADIANS_PER_DEGREE in
  let rlon0 := n (central_meridian lon) * RADIANS_PER_DEGREE in
  let slat := s_sin rlat in
  let clat := s_cos rlat in
  let tlat := c_tan rlat in
  let fn := if s_ltb 0 lat then UTM_FN_N else UTM_FN_S in
  let T := tlat * tlat in
  let C := UTM_EP2 * clat * clat in
  let A := (rlon - rlon0) * clat in
  let M := WGS84_A * (m0 * rlat + m1 * s_sin (n 2%Z * rlat) + m2 * s_sin (n 4%Z * rlat) + m3 * s_sin (n 6%Z * rlat)) in
  let V := WGS84_A / s_sqrt (n 1%Z - UTM_E2 * slat * slat) in
  (UTM_FE + UTM_K0 * V *
     (A + (n 1%Z - T + C) * c_pow A 3%Z / n 6%Z +
      (n 5%Z - n 18%Z * T + T * T + n 72%Z * C - n 58%Z * UTM_EP2) * c_pow A 5%Z / n 120%Z),
   fn + UTM_K0 *
     (M + V * tlat *
      (A * A / n 2%Z + (n 5%Z - T + n 9%Z * C + n 4%Z * C * C) * c_pow A 4%Z / n 24%Z +
       ((n 61%Z - n 58%Z * T + T * T + n 600%Z * C - n 330%Z * UTM_EP2) * c_pow A 6%Z / n 720%Z)))).

End Conversions.
