(** * C103: UTM() is the transverse Mercator projection of WGS84 *)

From Coq Require Import Reals ZArith Lra.
From Verif Require Import Scalar RBridge Conversions ConversionsProofs SpecUtm UtmArc UtmSeries.
Local Open Scope R_scope.

(** On a central meridian the northing is 0.9996 times the length of the WGS84
    meridian, to a centimetre, at every latitude. *)
Theorem C103_arc : forall k lat L, is_arc (ecc2_of wgs84_flattening) L -> -90 <= lat <= 90 ->
  Rabs (snd (@UTM RScalar tan powerRZ lat (IZR (6 * k + 3))) - (false_northing lat + 0.9996 * L (rad lat))) <= 1 / 100.
Proof. exact utm_arc. Qed.
Print Assumptions C103_arc.

(** Inside a zone the conversion is the conformal series about the central meridian;
    the only difference are the high powers of the second eccentricity in the fifth
    and the sixth coefficient. *)
Theorem C103_series : forall k lat d a1 a2 a3 a4 a5 a6, tm_series code_e2 a1 a2 a3 a4 a5 a6 -> -90 < lat < 90 -> -3 < d < 3 ->
  let p := rad lat in let l := rad d in let V := cross_radius code_e2 p in let ep := second_ecc code_e2 in
  fst (@UTM RScalar tan powerRZ lat (IZR (6 * k + 3) + d)) =
    500000 + 0.9996 * (a1 p * l - a3 p * l ^ 3 / 6 + (a5 p - V * high_5 ep p) * l ^ 5 / 120) /\
  snd (@UTM RScalar tan powerRZ lat (IZR (6 * k + 3) + d)) =
    snd (@UTM RScalar tan powerRZ lat (IZR (6 * k + 3))) +
    0.9996 * (- (a2 p * l ^ 2 / 2) + a4 p * l ^ 4 / 24 - (a6 p - V * high_6 ep p) * l ^ 6 / 720).
Proof. exact utm_series. Qed.
Print Assumptions C103_series.

(** These powers make less than a third of a millimetre. *)
Theorem C103_close : forall k lat d a1 a2 a3 a4 a5 a6, tm_series code_e2 a1 a2 a3 a4 a5 a6 -> -90 < lat < 90 -> -3 < d < 3 ->
  let p := rad lat in let l := rad d in
  Rabs (fst (@UTM RScalar tan powerRZ lat (IZR (6 * k + 3) + d)) -
        (500000 + 0.9996 * (a1 p * l - a3 p * l ^ 3 / 6 + a5 p * l ^ 5 / 120))) <= 3 / 10000 /\
  Rabs (snd (@UTM RScalar tan powerRZ lat (IZR (6 * k + 3) + d)) -
        (snd (@UTM RScalar tan powerRZ lat (IZR (6 * k + 3))) +
         0.9996 * (- (a2 p * l ^ 2 / 2) + a4 p * l ^ 4 / 24 - a6 p * l ^ 6 / 720))) <= 3 / 10000.
Proof. exact utm_close. Qed.
Print Assumptions C103_close.

(** Within a hemisphere the northing grows along a central meridian, by between 6335
    and 6400 km times 0.9996 for a radian. *)
Theorem C103_monotone : forall k lat1 lat2, -90 <= lat1 < lat2 -> lat2 <= 90 -> (0 < lat1 \/ lat2 <= 0) ->
  0.9996 * 6335000 * (rad lat2 - rad lat1) <=
    snd (@UTM RScalar tan powerRZ lat2 (IZR (6 * k + 3))) - snd (@UTM RScalar tan powerRZ lat1 (IZR (6 * k + 3))) <=
  0.9996 * 6400000 * (rad lat2 - rad lat1).
Proof. exact utm_monotone. Qed.
Print Assumptions C103_monotone.

(** The hemispheres mirror each other, at every longitude. *)
Theorem C103_mirror : forall lat lon, 0 < lat ->
  fst (@UTM RScalar tan powerRZ (- lat) lon) = fst (@UTM RScalar tan powerRZ lat lon) /\
  snd (@UTM RScalar tan powerRZ (- lat) lon) = 10000000 - snd (@UTM RScalar tan powerRZ lat lon).
Proof. exact utm_mirror. Qed.
Print Assumptions C103_mirror.

(** There is an arc and there is a series, and the numbers are those of the
    projection: a degree of latitude
    at 45 degrees is the expected length. *)
Example C103_case : (exists L, is_arc (ecc2_of wgs84_flattening) L) /\
  (exists a1 a2 a3 a4 a5 a6, tm_series code_e2 a1 a2 a3 a4 a5 a6 /\ a1 0 = 6378137 /\ a2 0 = 0 /\ a3 0 < 0) /\
  (0.9996 * 6335000 * rad 1 <= snd (utm 46 9) - snd (utm 45 9) <= 0.9996 * 6400000 * rad 1).
Proof.
  split; [|split].
  - apply arc_exists. pose proof wgs_e2_bounds. lra.
  - destruct (series_exists code_e2 code_e2_unit) as (a1 & a2 & a3 & a4 & a5 & a6 & H). exists a1, a2, a3, a4, a5, a6. split; [exact H|].
    pose proof PI_RGT_0. destruct (coefficients code_e2 code_e2_unit _ _ _ _ _ _ H 0 ltac:(lra)) as (-> & -> & -> & _).
    unfold coef_1, coef_2, coef_3, cross_radius, wgs84_axis. cbn [p_ev List.fold_right t_ev pow]. rewrite sin_0, cos_0.
    replace (1 - code_e2 * (0 * 0)) with 1 by ring. rewrite sqrt_1. pose proof ep_bounds. repeat split; lra.
  - pose proof (utm_monotone 1 45 46 ltac:(lra) ltac:(lra) ltac:(lra)) as M. change (6 * 1 + 3)%Z with 9%Z in M.
    replace (rad 46 - rad 45) with (rad 1) in M by (unfold rad; field). exact M.
Qed.
