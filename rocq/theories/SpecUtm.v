(** * The transverse Mercator projection, in its own words (C103)

    Nothing here refers to the model.  An ellipsoid of revolution is given by its
    semi-major axis and the square of its eccentricity. *)

From Coq Require Import Reals.
Local Open Scope R_scope.

(** The semi-major axis and the flattening of the WGS84 ellipsoid. *)
Definition wgs84_axis : R := 6378137.
Definition wgs84_flattening : R := 1 / 298.257223563.
(** The square of the eccentricity that belongs to a flattening. *)
Definition ecc2_of (f : R) : R := f * (2 - f).

(** The square of the eccentricity of WGS84 given to ten decimals. *)
Definition code_e2 : R := 0.0818191908 * 0.0818191908.
(** The square of the second eccentricity. *)
Definition second_ecc (e2 : R) : R := e2 / (1 - e2).
(** The false northing; the equator counts as southern. *)
Definition false_northing (lat : R) : R := if Rlt_dec 0 lat then 0 else 10000000.

(** Radii of curvature at a latitude: across the meridian, and along it. *)
Definition cross_radius (e2 phi : R) : R := wgs84_axis / sqrt (1 - e2 * (sin phi * sin phi)).
Definition meridian_radius (e2 phi : R) : R :=
  wgs84_axis * (1 - e2) / (sqrt (1 - e2 * (sin phi * sin phi))) ^ 3.

(** [L] is the length of the meridian from the equator: it vanishes there and
    grows by the radius of curvature. *)
Definition is_arc (e2 : R) (L : R -> R) : Prop :=
  L 0 = 0 /\ forall phi, - (PI / 2) <= phi <= PI / 2 -> derivable_pt_lim L phi (meridian_radius e2 phi).

(** On the ellipsoid the isometric latitude grows by
    [meridian_radius / (cross_radius * cos)].  [g] is the derivative of [f] with
    respect to the isometric latitude.  The conformal map that is true to length on
    the central meridian sends (isometric latitude + i * longitude) to the Taylor
    series of the arc, so its coefficients are the iterated derivatives. *)
Definition conformal_next (e2 : R) (f g : R -> R) : Prop :=
  forall phi, - (PI / 2) < phi < PI / 2 ->
    derivable_pt_lim f phi (g phi * (meridian_radius e2 phi / (cross_radius e2 phi * cos phi))).

(** The six coefficients of the series. *)
Record tm_series (e2 : R) (a1 a2 a3 a4 a5 a6 : R -> R) : Prop := {
  tm_1 : exists L, is_arc e2 L /\ conformal_next e2 L a1;
  tm_2 : conformal_next e2 a1 a2;
  tm_3 : conformal_next e2 a2 a3;
  tm_4 : conformal_next e2 a3 a4;
  tm_5 : conformal_next e2 a4 a5;
  tm_6 : conformal_next e2 a5 a6 }.

(** The terms of the fifth and the sixth coefficient that carry the second or a
    higher power of the second eccentricity squared, [ep]. *)
Definition high_5 (ep phi : R) : R :=
  ep ^ 2 * (13 * cos phi ^ 9 - 64 * cos phi ^ 7 * sin phi ^ 2) +
  ep ^ 3 * (4 * cos phi ^ 11 - 24 * cos phi ^ 9 * sin phi ^ 2).
Definition high_6 (ep phi : R) : R :=
  ep ^ 2 * (680 * cos phi ^ 7 * sin phi ^ 3 - 445 * cos phi ^ 9 * sin phi) +
  ep ^ 3 * (600 * cos phi ^ 9 * sin phi ^ 3 - 324 * cos phi ^ 11 * sin phi) +
  ep ^ 4 * (192 * cos phi ^ 11 * sin phi ^ 3 - 88 * cos phi ^ 13 * sin phi).

(** Degrees to radians. *)
Definition rad (d : R) : R := d * (PI / 180).
