(** * LLtoUTM and UTMtoLL (navsat_conversions.hpp) *)

From Coq Require Import ZArith List Bool String.
From Verif Require Import Scalar.

(** A call returns or throws; either way the references have a value. *)
Inductive finish (A : Type) : Type := Returns (a : A) | Throws (a : A).
Arguments Returns {A} a.
Arguments Throws {A} a.
Definition left_with {A} (r : finish A) : A := match r with Returns a | Throws a => a end.
Definition finish_map {A B} (f : A -> B) (r : finish A) : finish B :=
  match r with Returns a => Returns (f a) | Throws a => Throws (f a) end.

Section Convert.
Context {K : Scalar}.

(** External: GeographicLib.  [None] is a GeographicErr; the output arguments
    are then unchanged.
    [cv_forward lat lon setzone]: UTMUPS::Forward, giving zone, hemisphere,
    easting, northing, convergence and scale.
    [cv_reverse zone northp x y]: UTMUPS::Reverse, giving latitude, longitude,
    convergence and scale.
    [cv_designator zone northp x y prec]: MGRS::Forward.
    [cv_designated mgrs centerp]: MGRS::Reverse, giving zone, hemisphere,
    easting, northing and precision. *)
Record conv_lib : Type := mkConv {
  cv_forward : K -> K -> Z -> option (Z * bool * K * K * K * K);
  cv_reverse : Z -> bool -> K -> K -> option (K * K * K * K);
  cv_designator : Z -> bool -> K -> K -> Z -> option string;
  cv_designated : string -> bool -> option (Z * bool * K * K * Z)
}.
(** External: UTMUPS::zonespec::MATCH *)
Definition ZONE_MATCH : Z := (-2)%Z.

(** The reference arguments of LLtoUTM and of UTMtoLL. *)
Record utm_refs : Type := mkUtm { ut_northing : K; ut_easting : K; ut_zone : string; ut_gamma : K }.
Record ll_refs : Type := mkLL { ll_lat : K; ll_long : K; ll_gamma : K }.
(** navsat_conversions.hpp 153-165 *)
Definition LLtoUTM (g : conv_lib) (lat lon : K) (r : utm_refs) : finish utm_refs :=
  match cv_forward g lat lon ZONE_MATCH with
  | None => Throws r
  | Some (zone, northp, easting, northing, gamma, _) =>
      let r1 := mkUtm northing easting (ut_zone r) gamma in
      match cv_designator g zone northp (ut_easting r1) (ut_northing r1) (-1) with
      | None => Throws r1
      | Some s => Returns (mkUtm (ut_northing r1) (ut_easting r1) s (ut_gamma r1))
      end
  end.

(** navsat_conversions.hpp 174-181: a local gamma, which the caller's record
    keeps. *)
Definition LLtoUTM5 (g : conv_lib) (lat lon : K) (r : utm_refs) : finish utm_refs :=
  finish_map (fun o => mkUtm (ut_northing o) (ut_easting o) (ut_zone o) (ut_gamma r))
    (LLtoUTM g lat lon (mkUtm (ut_northing r) (ut_easting r) (ut_zone r) (s_ofZ 0))).

(** navsat_conversions.hpp 192-205 *)
Definition UTMtoLL (g : conv_lib) (northing easting : K) (zone : string) (r : ll_refs) : finish ll_refs :=
  match cv_designated g zone true with
  | None => Throws r
  | Some (z, northp, _, _, _) =>
      match cv_reverse g z northp easting northing with
      | None => Throws r
      | Some (lat, lon, gamma, _) => Returns (mkLL lat lon gamma)
      end
  end.

(** navsat_conversions.hpp 214-220: [junk] is the uninitialised local gamma. *)
Definition UTMtoLL5 (g : conv_lib) (junk northing easting : K) (zone : string) (r : ll_refs) : finish ll_refs :=
  finish_map (fun o => mkLL (ll_lat o) (ll_long o) (ll_gamma r))
    (UTMtoLL g northing easting zone (mkLL (ll_lat r) (ll_long r) junk)).

End Convert.
Arguments conv_lib K : clear implicits.
Arguments utm_refs K : clear implicits.
Arguments ll_refs K : clear implicits.
