(** * Properties of the conversions between degrees and UTM (C110) *)

From Coq Require Import ZArith Reals Lra List Bool String.
From Verif Require Import Scalar Convert SpecConvert ConvertFacts.

(** What LLtoUTM returns is where the library places the point, with the
    designator of that place.  When it throws, either nothing is written or the
    coordinates and the convergence but not the zone. *)
Theorem C110_outcome : forall {K : Scalar} (g : conv_lib K) lat lon (r : utm_refs K),
  match LLtoUTM g lat lon r with
  | Returns o => exists z northp, placed g lat lon z northp (ut_easting o) (ut_northing o) (ut_gamma o) /\
      cv_designator g z northp (ut_easting o) (ut_northing o) (-1)%Z = Some (ut_zone o)
  | Throws o =>
      (cv_forward g lat lon (-2)%Z = None /\ o = r) \/
      (exists z northp, placed g lat lon z northp (ut_easting o) (ut_northing o) (ut_gamma o) /\
         cv_designator g z northp (ut_easting o) (ut_northing o) (-1)%Z = None /\ ut_zone o = ut_zone r)
  end.
Proof. exact @ll_utm_cases. Qed.
Print Assumptions C110_outcome.

(** UTMtoLL undoes LLtoUTM, convergence included. *)
Theorem C110_round_trip : forall {K : Scalar} (g : conv_lib K) lat lon r o q, undoes g lat lon -> LLtoUTM g lat lon r = Returns o ->
  UTMtoLL g (ut_northing o) (ut_easting o) (ut_zone o) q = Returns (mkLL lat lon (ut_gamma o)).
Proof. exact @round_trip. Qed.
Print Assumptions C110_round_trip.

(** And LLtoUTM undoes UTMtoLL within a zone. *)
Theorem C110_round_back : forall {K : Scalar} (g : conv_lib K) northing easting s q p r, redoes g s easting northing ->
  UTMtoLL g northing easting s q = Returns p ->
  LLtoUTM g (ll_lat p) (ll_long p) r = Returns (mkUtm northing easting s (ll_gamma p)).
Proof. exact @round_back. Qed.
Print Assumptions C110_round_back.

(** Coordinates near a converted point are read in the zone and hemisphere of
    that point. *)
Theorem C110_nearby : forall {K : Scalar} (g : conv_lib K) lat lon r o, undoes g lat lon -> LLtoUTM g lat lon r = Returns o ->
  exists z northp, placed g lat lon z northp (ut_easting o) (ut_northing o) (ut_gamma o) /\
  forall northing easting q, UTMtoLL g northing easting (ut_zone o) q =
    match cv_reverse g z northp easting northing with
    | Some (la, lo, gm, _) => Returns (mkLL la lo gm)
    | None => Throws q
    end.
Proof. exact @displaced_eq. Qed.
Print Assumptions C110_nearby.

(** A failing UTMtoLL writes nothing. *)
Theorem C110_failed : forall {K : Scalar} (g : conv_lib K) northing easting s q p, UTMtoLL g northing easting s q = Throws p -> p = q.
Proof. exact @throws_ll. Qed.
Print Assumptions C110_failed.

(** A failing LLtoUTM can leave the coordinates of one point with the zone of
    another. *)
Theorem C110_mixed_refuted : exists (g : conv_lib RScalar) lat lon (r o : utm_refs RScalar) p q,
  (forall la lo, undoes g la lo) /\ LLtoUTM g lat lon r = Throws o /\ o <> r /\ ut_zone o = ut_zone r /\
  UTMtoLL g (ut_northing o) (ut_easting o) (ut_zone o) q = Returns p /\ ll_lat p <> lat.
Proof. exact mixed_ex. Qed.
Print Assumptions C110_mixed_refuted.

(** The forms without convergence are those with it, but for the convergence. *)
Theorem C110_short : forall {K : Scalar} (g : conv_lib K),
  (forall lat lon r, LLtoUTM5 g lat lon r =
     finish_map (fun o => mkUtm (ut_northing o) (ut_easting o) (ut_zone o) (ut_gamma r)) (LLtoUTM g lat lon r)) /\
  (forall junk northing easting s r, UTMtoLL5 g junk northing easting s r =
     finish_map (fun o => mkLL (ll_lat o) (ll_long o) (ll_gamma r)) (UTMtoLL g northing easting s r)).
Proof. exact @short_both. Qed.
Print Assumptions C110_short.

(** A point of the southern half of a plane. *)
Example C110_case : undoes plane_lib (-2)%R 5%R /\ redoes plane_lib "31M" (100 * 5 + 500000)%R (100 * -2 + 10000000)%R /\
  forall r, LLtoUTM plane_lib (-2)%R 5%R r = Returns (@mkUtm RScalar (100 * -2 + 10000000)%R (100 * 5 + 500000)%R "31M" 0%R).
Proof. split; [apply plane_undoes|]. split; [exact plane_redoes|exact plane_south]. Qed.
