(** * Vocabulary for the conversions between degrees and UTM (C110) *)

From Coq Require Import ZArith Reals List Bool String.
From Verif Require Import Scalar Convert.
Local Open Scope R_scope.

Section SpecConvert.
Context {K : Scalar}.
(** The place of a point in the grid: zone, hemisphere, easting, northing. *)
Definition placed (g : conv_lib K) (lat lon : K) (z : Z) (northp : bool) (x y gamma : K) : Prop :=
  exists k, cv_forward g lat lon (-2)%Z = Some (z, northp, x, y, gamma, k).
Definition located (g : conv_lib K) (z : Z) (northp : bool) (x y lat lon gamma : K) : Prop :=
  exists k, cv_reverse g z northp x y = Some (lat, lon, gamma, k).
(** A designator stands for a zone and a hemisphere. *)
Definition names (g : conv_lib K) (s : string) (z : Z) (northp : bool) : Prop :=
  exists x y prec, cv_designated g s true = Some (z, northp, x, y, prec).
(** The library undoes itself at a point: Reverse undoes Forward, and the
    designator, where there is one, names the zone and hemisphere. *)
Definition undoes (g : conv_lib K) (lat lon : K) : Prop :=
  forall z northp x y gamma, placed g lat lon z northp x y gamma ->
    located g z northp x y lat lon gamma /\
    forall s, cv_designator g z northp x y (-1)%Z = Some s -> names g s z northp.
(** The other way round, for coordinates that belong to the zone and to the
    designator. *)
Definition redoes (g : conv_lib K) (s : string) (x y : K) : Prop :=
  exists z northp, names g s z northp /\ cv_designator g z northp x y (-1)%Z = Some s /\
    forall lat lon gamma, located g z northp x y lat lon gamma -> placed g lat lon z northp x y gamma.
End SpecConvert.

(** A library for a plane earth of one zone: "31N" and "31M". *)
Definition plane_lib : conv_lib RScalar :=
  @mkConv RScalar
    (fun lat lon _ => if Rle_dec 0 lat then Some (31%Z, true, 100 * lon + 500000, 100 * lat, 0, 1)
                      else Some (31%Z, false, 100 * lon + 500000, 100 * lat + 10000000, 0, 1))
    (fun _ (northp : bool) x y => if northp then Some (y / 100, (x - 500000) / 100, 0, 1)
                                  else Some ((y - 10000000) / 100, (x - 500000) / 100, 0, 1))
    (fun _ (northp : bool) x _ _ => if Rle_dec 900000 x then None else Some (if northp then "31N" else "31M")%string)
    (fun s _ => if String.eqb s "31N" then Some (31%Z, true, 0, 0, (-1)%Z)
                else if String.eqb s "31M" then Some (31%Z, false, 0, 0, (-1)%Z) else None).
