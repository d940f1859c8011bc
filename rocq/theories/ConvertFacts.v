(** * Proofs about the conversions between degrees and UTM (C110) *)

From Coq Require Import ZArith Reals Lra List Bool String.
From Verif Require Import Scalar Convert SpecConvert.

Section Facts.
Context {K : Scalar}.
Variable g : conv_lib K.

Lemma ll_utm_cases lat lon (r : utm_refs K) :
  match LLtoUTM g lat lon r with
  | Returns o => exists z northp, placed g lat lon z northp (ut_easting o) (ut_northing o) (ut_gamma o) /\
      cv_designator g z northp (ut_easting o) (ut_northing o) (-1)%Z = Some (ut_zone o)
  | Throws o =>
      (cv_forward g lat lon (-2)%Z = None /\ o = r) \/
      (exists z northp, placed g lat lon z northp (ut_easting o) (ut_northing o) (ut_gamma o) /\
         cv_designator g z northp (ut_easting o) (ut_northing o) (-1)%Z = None /\ ut_zone o = ut_zone r)
  end.
Proof.
  unfold LLtoUTM, ZONE_MATCH, placed.
  destruct (cv_forward g lat lon (-2)) as [[[[[[z np] x] y] gm] k]|] eqn:F; [|left; split; reflexivity].
  cbv zeta. cbn [ut_easting ut_northing ut_gamma ut_zone].
  destruct (cv_designator g z np x y (-1)) as [s|] eqn:D.
  - exists z, np. cbn. split; [exists k; reflexivity|exact D].
  - right. exists z, np. cbn. split; [exists k; reflexivity|]. split; [exact D|reflexivity].
Qed.

Lemma placed_unique lat lon z n x y gm z' n' x' y' gm' :
  placed g lat lon z n x y gm -> placed g lat lon z' n' x' y' gm' -> z = z' /\ n = n' /\ x = x' /\ y = y' /\ gm = gm'.
Proof. intros [k H] [k' H']. rewrite H in H'. injection H' as -> -> -> -> -> _. repeat split. Qed.

Lemma displaced_eq lat lon r o : undoes g lat lon -> LLtoUTM g lat lon r = Returns o ->
  exists z northp, placed g lat lon z northp (ut_easting o) (ut_northing o) (ut_gamma o) /\
  forall northing easting q, UTMtoLL g northing easting (ut_zone o) q =
    match cv_reverse g z northp easting northing with
    | Some (la, lo, gm, _) => Returns (mkLL la lo gm)
    | None => Throws q
    end.
Proof.
  intros U H. pose proof (ll_utm_cases lat lon r) as C. rewrite H in C. destruct C as (z & np & P & D).
  exists z, np. split; [exact P|]. intros northing easting q. destruct (U _ _ _ _ _ P) as [_ N].
  destruct (N _ D) as (x & y & pr & E). unfold UTMtoLL. rewrite E. reflexivity.
Qed.

Lemma round_trip lat lon r o q : undoes g lat lon -> LLtoUTM g lat lon r = Returns o ->
  UTMtoLL g (ut_northing o) (ut_easting o) (ut_zone o) q = Returns (mkLL lat lon (ut_gamma o)).
Proof.
  intros U H. destruct (displaced_eq _ _ _ _ U H) as (z & np & P & D). rewrite D.
  destruct (U _ _ _ _ _ P) as [[k L] _]. rewrite L. reflexivity.
Qed.

Lemma round_back northing easting s q p r : redoes g s easting northing -> UTMtoLL g northing easting s q = Returns p ->
  LLtoUTM g (ll_lat p) (ll_long p) r = Returns (mkUtm northing easting s (ll_gamma p)).
Proof.
  intros (z & np & (x & y & pr & N) & D & R). unfold UTMtoLL. rewrite N.
  destruct (cv_reverse g z np easting northing) as [[[[la lo] gm] k]|] eqn:V; [|discriminate]. intros [= <-]. cbn [ll_lat ll_long ll_gamma].
  destruct (R la lo gm (ex_intro _ k V)) as [k' P].
  unfold LLtoUTM, ZONE_MATCH. rewrite P. cbv zeta. cbn [ut_easting ut_northing ut_gamma ut_zone]. rewrite D. reflexivity.
Qed.

Lemma throws_ll northing easting s q p : UTMtoLL g northing easting s q = Throws p -> p = q.
Proof.
  unfold UTMtoLL. destruct (cv_designated g s true) as [[[[[z np] x] y] pr]|]; [|intros [= <-]; reflexivity].
  destruct (cv_reverse g z np easting northing) as [[[[la lo] gm] k]|]; [discriminate|intros [= <-]; reflexivity].
Qed.

Lemma short_utm lat lon (r : utm_refs K) : LLtoUTM5 g lat lon r =
  finish_map (fun o => mkUtm (ut_northing o) (ut_easting o) (ut_zone o) (ut_gamma r)) (LLtoUTM g lat lon r).
Proof.
  unfold LLtoUTM5, LLtoUTM. destruct (cv_forward g lat lon ZONE_MATCH) as [[[[[[z np] x] y] gm] k]|]; [|reflexivity].
  cbv zeta. cbn [ut_easting ut_northing ut_gamma ut_zone]. destruct (cv_designator g z np x y (-1)); reflexivity.
Qed.
Lemma short_ll junk northing easting s (r : ll_refs K) : UTMtoLL5 g junk northing easting s r =
  finish_map (fun o => mkLL (ll_lat o) (ll_long o) (ll_gamma r)) (UTMtoLL g northing easting s r).
Proof.
  unfold UTMtoLL5, UTMtoLL. destruct (cv_designated g s true) as [[[[[z np] x] y] pr]|]; [|reflexivity].
  destruct (cv_reverse g z np easting northing) as [[[[la lo] gm] k]|]; reflexivity.
Qed.
Lemma short_both :
  (forall lat lon r, LLtoUTM5 g lat lon r =
     finish_map (fun o => mkUtm (ut_northing o) (ut_easting o) (ut_zone o) (ut_gamma r)) (LLtoUTM g lat lon r)) /\
  (forall junk northing easting s r, UTMtoLL5 g junk northing easting s r =
     finish_map (fun o => mkLL (ll_lat o) (ll_long o) (ll_gamma r)) (UTMtoLL g northing easting s r)).
Proof. split; [exact short_utm|exact short_ll]. Qed.
End Facts.

(** ** The plane *)
Local Open Scope R_scope.
Lemma plane_undoes lat lon : undoes plane_lib lat lon.
Proof.
  intros z np x y gm [k H]. cbn in H. destruct (Rle_dec 0 lat); injection H as <- <- <- <- <- <-; split.
  - exists 1. cbn. f_equal. f_equal. f_equal. f_equal; lra.
  - intros s. cbn. destruct (Rle_dec _ _); [discriminate|]. intros [= <-]. do 3 eexists. reflexivity.
  - exists 1. cbn. f_equal. f_equal. f_equal. f_equal; lra.
  - intros s. cbn. destruct (Rle_dec _ _); [discriminate|]. intros [= <-]. do 3 eexists. reflexivity.
Qed.
Lemma plane_south (r : utm_refs RScalar) : LLtoUTM plane_lib (-2) 5 r = Returns (@mkUtm RScalar (100 * -2 + 10000000) (100 * 5 + 500000) "31M" 0).
Proof.
  unfold LLtoUTM. cbn. destruct (Rle_dec 0 (-2)); [lra|]. cbn. destruct (Rle_dec 900000 (100 * 5 + 500000)); [lra|]. reflexivity.
Qed.

Lemma plane_redoes : redoes plane_lib "31M" (100 * 5 + 500000) (100 * -2 + 10000000).
Proof.
  exists 31%Z, false. split; [do 3 eexists; reflexivity|]. split.
  - cbn. destruct (Rle_dec _ _); [lra|reflexivity].
  - intros lat lon gm [k H]. cbn in H. injection H as <- <- <- _. exists 1. cbn. destruct (Rle_dec _ _); [lra|].
    repeat f_equal; lra.
Qed.

(** A failed conversion mixes two points. *)
Lemma mixed_ex : exists (g : conv_lib RScalar) lat lon (r o : utm_refs RScalar) p q,
  (forall la lo, undoes g la lo) /\ LLtoUTM g lat lon r = Throws o /\ o <> r /\ ut_zone o = ut_zone r /\
  UTMtoLL g (ut_northing o) (ut_easting o) (ut_zone o) q = Returns p /\ ll_lat p <> lat.
Proof.
  exists plane_lib, 1, 5000. exists (@mkUtm RScalar (100 * -2 + 10000000) (100 * 5 + 500000) "31M" 0).
  exists (@mkUtm RScalar (100 * 1) (100 * 5000 + 500000) "31M" 0).
  exists (@mkLL RScalar ((100 * 1 - 10000000) / 100) ((100 * 5000 + 500000 - 500000) / 100) 0), (@mkLL RScalar 0 0 0).
  split; [exact plane_undoes|]. split.
  { unfold LLtoUTM. cbn. destruct (Rle_dec 0 1); [|lra]. cbn. destruct (Rle_dec 900000 (100 * 5000 + 500000)); [reflexivity|lra]. }
  split; [intros H; apply (f_equal (@ut_northing RScalar)) in H; cbn in H; lra|]. split; [reflexivity|].
  split; [reflexivity|]. cbn. lra.
Qed.
