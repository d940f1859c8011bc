(** * UTM-zone requests (C90) *)

From Coq Require Import Reals ZArith List Bool String.
From Verif Require Import Scalar Mat Tf FilterBase RosFilter RosPrepare Navsat SpecNavsat SpecZone NavsatProofs NavsatLife ZoneFacts
  NavsatWit NavsatWit2 NavsatWit3.
Import ListNotations.
Local Open Scope list_scope.

(** ** C90: a transform completed after a UTM-zone request has as its datum the
    last fix received between the request and its completion that projects into
    the requested zone *)
Theorem C90_datum : forall (K : Scalar) (g : geolib K) p junk z e0 s n0 n1 o1,
  nav_step g p junk e0 (EvZone s) n0 = Done (n1, o1) -> (exists northp, g_mgrs g s = Some (z, northp)) -> honours_zone g z ->
  forall later n2 l, nav_run g p junk later n1 = Done (n2, l) -> no_request later -> nv_good n2 = true ->
  exists a e now b ef f, later = a ++ (e, EvTick now) :: b /\ last_with (fix_in_zone g p z) a (ef, EvGps f) /\ datum_from g p z f n2.
Proof. exact (@zone_datum). Qed.
Print Assumptions C90_datum.

(** A node that had a transform has a new one at the next tick exactly when such
    a fix has come since: earlier fixes do not count. *)
Theorem C90_completes : forall (K : Scalar) (g : geolib K) p u junk z evs n0 outs e0 s n1 o1,
  execution g p u junk evs n0 outs -> nv_good n0 = true ->
  nav_step g p junk e0 (EvZone s) n0 = Done (n1, o1) -> (exists northp, g_mgrs g s = Some (z, northp)) -> honours_zone g z ->
  forall later n2 l e now n3 o, nav_run g p junk later n1 = Done (n2, l) -> no_request later -> nv_good n2 = false ->
  nav_step g p junk e (EvTick now) n2 = Done (n3, o) ->
  (nv_good n3 = true <-> some_event (fix_in_zone g p z) later).
Proof. exact (@zone_completes). Qed.
Print Assumptions C90_completes.

(** A node with a datum in zone 31 is asked to use zone 32; then a fix and a tick. *)
Example C90_case : exists n0 outs n1 n2 l n3 o, let p := wit_par false false true in
  execution flat_geo p wit_u m3eye (wit_start 1 3 0) n0 outs /\ nv_good n0 = true /\ nv_zone n0 = 31%Z /\
  nav_step flat_geo p m3eye blind (EvZone "32U") n0 = Done (n1, []) /\ honours_zone flat_geo 32 /\
  (exists northp, g_mgrs flat_geo "32U" = Some (32%Z, northp)) /\
  nav_run flat_geo p m3eye [(blind, EvGps (wit_fix 6000000000 1 3 0))] n1 = Done (n2, l) /\ nv_good n2 = false /\
  nav_step flat_geo p m3eye blind (EvTick 2) n2 = Done (n3, o) /\ nv_good n3 = true /\ nv_zone n3 = 32%Z.
Proof.
  destruct (wit_started false false true 1 3 0) as (n0 & outs & E & G & _ & _ & ZN & _).
  assert (HZ : honours_zone flat_geo 32) by (intros lat lon z' np x y gm H; cbn in H; inversion H; reflexivity).
  assert (Z31 : nv_zone n0 = 31%Z) by (rewrite ZN; apply flat_zone_west; apply Rlt_trans with 5%R; apply IZR_lt; reflexivity).
  exists n0, outs, (set_zone 32 true n0). cbv zeta.
  set (p := wit_par false false true) in *.
  destruct (flat_step p m3eye blind (EvGps (wit_fix 6000000000 1 3 0)) (set_zone 32 true n0)) as (n2 & o2 & S2).
  assert (R2 : nav_run flat_geo p m3eye [(blind, EvGps (wit_fix 6000000000 1 3 0))] (set_zone 32 true n0) = Done (n2, [o2])) by (cbn [nav_run]; rewrite S2; reflexivity).
  assert (S1 : nav_step flat_geo p m3eye blind (EvZone "32U") n0 = Done (set_zone 32 true n0, [])) by reflexivity.
  assert (M : exists northp, g_mgrs flat_geo "32U" = Some (32%Z, northp)) by (exists true; reflexivity).
  assert (N : no_request [(blind, EvGps (wit_fix 6000000000 1 3 0))]) by (intros x [<-|[]]; exact (fun x => x)).
  destruct (fix_step _ _ _ _ _ _ _ _ 32 S2 (wit_usable _ _ _ _)) as (G2 & _); try reflexivity; [exact HZ|].
  destruct (flat_step p m3eye blind (EvTick 2) n2) as (n3 & o3 & S3).
  assert (G3 : nv_good n3 = true).
  { apply (C90_completes _ _ _ _ _ 32 _ _ _ _ _ _ _ E G S1 M HZ _ _ _ _ _ _ _ R2 N G2 S3).
    eexists. split; [left; reflexivity|]. eexists. split; [reflexivity|]. split; [apply wit_usable|]. right. cbn. eauto. }
  exists n2, [o2], n3, o3. do 9 (split; [first [assumption|reflexivity]|]). split; [exact G3|].
  assert (R3 : nav_run flat_geo p m3eye ([(blind, EvGps (wit_fix 6000000000 1 3 0))] ++ [(blind, EvTick 2)]) (set_zone 32 true n0) = Done (n3, [o2; o3]))
    by (apply run_snoc; exists n2, [o2], o3; auto).
  destruct (C90_datum _ _ _ _ 32 _ _ _ _ _ S1 M HZ _ _ _ R3) as (a & e & now & b & ef & f & _ & _ & D); [|exact G3|].
  { intros x [<-|[<-|[]]]; exact (fun x => x). }
  destruct D as (x & y & gm & _ & Q & _). exact Q.
Qed.
