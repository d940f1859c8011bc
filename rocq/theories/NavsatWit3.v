(** * Further concrete executions (C63, C69, C76-C80) *)

From Coq Require Import Reals ZArith List Bool String Lia Lra Arith.
From Verif Require Import Scalar Mat FilterBase Tf StrMap RosFilter RosPrepare Navsat SpecFilter SpecLin SpecTf SpecPrepare SpecNavsat
  RBridge Angles Trig TfReal TfRot TfQuat PrepareProofs PrepareReal PrepareFacts PrepareThm PrepareGoals PrepareWit
  NavsatProofs NavsatTrace NavsatLife NavsatReal NavsatDatum NavsatGoals NavsatSim NavsatGoals2 NavsatWit NavsatWit2 NavsatMore.
Import ListNotations.
Local Open Scope list_scope.
Local Open Scope R_scope.

(** On the flat earth nothing is ever thrown. *)
Lemma flat_step p junk e ev n : exists n' o, nav_step flat_geo p junk e ev n = Done (n', o).
Proof.
  destruct (nav_step flat_geo p junk e ev n) as [(n', o)|] eqn:S; [eauto|]. exfalso. apply thrown_iff in S.
  destruct ev; try exact S.
  - destruct S as (_ & S). discriminate S.
  - destruct S as (_ & _ & _ & S). apply back_thrown in S. discriminate S.
  - discriminate S.
  - destruct S as (_ & S). apply back_thrown in S. discriminate S.
  - destruct S as (_ & S). discriminate S.
Qed.
Lemma flat_run p u junk evs : exists n outs, execution flat_geo p u junk evs n outs.
Proof.
  induction evs as [|(e, ev) evs (n & outs & E)] using rev_ind.
  - exists (nav_init p u), []. apply execution_nil. auto.
  - destruct (flat_step p junk e ev n) as (n' & o & S). exists n', (outs ++ [o]). apply execution_snoc. eauto 6.
Qed.
Lemma no_tick_not_good g p u junk evs n outs : execution g p u junk evs n outs ->
  (forall x now, In x evs -> snd x <> EvTick now) -> @nv_good RScalar n = false.
Proof.
  revert n outs. induction evs as [|(e, ev) evs IH] using rev_ind; intros n outs E N.
  - apply execution_nil in E as (-> & _). reflexivity.
  - apply execution_snoc in E as (n0 & outs0 & o & A & S & _).
    assert (G : nv_good n0 = false) by (apply (IH _ _ A); intros x now I; apply N, in_or_app; auto).
    destruct (good_or n) as [G'|G']; [|exact G']. exfalso.
    destruct (becomes_good _ _ _ _ _ _ _ _ S G G') as (now & m & -> & _).
    apply (N (e, EvTick now) now); [apply in_or_app; right; left; reflexivity|reflexivity].
Qed.

(** ** Heading from the IMU, transform broadcast *)
Definition imu_par (broadcast parent : bool) : nav_params RScalar :=
  @mkNavPar RScalar 0 0 false true false false false broadcast parent [].
Definition wit_imu (stamp : Z) : imu_msg RScalar :=
  @mkImu RScalar stamp "base_link" level (v3 0 0 0) (v3 0 0 0) (fun _ => 0) (fun _ => 0) (fun _ => 0).
Definition imu_part : @trace RScalar :=
  [(blind, EvOdom (wit_odom 5000000000 (v3 0 0 0))); (blind, EvImu (wit_imu 5000000000)); (blind, EvGps (wit_fix 5000000000 1 3 0))].
Lemma imu_started b w : exists n0 outs0 n outs o,
  execution flat_geo (imu_par b w) wit_u m3eye imu_part n0 outs0 /\ nv_good n0 = false /\ nv_manual n0 = false /\
  execution flat_geo (imu_par b w) wit_u m3eye (imu_part ++ [(blind, EvTick 1)]) n outs /\ nv_good n = true /\
  outs = outs0 ++ [o] /\ nav_step flat_geo (imu_par b w) m3eye blind (EvTick 1) n0 = Done (n, o).
Proof.
  destruct (flat_run (imu_par b w) wit_u m3eye imu_part) as (n0 & outs0 & E0).
  destruct (flat_step (imu_par b w) m3eye blind (EvTick 1) n0) as (n & o & S).
  assert (E : execution flat_geo (imu_par b w) wit_u m3eye (imu_part ++ [(blind, EvTick 1)]) n (outs0 ++ [o])) by (apply execution_snoc; eauto 6).
  assert (G0 : nv_good n0 = false).
  { apply (no_tick_not_good _ _ _ _ _ _ _ E0). intros x now [<-|[<-|[<-|[]]]]; discriminate. }
  assert (NR : no_request imu_part) by (intros x [<-|[<-|[<-|[]]]]; cbn; auto).
  exists n0, outs0, n, (outs0 ++ [o]), o. split; [exact E0|]. split; [exact G0|].
  split. { destruct (datum_kept_run _ _ _ _ _ _ _ E0 NR) as (_ & -> & _). reflexivity. }
  split; [exact E|]. split; [|auto].
  apply (completes_auto _ _ _ _ _ _ _ _ _ _ _ E0 eq_refl NR G0 E). split; [|split].
  - eexists. split; [left; reflexivity|]. eexists; reflexivity.
  - eexists. split; [right; right; left; reflexivity|]. eexists. split; [reflexivity|apply wit_usable].
  - exists [(blind, EvOdom (wit_odom 5000000000 (v3 0 0 0)))], blind, (wit_imu 5000000000), [(blind, EvGps (wit_fix 5000000000 1 3 0))],
      blind, (wit_odom 5000000000 (v3 0 0 0)).
    split; [reflexivity|]. split; [|discriminate].
    exists [], []. split; [reflexivity|]. split; [eexists; reflexivity|]. intros y [].
Qed.
(** A zone request, a turned robot, and the recomputed transform. *)
Definition imu_later : @trace RScalar := [(blind, EvZone "32N"); (blind, EvImu (wit_imu 6000000000)); (blind, EvTick 2)].
Lemma imu_case : exists n0 outs0 n outs,
  execution flat_geo (imu_par false false) wit_u m3eye imu_part n0 outs0 /\ nv_good n0 = false /\
  execution flat_geo (imu_par false false) wit_u m3eye (imu_part ++ [(blind, EvTick 1)]) n outs /\ nv_good n = true /\
  p_odom_yaw (imu_par false false) = false /\ nv_manual n0 = false /\ filter not_imu imu_later <> imu_later /\
  nav_run flat_geo (imu_par false false) m3eye imu_later n <> Thrown.
Proof.
  destruct (imu_started false false) as (n0 & outs0 & n & outs & o & E0 & G0 & M & E & G & _).
  exists n0, outs0, n, outs. split; [exact E0|]. split; [exact G0|]. split; [exact E|]. split; [exact G|].
  split; [reflexivity|]. split; [exact M|]. split; [discriminate|].
  destruct (flat_run (imu_par false false) wit_u m3eye ((imu_part ++ [(blind, EvTick 1)]) ++ imu_later)) as (n2 & outs2 & E2).
  apply run_app in E2 as (m & la & lb & A & B & _). unfold execution in E. rewrite E in A. inversion A; subst. rewrite B. discriminate.
Qed.

Lemma completed_broadcast g p junk e now (n n' : nav RScalar) o : nav_step g p junk e (EvTick now) n = Done (n', o) -> nv_good n = false -> nv_good n' = true ->
  p_broadcast p = true -> exists s, In (PubTf s) o.
Proof.
  cbn [nav_step]. unfold transformCallback. intros S G G' B. rewrite G in S.
  pose proof (compute_keeps e g p now n) as T. unfold computeTransform, cartesian_broadcast in *. rewrite B in *.
  set (m := if (negb (nv_good n) && nv_has_odom n && nv_manual n)%bool then setManualDatum e g p n else n) in *.
  destruct (negb (nv_good m) && nv_has_odom m && nv_has_gps m && nv_has_imu m)%bool eqn:C.
  - inversion S; subst. eexists. left. reflexivity.
  - exfalso. assert (GM : nv_good m = false).
    { subst m. rewrite G. cbn [negb andb]. destruct (nv_has_odom n && nv_manual n)%bool; [|exact G].
      rewrite <- G. apply (manual_keeps e g p n). }
    cbn [fst snd] in S. rewrite GM in S. cbn [andb] in S. inversion S; subst. congruence.
Qed.
Lemma broadcast_case : exists n outs o s,
  execution flat_geo (imu_par true true) wit_u m3eye (imu_part ++ [(blind, EvTick 1)]) n (outs ++ [o]) /\ In (PubTf s) o.
Proof.
  destruct (imu_started true true) as (n0 & outs0 & n & outs & o & E0 & G0 & _ & E & G & -> & S).
  destruct (completed_broadcast _ _ _ _ _ _ _ _ S G0 G eq_refl) as (s & I). eauto 6.
Qed.

(** ** A datum given as parameter *)
Definition manual_par : nav_params RScalar := @mkNavPar RScalar 0 0 false true false true false false false [1; 3; 1].
Definition manual_part : @trace RScalar := [(blind, EvOdom (wit_odom 5000000000 (v3 7 0 0)))].
Lemma manual_case : exists n0 outs0 n outs,
  execution flat_geo manual_par wit_u m3eye manual_part n0 outs0 /\ nv_good n0 = false /\ nv_manual n0 = true /\
  execution flat_geo manual_par wit_u m3eye (manual_part ++ [(blind, EvTick 1)]) n outs /\ nv_good n = true /\
  given_datum manual_par manual_part 1 3 0 0 0 1 /\ no_zone manual_part /\ g_forward flat_geo 1 3 (-1) <> None.
Proof.
  destruct (flat_run manual_par wit_u m3eye manual_part) as (n0 & outs0 & E0).
  destruct (flat_run manual_par wit_u m3eye (manual_part ++ [(blind, EvTick 1)])) as (n & outs & E).
  assert (G0 : nv_good n0 = false).
  { apply (no_tick_not_good _ _ _ _ _ _ _ E0). intros x now [<-|[]]; discriminate. }
  assert (NR : no_request manual_part) by (intros x [<-|[]]; cbn; auto).
  destruct (datum_configured _ _ _ _ _ _ _ E0 NR eq_refl) as (_ & M & _).
  exists n0, outs0, n, outs. split; [exact E0|]. split; [exact G0|]. split; [exact M|]. split; [exact E|].
  split.
  - apply (completes_manual _ _ _ _ _ _ _ _ _ _ _ E0 M G0 E).
    + eexists. split; [left; reflexivity|]. eexists; reflexivity.
    + right. cbn [flat_geo g_forward]. discriminate.
  - split; [apply gd_configured; [exact NR|reflexivity|reflexivity]|]. split; [|discriminate].
    intros x z [<-|[]]; discriminate.
Qed.

(** ** Publications *)
Lemma publish_case : exists n' outs o m f,
  execution flat_geo (wit_par false false true) wit_u m3eye (wit_events 1 3 0 2 3 0 ++ [(seeing (mount (Some (ahead 1)) (Some (ahead 2))), EvTick 2)])
    n' (outs ++ [o]) /\ In (PubGps m) o /\ In (PubFix f) o.
Proof.
  destruct (wit_published false false true 1 3 0 2 3 0 (seeing (mount (Some (ahead 1)) (Some (ahead 2)))))
    as (n & outs & n' & o & m & _ & _ & _ & _ & _ & _ & E & I & F & _).
  destruct (F eq_refl) as (f & J). eauto 10.
Qed.
