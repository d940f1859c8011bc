(** * IMU messages after the subscription is dropped, completion and exceptions (C69, C77, C78) *)

From Coq Require Import ZArith List Bool String.
From Verif Require Import Scalar Mat Tf FilterBase RosFilter RosPrepare Navsat SpecPrepare SpecNavsat PrepareProofs NavsatProofs NavsatTrace NavsatLife NavsatSim.
Import ListNotations.
Local Open Scope list_scope.

Section Generic.
Context {K : Scalar}.

(** The events that are not IMU messages. *)
Definition not_imu (x : penv K * nav_event K) : bool := match snd x with EvImu _ => false | _ => true end.

Definition summary (r : result (nav K * list (list (nav_out K)))) : option (nav K * list (nav_out K)) :=
  match r with Done (n, os) => Some (n, List.concat os) | Thrown => None end.

Lemma without_imu_run (g : geolib K) p junk evs n : nv_imu_sub n = false ->
  summary (nav_run g p junk evs n) = summary (nav_run g p junk (filter not_imu evs) n).
Proof.
  revert n; induction evs as [|(e, ev) r IH]; intros n F; [reflexivity|].
  assert (C : (exists i, ev = EvImu i) \/ not_imu (e, ev) = true) by (destruct ev; cbn; eauto).
  destruct C as [(i & ->)|C].
  - cbn [filter not_imu snd nav_run]. rewrite (imu_ignored g p junk e i n F). rewrite <- (IH n F).
    destruct (nav_run g p junk r n) as [(n', os)|]; reflexivity.
  - cbn [filter]. rewrite C. cbn [nav_run]. destruct (nav_step g p junk e ev n) as [(n1, o)|] eqn:S; [|reflexivity].
    pose proof (IH n1 (imu_dropped _ _ _ _ _ _ _ _ S F)) as Q.
    destruct (nav_run g p junk r n1) as [(n2, os)|]; destruct (nav_run g p junk (filter not_imu r) n1) as [(n3, os')|]; cbn in *; try congruence.
Qed.

(** After an automatic completion that took its heading from the IMU. *)
Theorem imu_without (g : geolib K) p u junk evs e now n0 outs0 n outs more :
  execution g p u junk evs n0 outs0 -> nv_good n0 = false -> execution g p u junk (evs ++ [(e, EvTick now)]) n outs -> nv_good n = true ->
  p_odom_yaw p = false -> nv_manual n0 = false ->
  summary (nav_run g p junk more n) = summary (nav_run g p junk (filter not_imu more) n).
Proof. intros H0 G0 H G PY M. apply without_imu_run. exact (imu_dropped_good g p u junk evs e now n0 outs0 n outs H0 G0 H G PY M). Qed.

(** A sensor's mounting is known at a stamp. *)
Definition mounting_known (e : penv K) (base frame : string) (stamp : Z) : Prop :=
  exists t, answer (e_buffer e) base frame (e_from_sec e (toSec stamp)) (Some t).
Lemma known_lookup e base frame stamp : lookupTransformSafe e base frame stamp <> None <-> mounting_known e base frame stamp.
Proof.
  split.
  - intros H. pose proof (lookup_answer e base frame stamp) as A. destruct (lookupTransformSafe e base frame stamp) as [t|]; [exists t; exact A|congruence].
  - intros (t & A) Q. pose proof (lookup_answer e base frame stamp) as B. rewrite Q in B. pose proof (answer_fun _ _ _ _ _ _ A B). discriminate.
Qed.
Theorem completes_known (g : geolib K) p u junk evs n outs e now n' outs' : execution g p u junk evs n outs ->
  p_manual p = false -> no_request evs -> nv_good n = false ->
  execution g p u junk (evs ++ [(e, EvTick now)]) n' outs' ->
  (nv_good n' = true <-> some_event odometry evs /\ some_event usable_fix evs /\
   (if p_odom_yaw p then True else
    exists a ei i b eo o, evs = a ++ (ei, EvImu i) :: b /\ last_with odometry a (eo, EvOdom o) /\
      mounting_known ei (o_child o) (im_frame i) (im_stamp i))).
Proof.
  intros H M N G H'. rewrite (completes_auto _ _ _ _ _ _ _ _ _ _ _ H M N G H'). destruct (p_odom_yaw p); [tauto|].
  split; intros (A & B & a & ei & i & b & eo & o & Q & L & W); (split; [exact A|]; split; [exact B|]);
    exists a, ei, i, b, eo, o; (split; [exact Q|]; split; [exact L|]); apply known_lookup; exact W.
Qed.

(** The place of a map point, if the inverse projection has one. *)
Definition place (g : geolib K) (n : nav K) (v : vec3 K) : option (K * K) :=
  let w := t_origin (t_mult (nv_cwi n) (t_of quat_identity v)) in g_reverse g (nv_zone n) (nv_northp n) (v3x w) (v3y w).
Theorem throws (g : geolib K) p junk e ev n : nav_step g p junk e ev n = Thrown <->
  match ev with
  | EvGps f => usable f /\ g_forward g (fx_lat f) (fx_lon f) (-1)%Z = None
  | EvZone z => g_mgrs g z = None
  | EvToLL v => nv_good n = true /\ place g n v = None
  | EvFromLL lat lon _ => p_local p = false /\ g_forward g lat lon (nv_zone n) = None
  | EvTick _ => nv_good n = true /\ p_publish p = true /\ nv_odom_updated n = true /\ place g n (t_origin (nv_odom_pose n)) = None
  | _ => False
  end.
Proof. rewrite thrown_iff. destruct ev; try reflexivity; rewrite back_thrown; reflexivity. Qed.

End Generic.
