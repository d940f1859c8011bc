(** * Properties of the listener (C59-C62, C73-C75) *)

From Coq Require Import Reals ZArith List Bool Arith String Lia Lra Sorted Floats.
From Verif Require Import Scalar FloatScalar Mat FilterBase StrMap Tf Estimator SpecEstimator FloatOrder RosFilter RosPrepare
  Listener SpecLin SpecTf SpecNode SpecPrepare SpecListener ListenerAnc ListenerProofs RBridge TfReal PrepareMotion
  ListenerReal ListenerQuery ListenerStale ListenerGoals.
Import ListNotations.

(** ** C59 *)
Theorem C59_search : forall tree source target,
  (forall b, findAncestorRecursive (List.length tree) tree source target = Returned b -> (b = true <-> ancestor tree source target)) /\
  (findAncestorRecursive (List.length tree) tree source target = Undefined <->
   ~ ancestor tree source target /\ exists g p, ancestor tree source g /\ child_of tree g p /\ ancestor tree p g).
Proof. exact (fun tree s t => conj (fun b H => search_sound _ tree s t b H) (search_undefined tree s t)). Qed.
Print Assumptions C59_search.

Theorem C59_queries : forall tree, acyclic tree -> forall qs,
  Forall2 (fun q a => decides a (ancestor tree (fst q) (snd q))) qs
    (anc_queries (map (fun q => (tree, fst q, snd q)) qs) no_cache).
Proof. exact (fun tree AC qs => queries_decide tree AC qs no_cache (no_cache_coherent tree)). Qed.
Print Assumptions C59_queries.

Theorem C59_changed_tree_refuted : exists tree1 tree2 s t, acyclic tree1 /\ acyclic tree2 /\
  anc_queries [(tree1, s, t); (tree2, s, t)] no_cache = [Returned true; Returned true] /\ ~ ancestor tree2 s t.
Proof. exact stale_cache. Qed.
Print Assumptions C59_changed_tree_refuted.

Example C59_case : acyclic robot_tree /\
  anc_queries [(robot_tree, "laser", "base"); (robot_tree, "base", "laser"); (robot_tree, "laser", "map"); (robot_tree, "map", "base");
    (robot_tree, "laser", "base"); (robot_tree, "laser", "laser")]%string no_cache
  = [Returned true; Returned false; Returned true; Returned false; Returned true; Returned true].
Proof. split; [exact robot_acyclic|reflexivity]. Qed.
Example C59_cycle_case : findAncestorRecursive 2 [("a", "b"); ("b", "a")]%string "a" "c" = Undefined.
Proof. reflexivity. Qed.

(** ** C60 *)
Theorem C60_stored : forall (K : Scalar) (m : pair_msg (K := K)), stores m (listener_state (fst m) (snd m)).
Proof. exact (@state_stores). Qed.
Print Assumptions C60_stored.

Theorem C60_first_of_second : forall (K : Scalar) E (vt : vtbl K E), order_ok K -> seconds_ok K ->
  forall cap filter reparse q l0 c evs y,
  listener_construct cap (Some filter) reparse q = Returned l0 ->
  Forall stamped32 (heard evs) -> in_order (heard evs) ->
  listener_run vt evs (l0, c) = Returned y ->
  exists e, l_est (fst y) = Some e /\
    Forall2 stores (last_n cap (first_of_seconds None (heard evs))) (e_buf e).
Proof. exact (@first_stored). Qed.
Print Assumptions C60_first_of_second.

(** In any order of messages, every stored state is one of the messages. *)
Theorem C60_only_messages : forall (K : Scalar) E (vt : vtbl K E) cap filter reparse q l0 c evs y,
  listener_construct cap (Some filter) reparse q = Returned l0 -> listener_run vt evs (l0, c) = Returned y ->
  forall e s, l_est (fst y) = Some e -> In s (e_buf e) -> exists m, In m (heard evs) /\ stores m s.
Proof. exact (@only_stored). Qed.
Print Assumptions C60_only_messages.

(** Queries by ROS time in the same second get the same answer; in a second
    with a stored message they get that message, however old it is. *)
Theorem C60_ros_query : forall (K : Scalar) E (vt : vtbl K E) env now s1 s2 frame world l c,
  (0 < s1)%Z -> (0 < s2)%Z -> whole_second s1 = whole_second s2 ->
  listener_getState_ros vt env now s1 frame world l c = listener_getState_ros vt env now s2 frame world l c.
Proof. exact (@ros_same_second). Qed.
Print Assumptions C60_ros_query.

Theorem C60_ros_answer : forall (K : Scalar) E (vt : vtbl K E), order_ok K -> seconds_ok K ->
  forall cap filter reparse q l0 l c0 c evs env now stamp m world,
  listener_construct cap (Some filter) reparse q = Returned l0 ->
  Forall stamped32 (heard evs) -> in_order (heard evs) ->
  listener_run vt evs (l0, c0) = Returned (l, c) ->
  l_base l <> ""%string -> l_world l <> ""%string -> frame_or world (l_world l) = l_world l ->
  In m (last_n cap (first_of_seconds None (heard evs))) ->
  (0 < stamp)%Z -> whole_second (stamp_of m) = whole_second stamp ->
  exists s, stores m s /\
    listener_getState_ros vt env now stamp (l_base l) world l c = Returned (true, es_state s, es_cov s, l, c).
Proof. exact (@stored_answer). Qed.
Print Assumptions C60_ros_answer.

(** Messages at 1.2 s, 1.9 s and 2.1 s: a query for 1.95 s gets the first. *)
Example C60_case : exists l c,
  listener_run still_vt three_messages (case_listener 10, no_cache) = Returned (l, c) /\
  first_of_seconds None (heard three_messages) = [case_pair 1200000000 (v3 1 0 0); case_pair 2100000000 (v3 3 0 0)] /\
  exists s, listener_getState_ros still_vt (case_env robot_tree) 0 1950000000 "base" "" l c = Returned (true, es_state s, es_cov s, l, c) /\
    es_state s 0%nat = 1%R.
Proof. exact three_case. Qed.

(** ** C61 *)
Theorem C61_conversion : forall time,
  (int_nanoseconds time -> @query_nanoseconds RScalar time = Returned (Rtrunc (time * 1000000000)) /\
                           @secToNanosec RScalar time = Returned (Rtrunc (time * 1000000000)))%R /\
  (~ int_nanoseconds time -> @query_nanoseconds RScalar time = Undefined /\ @secToNanosec RScalar time = Undefined).
Proof. exact conversion. Qed.
Print Assumptions C61_conversion.

Theorem C61_query : forall E (vt : vtbl RScalar E) evs l0 l c env time frame world,
  listener_run vt evs (l0, no_cache) = Returned (l, c) -> one_tree (q_tree env) evs -> acyclic (q_tree env) ->
  l_est l <> None -> l_base l <> ""%string -> l_world l <> ""%string ->
  (listener_getState vt env time frame world l c = Undefined <->
   ~ (frame = l_base l /\ frame_or world (l_world l) = l_world l) /\ ~ int_nanoseconds time).
Proof. exact (@query_defined_run). Qed.
Print Assumptions C61_query.

(** On any clock past three seconds every transformed query is undefined. *)
Theorem C61_ros_time : forall E (vt : vtbl RScalar E) evs l0 l c env now stamp frame world,
  listener_run vt evs (l0, no_cache) = Returned (l, c) -> one_tree (q_tree env) evs -> acyclic (q_tree env) ->
  l_est l <> None -> l_base l <> ""%string -> l_world l <> ""%string ->
  ~ (frame = l_base l /\ frame_or world (l_world l) = l_world l) ->
  (3000000000 <= stamp)%Z -> listener_getState_ros vt env now stamp frame world l c = Undefined.
Proof. exact (@ros_undefined). Qed.
Print Assumptions C61_ros_time.

(** In floating-point arithmetic: three seconds. *)
Theorem C61_float_refuted : forall lm, lm_ofZ lm 1000000000 = 1000000000%float -> lm_ofZ lm (-2147483649) = (-2147483649)%float ->
  lm_ofZ lm 2147483648 = 2147483648%float ->
  @query_nanoseconds (FScalar lm) 3%float = Undefined /\ @secToNanosec (FScalar lm) 3%float = Undefined.
Proof. exact float_undefined. Qed.
Print Assumptions C61_float_refuted.

Example C61_case : exists l c, listener_run still_vt three_messages (case_listener 10, no_cache) = Returned (l, c) /\
  listener_getState still_vt (case_env robot_tree) 3%R "laser" "" l c = Undefined /\
  (exists s p l' c', listener_getState still_vt (case_env robot_tree) 2%R "laser" "" l c = Returned (true, s, p, l', c')).
Proof. exact time_case. Qed.

(** ** C62 *)
Theorem C62_own_frames : forall (K : Scalar) E (vt : vtbl K E) env time frame world l c e code s e',
  l_est l = Some e -> l_base l <> ""%string -> l_world l <> ""%string ->
  frame = l_base l -> frame_or world (l_world l) = l_world l ->
  est_getState vt e time (mkEst (s_ofZ 0) vzero mzero) = (code, s, e') ->
  listener_getState vt env time frame world l c =
    Returned (true, es_state s, es_cov s, mkListener (l_base l) (l_world l) (Some e'), c).
Proof. exact (@own_frames). Qed.
Print Assumptions C62_own_frames.

Theorem C62_other_frames : forall E (vt : vtbl RScalar E) evs l0 l c env time frame world e code s e' s' P' l' c',
  listener_run vt evs (l0, no_cache) = Returned (l, c) -> one_tree (q_tree env) evs -> acyclic (q_tree env) ->
  l_est l = Some e -> l_base l <> ""%string -> l_world l <> ""%string ->
  keeps_rotations (q_rotation env) -> unit_answers env ->
  est_getState vt e time (mkEst (s_ofZ 0) vzero mzero) = (code, s, e') ->
  ~ (frame = l_base l /\ frame_or world (l_world l) = l_world l) ->
  listener_getState vt env time frame world l c = Returned (true, s', P', l', c') ->
  exists W o q, to_world env (l_base l) (l_world l) (Rtrunc (time * 1000000000)) (frame_or world (l_world l)) W /\
    mounted env (l_base l) frame (Rtrunc (time * 1000000000)) o q /\
    carried W o q (es_state s) s' /\
    length3 (angular_of s') = length3 (angular_of (es_state s)) /\
    length3 (linear_of s') = length3 (plus3 (linear_of (es_state s)) (cross3 (angular_of (es_state s)) o)) /\
    (forall i, (12 <= i)%nat -> s' i = 0%R) /\
    exists r, (forall v, turn r v = spin q v) /\ turned6 r (es_cov s) (block 0 P') /\
      (forall i j, (6 <= i \/ 6 <= j)%nat -> P' i j = 0%R).
Proof. exact (@other_frames). Qed.
Print Assumptions C62_other_frames.

(** Such a query succeeds iff the transforms are there, the frame is below the
    base frame and the world frame is not. *)
Theorem C62_succeeds : forall E (vt : vtbl RScalar E) evs l0 l c env time frame world,
  listener_run vt evs (l0, no_cache) = Returned (l, c) -> one_tree (q_tree env) evs -> acyclic (q_tree env) ->
  l_est l <> None -> l_base l <> ""%string -> l_world l <> ""%string ->
  ~ (frame = l_base l /\ frame_or world (l_world l) = l_world l) -> int_nanoseconds time ->
  exists b s' P' l' c', listener_getState vt env time frame world l c = Returned (b, s', P', l', c') /\
  (b = true <-> (exists W, to_world env (l_base l) (l_world l) (Rtrunc (time * 1000000000)) (frame_or world (l_world l)) W) /\
     exists o q, mounted env (l_base l) frame (Rtrunc (time * 1000000000)) o q).
Proof. exact (@succeeds_run). Qed.
Print Assumptions C62_succeeds.

(** Velocities of carried frames are the derivatives of their positions: for
    every motion with attitude [Q], position [x] and body rates [w] that has the
    state's velocities at [t0]. *)
Theorem C62_kinematics : forall W o q (s s' : vec RScalar) (Q : R -> M3) w x x' y' t0,
  carried W o q s s' -> body_rates Q w -> derivative x x' ->
  derivative (fun t => plus3 (x t) (turn (Q t) o)) y' ->
  x' t0 = turn (Q t0) (linear_of s) -> w t0 = angular_of s ->
  y' t0 = turn (Q t0) (spin q (linear_of s')).
Proof. exact carried_velocity. Qed.
Print Assumptions C62_kinematics.

(** A body driving at 1 m/s and turning at 2 rad/s; the laser is mounted one
    metre ahead of it, facing backwards. *)
Example C62_case : exists l c e s s' P' l' c',
  listener_run still_vt three_messages (case_listener 10, no_cache) = Returned (l, c) /\
  l_est l = Some e /\ snd (fst (est_getState still_vt e 2%R (@mkEst RScalar 0%R vzero mzero))) = s /\
  linear_of (es_state s) = v3 1 0 0 /\ angular_of (es_state s) = v3 0 0 2 /\
  listener_getState still_vt (case_env robot_tree) 2%R "laser" "" l c = Returned (true, s', P', l', c') /\
  linear_of s' = v3 (-1) (-2) 0 /\ angular_of s' = v3 0 0 2.
Proof. exact laser_case. Qed.

(** ** C73 *)
Theorem C73_reconstructs : forall E pq (vt : vtbl RScalar E) c, pq_ok pq -> forall cur later lookup n n' o m a,
  periodicUpdate pq vt c cur later lookup n = (n', o) -> In (OutOdom m) o -> In (OutAccel a) o ->
  let f := n_filter n' in let s := @listener_state RScalar m a in
  (- PI < fb_state f 3%nat <= PI)%R -> (- (PI / 2) < fb_state f 4%nat < PI / 2)%R -> (- PI < fb_state f 5%nat <= PI)%R ->
  es_time s = IZR (whole_second (fb_last_time f)) /\
  (forall i, (i < 15)%nat -> es_state s i = fb_state f i) /\
  (forall i j, (i < 15)%nat -> (j < 15)%nat -> es_cov s i j =
     if (block_of i j 0 6 || block_of i j 6 6 || block_of i j 12 3)%bool then fb_P f i j else 0%R).
Proof. exact (@reconstructs). Qed.
Print Assumptions C73_reconstructs.

Example C73_case : exists m a, In (OutOdom m) (snd publishing) /\ In (OutAccel a) (snd publishing) /\
  fb_state (n_filter (fst publishing)) 0%nat = 2%R /\ es_state (@listener_state RScalar m a) 5%nat = 1%R.
Proof. exact reconstruct_case. Qed.

(** ** C74 *)
Theorem C74_angles : forall E (vt : vtbl RScalar E) evs l0 l c env time frame world s' P' l' c',
  listener_run vt evs (l0, no_cache) = Returned (l, c) -> one_tree (q_tree env) evs -> acyclic (q_tree env) ->
  l_est l <> None -> l_base l <> ""%string -> l_world l <> ""%string ->
  keeps_rotations (q_rotation env) -> unit_answers env ->
  ~ (frame = l_base l /\ frame_or world (l_world l) = l_world l) ->
  listener_getState vt env time frame world l c = Returned (true, s', P', l', c') ->
  (0 <= s' 5%nat <= PI)%R.
Proof. exact (@yaw_half_turn). Qed.
Print Assumptions C74_angles.

Theorem C74_decomposition : forall m : M3, rotation m -> exists y p r, @eig_eulerAngles RScalar m = (y, p, r) /\
  (forall v, oriented r p y v = turn m v) /\ (0 <= y <= PI)%R /\ (- PI < p <= PI)%R /\ (- PI < r <= PI)%R.
Proof. exact decomposition. Qed.
Print Assumptions C74_decomposition.

(** A frame that coincides with a level base heading to the right is reported
    with another heading, and upside down. *)
Theorem C74_heading_refuted : forall yaw : R, (- PI < yaw < 0)%R -> exists r p y,
  @eig_eulerAngles RScalar (@m3_setRPY RScalar 0%R 0%R yaw) = (y, p, r) /\ y = (yaw + PI)%R /\ p = PI /\ r = PI.
Proof. exact heading. Qed.
Print Assumptions C74_heading_refuted.

Example C74_case : exists r p, @eig_eulerAngles RScalar (@m3_setRPY RScalar 0%R 0%R (-1)%R) = (PI - 1, p, r)%R.
Proof. exact heading_case. Qed.

(** ** C75 *)
Theorem C75_construct : forall (K : Scalar) E cap (filter : fb K E) reparse q,
  listener_construct cap (Some filter) reparse q = Undefined <-> (List.length q < 225)%nat.
Proof. exact (@construct_undefined). Qed.
Print Assumptions C75_construct.

Theorem C75_invalid_type : forall (K : Scalar) E (vt : vtbl K E) cap reparse q,
  exists l, listener_construct cap None reparse q = Returned l /\
  forall evs c, evs <> [] -> listener_run vt evs (l, c) = Undefined.
Proof. exact (@invalid_type). Qed.
Print Assumptions C75_invalid_type.

(** Without stored states queries for the base frame still succeed, with a zero
    state. *)
Theorem C75_empty_refuted : forall (K : Scalar) E (vt : vtbl K E) (filter : fb K E) reparse q l0 evs c0 l c env time,
  listener_construct 0 (Some filter) reparse q = Returned l0 -> listener_run vt evs (l0, c0) = Returned (l, c) ->
  l_base l <> ""%string -> l_world l <> ""%string ->
  listener_getState vt env time (l_base l) "" l c = Returned (true, vzero, mzero, l, c).
Proof. exact (@empty_buffer). Qed.
Print Assumptions C75_empty_refuted.

Example C75_case : exists l c, listener_run still_vt three_messages (case_listener 0, no_cache) = Returned (l, c) /\
  listener_getState still_vt (case_env robot_tree) 2%R "base" "" l c = Returned (true, vzero, mzero, l, c).
Proof. exact empty_case. Qed.
