(** * Statements about the listener in final form, and their cases *)

From Coq Require Import Reals ZArith List Bool Arith String Lia Lra Sorted Floats.
From Verif Require Import Scalar FloatScalar Mat FilterBase StrMap Tf Estimator SpecEstimator EstimatorProofs FloatOrder RosFilter RosPrepare
  Listener SpecLin SpecTf SpecNode SpecOutput SpecPrepare SpecListener NodeMore NodeScenario ListenerAnc ListenerProofs RBridge Trig TfReal TfRot PrepareReal PrepareMotion
  ListenerReal ListenerQuery ListenerStale.
Import ListNotations.

(** ** Trees *)
Definition robot_tree : frame_tree := [("laser", "base"); ("base", "odom"); ("odom", "map")]%string.
Definition bare_tree : frame_tree := [("laser", "map"); ("base", "odom"); ("odom", "map")]%string.
Lemma ranked_acyclic tree (rank : string -> nat) : (forall f p, child_of tree f p -> (rank p < rank f)%nat) -> acyclic tree.
Proof.
  intros H. assert (A : forall f g, ancestor tree f g -> (rank g <= rank f)%nat).
  { induction 1 as [|f p g C _ IH]; [lia|]. specialize (H _ _ C). lia. }
  intros f p C B. specialize (A _ _ B). specialize (H _ _ C). lia.
Qed.
Definition rank (f : string) : nat :=
  if String.eqb f "laser" then 3 else if String.eqb f "base" then 2 else if String.eqb f "odom" then 1 else 0.
Ltac tree_rank := apply (ranked_acyclic _ rank); intros f p [H _]; unfold robot_tree, bare_tree in H; cbn [sm_find] in H;
  repeat match type of H with (if String.eqb f ?x then _ else _) = _ => destruct (String.eqb_spec f x) as [->|]; [injection H as <-; cbv; lia|] end;
  discriminate H.
Lemma robot_acyclic : acyclic robot_tree.
Proof. tree_rank. Qed.
Lemma bare_acyclic : acyclic bare_tree.
Proof. tree_rank. Qed.
Lemma stale_cache : exists tree1 tree2 s t, acyclic tree1 /\ acyclic tree2 /\
  anc_queries [(tree1, s, t); (tree2, s, t)] no_cache = [Returned true; Returned true] /\ ~ ancestor tree2 s t.
Proof.
  exists robot_tree, bare_tree, "laser"%string, "base"%string. split; [exact robot_acyclic|]. split; [exact bare_acyclic|]. split; [reflexivity|].
  intros A. apply (search_sound (List.length bare_tree) bare_tree "laser"%string "base"%string false eq_refl) in A. discriminate A.
Qed.

(** ** Stored states *)
Section Any.
Context {K : Scalar} {E : Type} (vt : vtbl K E).
Lemma first_stored : order_ok K -> seconds_ok K -> forall cap filter reparse q (l0 : listener K E) c evs y,
  listener_construct cap (Some filter) reparse q = Returned l0 ->
  Forall stamped32 (heard evs) -> in_order (heard evs) ->
  listener_run vt evs (l0, c) = Returned y ->
  exists e, l_est (fst y) = Some e /\ Forall2 stores (last_n cap (first_of_seconds None (heard evs))) (e_buf e).
Proof.
  intros Ho Hz cap filter reparse q l0 c evs y C S O R. destruct (kept_states vt Ho Hz cap filter reparse q l0 c evs y C S O R) as (e & He & Hb).
  exists e. split; [exact He|]. rewrite Hb, last_n_map. generalize (last_n cap (first_of_seconds None (heard evs))). intros l.
  induction l as [|m r IH]; cbn [map]; constructor; [apply state_stores|exact IH].
Qed.
Lemma only_stored cap filter reparse q (l0 : listener K E) c evs y :
  listener_construct cap (Some filter) reparse q = Returned l0 -> listener_run vt evs (l0, c) = Returned y ->
  forall e s, l_est (fst y) = Some e -> In s (e_buf e) -> exists m, In m (heard evs) /\ stores m s.
Proof.
  intros C R e s He Hs. pose proof (run_from_messages vt evs (l0, c) y []) as F. cbn [fst app] in F.
  assert (F0 : from_messages [] l0).
  { unfold listener_construct in C. destruct (Nat.ltb _ _); [discriminate|]. injection C as <-. intros e0 h. cbn in h. injection h as <-. constructor. }
  specialize (F F0 R e He). rewrite Forall_forall in F. destruct (F s Hs) as (m & Hm & ->). exists m. split; [exact Hm|]. apply state_stores.
Qed.
Lemma stored_answer : order_ok K -> seconds_ok K -> forall cap filter reparse q (l0 l : listener K E) c0 c evs env now stamp m world,
  listener_construct cap (Some filter) reparse q = Returned l0 ->
  Forall stamped32 (heard evs) -> in_order (heard evs) ->
  listener_run vt evs (l0, c0) = Returned (l, c) ->
  l_base l <> ""%string -> l_world l <> ""%string -> frame_or world (l_world l) = l_world l ->
  In m (last_n cap (first_of_seconds None (heard evs))) ->
  (0 < stamp)%Z -> whole_second (stamp_of m) = whole_second stamp ->
  exists s, stores m s /\ listener_getState_ros vt env now stamp (l_base l) world l c = Returned (true, es_state s, es_cov s, l, c).
Proof.
  intros Ho Hz cap filter reparse q l0 l c0 c evs env now stamp m world C S O R Nb Nw Hw Hm Hs HS. eexists. split; [apply (state_stores m)|].
  exact (same_second_answer vt Ho Hz cap filter reparse q l0 l c0 c evs env now stamp m world C S O R Nb Nw Hw Hm Hs HS).
Qed.
Lemma own_frames env time frame world (l : listener K E) c e code s e' :
  l_est l = Some e -> l_base l <> ""%string -> l_world l <> ""%string ->
  frame = l_base l -> frame_or world (l_world l) = l_world l ->
  est_getState vt e time (mkEst (s_ofZ 0) vzero mzero) = (code, s, e') ->
  listener_getState vt env time frame world l c =
    Returned (true, es_state s, es_cov s, mkListener (l_base l) (l_world l) (Some e'), c).
Proof. intros He Nb Nw Hf Hw Q. rewrite (query_own vt env time frame world l c e He Nb Nw Hf Hw). unfold estimate, after. rewrite Q. reflexivity. Qed.
Lemma construct_undefined cap (filter : fb K E) reparse q :
  listener_construct cap (Some filter) reparse q = Undefined <-> (List.length q < 225)%nat.
Proof.
  unfold listener_construct. destruct (Nat.ltb_spec (List.length q) 225) as [H|H]; split; intros h; try discriminate h; try reflexivity; try exact H.
  exfalso. apply Nat.lt_nge in h. exact (h H).
Qed.
Lemma invalid_type cap reparse q : exists l : listener K E, listener_construct cap None reparse q = Returned l /\
  forall evs c, evs <> [] -> listener_run vt evs (l, c) = Undefined.
Proof. eexists. split; [reflexivity|]. intros [|[o a|env t f w] r] c H; [contradiction|reflexivity..]. Qed.
Lemma empty_buffer (filter : fb K E) reparse q l0 evs c0 l c env time :
  listener_construct 0 (Some filter) reparse q = Returned l0 -> listener_run vt evs (l0, c0) = Returned (l, c) ->
  l_base l <> ""%string -> l_world l <> ""%string ->
  listener_getState vt env time (l_base l) "" l c = Returned (true, vzero, mzero, l, c).
Proof.
  intros C R Nb Nw. unfold listener_construct in C. destruct (Nat.ltb _ _); [discriminate|]. injection C as <-.
  eapply empty_capacity in R; [|reflexivity|reflexivity|reflexivity]. destruct R as (e & E1 & E2 & E3). cbn [fst] in E1.
  assert (Q : est_getState vt e time (mkEst (s_ofZ 0) vzero mzero) = (EmptyBuffer, mkEst (s_ofZ 0) vzero mzero, e))
    by (unfold est_getState; rewrite E3; reflexivity).
  rewrite (own_frames env time (l_base l) "" l c e _ _ _ E1 Nb Nw eq_refl eq_refl Q). rewrite <- E1. destruct l; reflexivity.
Qed.
End Any.

(** ** Times *)
Local Open Scope R_scope.
Lemma conversion (time : R) :
  (int_nanoseconds time -> @query_nanoseconds RScalar time = Returned (Rtrunc (time * 1000000000)) /\
                           @secToNanosec RScalar time = Returned (Rtrunc (time * 1000000000))) /\
  (~ int_nanoseconds time -> @query_nanoseconds RScalar time = Undefined /\ @secToNanosec RScalar time = Undefined).
Proof.
  split; intros H.
  - assert (Q : @query_nanoseconds RScalar time = Returned (Rtrunc (time * 1000000000))).
    { destruct H as [H1 H2]. unfold query_nanoseconds. rewrite to_int_R. change (@s_ofZ RScalar 1000000000) with 1000000000. change (@s_mul RScalar) with Rmult.
      destruct (Rlt_dec _ _); [|contradiction]. destruct (Rlt_dec _ _); [reflexivity|contradiction]. }
    split; exact Q.
  - split; exact (nanoseconds_undefined time H).
Qed.
Lemma float_undefined lm : lm_ofZ lm 1000000000 = 1000000000%float -> lm_ofZ lm (-2147483649) = (-2147483649)%float ->
  lm_ofZ lm 2147483648 = 2147483648%float ->
  @query_nanoseconds (FScalar lm) 3%float = Undefined /\ @secToNanosec (FScalar lm) 3%float = Undefined.
Proof.
  intros H1 H2 H3. assert (Q : @query_nanoseconds (FScalar lm) 3%float = Undefined).
  { unfold query_nanoseconds, to_int. change (@s_ofZ (FScalar lm)) with (lm_ofZ lm). rewrite H1, H2, H3. vm_compute. reflexivity. }
  split; exact Q.
Qed.

Section Real.
Context {E : Type} (vt : vtbl RScalar E).
Lemma run_cache evs (l0 l : listener RScalar E) c tree : listener_run vt evs (l0, no_cache) = Returned (l, c) -> one_tree tree evs -> acyclic tree -> coherent tree c.
Proof. intros R OT AC. exact (run_coherent vt tree AC evs l0 l no_cache c OT (no_cache_coherent tree) R). Qed.
Lemma query_defined_run evs (l0 l : listener RScalar E) c env time frame world :
  listener_run vt evs (l0, no_cache) = Returned (l, c) -> one_tree (q_tree env) evs -> acyclic (q_tree env) ->
  l_est l <> None -> l_base l <> ""%string -> l_world l <> ""%string ->
  (listener_getState vt env time frame world l c = Undefined <->
   ~ (frame = l_base l /\ frame_or world (l_world l) = l_world l) /\ ~ int_nanoseconds time).
Proof.
  intros R OT AC He Nb Nw. destruct (l_est l) as [e|] eqn:Q; [|contradiction].
  exact (query_defined vt env time frame world l c e Q Nb Nw AC (run_cache _ _ _ _ _ R OT AC)).
Qed.
Lemma ros_undefined evs (l0 l : listener RScalar E) c env now stamp frame world :
  listener_run vt evs (l0, no_cache) = Returned (l, c) -> one_tree (q_tree env) evs -> acyclic (q_tree env) ->
  l_est l <> None -> l_base l <> ""%string -> l_world l <> ""%string ->
  ~ (frame = l_base l /\ frame_or world (l_world l) = l_world l) ->
  (3000000000 <= stamp)%Z -> listener_getState_ros vt env now stamp frame world l c = Undefined.
Proof.
  intros R OT AC He Nb Nw Hn Hs. unfold listener_getState_ros. rewrite (proj2 (Z.eqb_neq stamp 0)) by lia.
  apply (query_defined_run evs l0 l c env _ frame world R OT AC He Nb Nw). split; [exact Hn|].
  rewrite Z.quot_div_nonneg by lia. assert (H3 : (3 <= stamp / 1000000000)%Z) by (apply Z.div_le_lower_bound; lia).
  apply IZR_le in H3. unfold int_nanoseconds. change (@s_ofZ RScalar) with IZR. intros [_ H]. lra.
Qed.
Lemma other_frames evs (l0 l : listener RScalar E) c env time frame world e code s e' s' P' l' c' :
  listener_run vt evs (l0, no_cache) = Returned (l, c) -> one_tree (q_tree env) evs -> acyclic (q_tree env) ->
  l_est l = Some e -> l_base l <> ""%string -> l_world l <> ""%string ->
  keeps_rotations (q_rotation env) -> unit_answers env ->
  est_getState vt e time (mkEst (s_ofZ 0) vzero mzero) = (code, s, e') ->
  ~ (frame = l_base l /\ frame_or world (l_world l) = l_world l) ->
  listener_getState vt env time frame world l c = Returned (true, s', P', l', c') ->
  exists W o q, to_world env (l_base l) (l_world l) (Rtrunc (time * 1000000000)) (frame_or world (l_world l)) W /\
    mounted env (l_base l) frame (Rtrunc (time * 1000000000)) o q /\
    carried W o q (es_state s) s' /\
    length3 (angular_of s') = length3 (angular_of (es_state s)) /\
    length3 (linear_of s') = length3 (plus3 (linear_of (es_state s)) (cross3 (angular_of (es_state s)) o)) /\
    (forall i, (12 <= i)%nat -> s' i = 0%R) /\
    exists r, (forall v, turn r v = spin q v) /\ turned6 r (es_cov s) (block 0 P') /\
      (forall i j, (6 <= i \/ 6 <= j)%nat -> P' i j = 0%R).
Proof.
  intros R OT AC He Nb Nw KR UA Q Hn H.
  destruct (query_moves vt env time frame world l c e s' P' l' c' He Nb Nw AC (run_cache _ _ _ _ _ R OT AC) KR UA Hn H)
    as (_ & W & o & q & TW & MO & U & CA & _ & Z & r & Hr & Tr & Zr). cbv zeta in *.
  assert (Es : estimate vt e time = s) by (unfold estimate; rewrite Q; reflexivity). rewrite Es in *.
  exists W, o, q. split; [exact TW|]. split; [exact MO|]. split; [exact CA|]. destruct CA as (_ & C2 & C3).
  split; [rewrite <- (spin_length q _ U), C3; reflexivity|]. split; [rewrite <- (spin_length q _ U), C2; reflexivity|].
  split; [exact Z|]. exists r. auto.
Qed.
Lemma succeeds_run evs (l0 l : listener RScalar E) c env time frame world :
  listener_run vt evs (l0, no_cache) = Returned (l, c) -> one_tree (q_tree env) evs -> acyclic (q_tree env) ->
  l_est l <> None -> l_base l <> ""%string -> l_world l <> ""%string ->
  ~ (frame = l_base l /\ frame_or world (l_world l) = l_world l) -> int_nanoseconds time ->
  exists b s' P' l' c', listener_getState vt env time frame world l c = Returned (b, s', P', l', c') /\
  (b = true <-> (exists W, to_world env (l_base l) (l_world l) (Rtrunc (time * 1000000000)) (frame_or world (l_world l)) W) /\
     exists o q, mounted env (l_base l) frame (Rtrunc (time * 1000000000)) o q).
Proof.
  intros R OT AC He Nb Nw Hn IN. destruct (l_est l) as [e|] eqn:Q; [|contradiction].
  exact (query_succeeds vt env time frame world l c e Q Nb Nw AC (run_cache _ _ _ _ _ R OT AC) Hn IN).
Qed.
Lemma yaw_half_turn evs (l0 l : listener RScalar E) c env time frame world s' P' l' c' :
  listener_run vt evs (l0, no_cache) = Returned (l, c) -> one_tree (q_tree env) evs -> acyclic (q_tree env) ->
  l_est l <> None -> l_base l <> ""%string -> l_world l <> ""%string ->
  keeps_rotations (q_rotation env) -> unit_answers env ->
  ~ (frame = l_base l /\ frame_or world (l_world l) = l_world l) ->
  listener_getState vt env time frame world l c = Returned (true, s', P', l', c') -> 0 <= s' 5%nat <= PI.
Proof.
  intros R OT AC He Nb Nw KR UA Hn H. destruct (l_est l) as [e|] eqn:Q; [|contradiction].
  destruct (query_moves vt env time frame world l c e s' P' l' c' Q Nb Nw AC (run_cache _ _ _ _ _ R OT AC) KR UA Hn H)
    as (_ & W & o & q & _ & _ & _ & _ & Y & _). exact Y.
Qed.
End Real.
Lemma carried_velocity W o q (s s' : vec RScalar) (Q : R -> M3) w x x' y' t0 :
  carried W o q s s' -> body_rates Q w -> derivative x x' ->
  derivative (fun t => plus3 (x t) (turn (Q t) o)) y' ->
  x' t0 = turn (Q t0) (linear_of s) -> w t0 = angular_of s ->
  y' t0 = turn (Q t0) (spin q (linear_of s')).
Proof.
  intros (_ & C2 & _) HQ Hx Hy Hv Hw. rewrite (lever_velocity Q w x x' o y' t0 HQ Hx Hy), C2, turn_plus, Hv, Hw. reflexivity.
Qed.
Lemma decomposition (m : M3) : rotation m -> exists y p r, @eig_eulerAngles RScalar m = (y, p, r) /\
  (forall v, oriented r p y v = turn m v) /\ 0 <= y <= PI /\ - PI < p <= PI /\ - PI < r <= PI.
Proof.
  intros H. destruct (euler_correct m H) as (y & p & r & Q & Hm & Hr). exists y, p, r. split; [exact Q|].
  split; [intros v; rewrite <- setRPY_oriented, Hm; reflexivity|exact Hr].
Qed.

Lemma atan2_west : Ratan2 0 (-1) = PI.
Proof. pose proof (Ratan2_polar 1 PI) as H. rewrite sin_PI, cos_PI, Rmult_0_r, Rmult_1_l in H. apply H; pose proof PI_RGT_0; lra. Qed.
Lemma heading (yaw : R) : - PI < yaw < 0 -> exists r p y,
  @eig_eulerAngles RScalar (@m3_setRPY RScalar 0 0 yaw) = (y, p, r) /\ y = yaw + PI /\ p = PI /\ r = PI.
Proof.
  intros Hy. rewrite eig_euler_R. unfold euler_yp.
  assert (M : @m3_setRPY RScalar 0 0 yaw = mkM3 (v3 (cos yaw) (- sin yaw) 0) (v3 (sin yaw) (cos yaw) 0) (v3 0 0 1)).
  { unfold m3_setRPY, m3_setEulerYPR. cbv zeta. change (@s_sin RScalar) with sin. change (@s_cos RScalar) with cos. rewrite sin_0, cos_0.
    apply m3_eq; apply v3_eq; tf_simp; ring. }
  rewrite M. cbn [m3r0 m3r1 m3r2 v3 v3x v3y v3z].
  assert (A : Ratan2 (sin yaw) (cos yaw) = yaw) by (rewrite <- (Rmult_1_l (sin yaw)), <- (Rmult_1_l (cos yaw)); apply Ratan2_polar; lra). rewrite A.
  assert (L : Rltb yaw 0 = true) by (apply Rltb_true; lra). rewrite L.
  replace (1 * 1 + 0 * 0) with 1 by ring. rewrite sqrt_1, Ropp_0. change (- (1)) with (-1). rewrite atan2_west. do 3 eexists. split; [reflexivity|]. split; [reflexivity|]. split; [reflexivity|].
  rewrite neg_sin, neg_cos. replace (- sin yaw * 0 - - cos yaw * 0) with 0 by ring.
  replace (- cos yaw * cos yaw - - sin yaw * - sin yaw) with (-1); [apply atan2_west|]. pose proof (sin_cos1 yaw) as T. lra.
Qed.
Lemma heading_case : exists r p, @eig_eulerAngles RScalar (@m3_setRPY RScalar 0 0 (-1)) = (PI - 1, p, r).
Proof.
  destruct (heading (-1)) as (r & p & y & Q & -> & _); [pose proof PI_RGT_0; pose proof PI2_1; lra|]. exists r, p. rewrite Q. replace (-1 + PI) with (PI - 1) by ring. reflexivity.
Qed.

(** ** Cases *)
Definition case_pair (stamp : Z) (p : V3) : pair_msg (K := RScalar) :=
  (@mkOdom RScalar stamp "odom" "base" p (@quat_identity RScalar) (v3 1 0 0) (v3 0 0 2) (fun _ => 0) (fun _ => 0),
   @mkAccel RScalar stamp "base" (v3 0 0 0) (v3 0 0 0) (fun _ => 0)).
Definition hears (m : pair_msg (K := RScalar)) : listener_event RScalar := Heard (fst m) (snd m).
Definition three_messages : list (listener_event RScalar) :=
  [hears (case_pair 1200000000 (v3 1 0 0)); hears (case_pair 1900000000 (v3 2 0 0)); hears (case_pair 2100000000 (v3 3 0 0))].
Definition still_vt : vtbl RScalar unit := mkVtbl (fun s _ _ => s) (fun s _ => s).
Definition case_filter : fb RScalar unit := @fb_init RScalar unit (fun _ => 0) tt.
Definition case_listener (cap : nat) : listener RScalar unit :=
  mkListener "" "" (est_construct cap (Some case_filter) (fun i j => nth (15 * i + j) (repeat 0 225) 0)).
Lemma case_constructed cap : listener_construct cap (Some case_filter) (fun x => x) (repeat (0 : RScalar) 225) = Returned (case_listener cap).
Proof. reflexivity. Qed.
Definition case_env (tree : frame_tree) : lenv RScalar :=
  mkLenv (fun a b _ => if (String.eqb a "base" && String.eqb b "laser")%bool then Some (v3 1 0 0, @mkQuat RScalar 0 0 1 0) else None) tree (fun m => m).

Lemma three_in_order : Forall stamped32 (heard three_messages) /\ in_order (heard three_messages).
Proof.
  split; [repeat constructor; unfold stamped32, int32; cbv; congruence|].
  repeat constructor; cbv; congruence.
Qed.
Lemma three_firsts : first_of_seconds None (heard three_messages) = [case_pair 1200000000 (v3 1 0 0); case_pair 2100000000 (v3 3 0 0)].
Proof. reflexivity. Qed.
Lemma three_run cap : exists l c, listener_run still_vt three_messages (case_listener cap, no_cache) = Returned (l, c) /\
  l_base l = "base"%string /\ l_world l = "odom"%string /\ l_est l <> None.
Proof. do 2 eexists. split; [reflexivity|]. split; [reflexivity|]. split; [reflexivity|discriminate]. Qed.
Lemma case_unit tree : unit_answers (case_env tree).
Proof. intros a b t o q H. cbn [q_buffer case_env] in H. destruct (_ && _)%bool; [|discriminate H]. injection H as _ <-. unfold unit_quat. cbn [qx qy qz qw]. toR. ring. Qed.
Lemma case_mounted t : mounted (case_env robot_tree) "base" "laser" t (v3 1 0 0) (@mkQuat RScalar 0 0 1 0).
Proof. split; [reflexivity|]. apply (search_sound 3 robot_tree "laser"%string "base"%string true eq_refl). reflexivity. Qed.

Lemma three_case : exists l c,
  listener_run still_vt three_messages (case_listener 10, no_cache) = Returned (l, c) /\
  first_of_seconds None (heard three_messages) = [case_pair 1200000000 (v3 1 0 0); case_pair 2100000000 (v3 3 0 0)] /\
  exists s, listener_getState_ros still_vt (case_env robot_tree) 0 1950000000 "base" "" l c = Returned (true, es_state s, es_cov s, l, c) /\
    es_state s 0%nat = 1.
Proof.
  destruct (three_run 10) as (l & c & R & Hb & Hw & _). exists l, c. split; [exact R|]. split; [exact three_firsts|].
  destruct three_in_order as [S O]. rewrite <- Hb.
  destruct (stored_answer still_vt real_order seconds_R 10 case_filter (fun x => x) (repeat (0 : RScalar) 225) _ l no_cache c three_messages
    (case_env robot_tree) 0 1950000000 (case_pair 1200000000 (v3 1 0 0)) "" (case_constructed 10) S O R) as (s & (_ & (X & _) & _) & Q).
  - rewrite Hb. discriminate.
  - rewrite Hw. discriminate.
  - reflexivity.
  - rewrite three_firsts. left. reflexivity.
  - lia.
  - reflexivity.
  - exists s. split; [exact Q|exact X].
Qed.
Lemma case_succeeds l c time : listener_run still_vt three_messages (case_listener 10, no_cache) = Returned (l, c) ->
  l_base l = "base"%string -> l_world l = "odom"%string -> l_est l <> None -> int_nanoseconds time ->
  exists s p l' c', listener_getState still_vt (case_env robot_tree) time "laser" "" l c = Returned (true, s, p, l', c').
Proof.
  intros R Hb Hw He IN.
  destruct (succeeds_run still_vt three_messages _ l c (case_env robot_tree) time "laser" "" R) as (b & s & p & l' & c' & Q & Hd);
    [intros ? ? ? ? H; repeat destruct H as [H|H]; try discriminate H; destruct H|exact robot_acyclic|exact He|rewrite Hb; discriminate|rewrite Hw; discriminate|rewrite Hb; intros [h _]; discriminate h|exact IN|].
  destruct b; [exists s, p, l', c'; exact Q|]. exfalso. assert (F : false = true); [|discriminate F]. apply Hd. rewrite Hb, Hw. split.
  - exists (fun p => p). constructor.
  - do 2 eexists. apply case_mounted.
Qed.
Lemma time_case : exists l c, listener_run still_vt three_messages (case_listener 10, no_cache) = Returned (l, c) /\
  listener_getState still_vt (case_env robot_tree) 3 "laser" "" l c = Undefined /\
  (exists s p l' c', listener_getState still_vt (case_env robot_tree) 2 "laser" "" l c = Returned (true, s, p, l', c')).
Proof.
  destruct (three_run 10) as (l & c & R & Hb & Hw & He). exists l, c. split; [exact R|]. split.
  - apply (query_defined_run still_vt three_messages _ l c (case_env robot_tree) 3 "laser" "" R);
      [intros ? ? ? ? H; repeat destruct H as [H|H]; try discriminate H; destruct H|exact robot_acyclic|exact He|rewrite Hb; discriminate|rewrite Hw; discriminate|].
    split; [rewrite Hb; intros [h _]; discriminate h|]. unfold int_nanoseconds. lra.
  - apply (case_succeeds l c 2 R Hb Hw He). unfold int_nanoseconds. lra.
Qed.
Lemma laser_case : exists l c e s s' P' l' c',
  listener_run still_vt three_messages (case_listener 10, no_cache) = Returned (l, c) /\
  l_est l = Some e /\ snd (fst (est_getState still_vt e 2 (@mkEst RScalar 0 vzero mzero))) = s /\
  linear_of (es_state s) = v3 1 0 0 /\ angular_of (es_state s) = v3 0 0 2 /\
  listener_getState still_vt (case_env robot_tree) 2 "laser" "" l c = Returned (true, s', P', l', c') /\
  linear_of s' = v3 (-1) (-2) 0 /\ angular_of s' = v3 0 0 2.
Proof.
  destruct (three_run 10) as (l & c & R & Hb & Hw & He). destruct three_in_order as [S O].
  destruct (stored_estimate still_vt real_order seconds_R 10 case_filter (fun x => x) (repeat (0 : RScalar) 225) _ l no_cache c three_messages
    (case_pair 2100000000 (v3 3 0 0)) (case_constructed 10) S O R) as (e & He' & Q); [rewrite three_firsts; right; left; reflexivity|].
  change (@s_ofZ RScalar (whole_second (stamp_of (case_pair 2100000000 (v3 3 0 0))))) with 2 in Q.
  destruct (case_succeeds l c 2 R Hb Hw He) as (s' & P' & l' & c' & H); [unfold int_nanoseconds; lra|].
  set (m := case_pair 2100000000 (v3 3 0 0)) in *.
  exists l, c, e, (listener_state (fst m) (snd m)), s', P', l', c'.
  split; [exact R|]. split; [exact He'|]. split; [change (@mkEst RScalar 0 vzero mzero) with (@mkEst RScalar (s_ofZ 0) vzero mzero); rewrite Q; reflexivity|].
  destruct (state_stores m) as (_ & _ & (L1 & L2 & L3) & (A1 & A2 & A3) & _).
  set (s := listener_state (fst m) (snd m)) in *.
  assert (HL : linear_of (es_state s) = v3 1 0 0) by (apply v3_eq; [exact L1|exact L2|exact L3]).
  assert (HA : angular_of (es_state s) = v3 0 0 2) by (apply v3_eq; [exact A1|exact A2|exact A3]).
  split; [exact HL|]. split; [exact HA|]. split; [exact H|].
  destruct (other_frames still_vt three_messages _ l c (case_env robot_tree) 2 "laser" "" e Exact s e s' P' l' c' R) as (W & o & q & _ & MO & (_ & C2 & C3) & _);
    [intros ? ? ? ? h; repeat destruct h as [h|h]; try discriminate h; destruct h|exact robot_acyclic|exact He'|rewrite Hb; discriminate|rewrite Hw; discriminate|
     intros a _; reflexivity|apply case_unit|exact Q|rewrite Hb; intros [h _]; discriminate h|exact H|].
  rewrite Hb in MO. destruct MO as [MO _]. injection MO as <- <-. rewrite HL, HA in C2. rewrite HA in C3.
  split; [revert C2; generalize (linear_of s')|revert C3; generalize (angular_of s')]; clear; intros [x y z] HC; change (sc RScalar) with R in *; tf_simp; injection HC as h1 h2 h3; f_equal; lra.
Qed.
Lemma empty_case : exists l c, listener_run still_vt three_messages (case_listener 0, no_cache) = Returned (l, c) /\
  listener_getState still_vt (case_env robot_tree) 2 "base" "" l c = Returned (true, vzero, mzero, l, c).
Proof.
  destruct (three_run 0) as (l & c & R & Hb & Hw & _). exists l, c. split; [exact R|]. rewrite <- Hb.
  apply (empty_buffer still_vt case_filter (fun x => x) (repeat (0 : RScalar) 225) _ three_messages no_cache l c _ 2 (case_constructed 0) R).
  - rewrite Hb. discriminate.
  - rewrite Hw. discriminate.
Qed.

Definition publishing_cfg : config RScalar :=
  mkConfig false false false true true true false 100 20 0 10 mzero mzero "odom" "map" "odom" "base_link" "base_link".
Definition publishing_vec : vec RScalar := fun i => match i with 0%nat => 2 | 1%nat => 1 | 5%nat => 1 | _ => 0 end.
Definition publishing_node : node RScalar unit :=
  fst (node_run (list_pq RScalar) still_vt publishing_cfg
    (node_init (setSensorTimeout case_filter 20) (@mkAng RScalar v3zero mzero v3zero 0) (fun _ => 0) false 0)
    [@message RScalar unit "pose" 5 [true; true; false; false; false; true] publishing_vec meye 5]).
(** A cycle of a node that has received one pose: x, y and yaw. *)
Definition publishing := periodicUpdate (list_pq RScalar) still_vt publishing_cfg 7 7 None publishing_node.
Definition output_kind (o : output RScalar unit) : nat := match o with OutOdom _ => 1 | OutAccel _ => 2 | _ => 0 end.
Lemma reconstruct_case : exists m a, In (OutOdom m) (snd publishing) /\ In (OutAccel a) (snd publishing) /\
  fb_state (n_filter (fst publishing)) 0%nat = 2 /\ es_state (@listener_state RScalar m a) 5%nat = 1.
Proof.
  assert (S : exists m a, In (OutOdom m) (snd publishing) /\ In (OutAccel a) (snd publishing)).
  { assert (Q : map output_kind (snd publishing) = [0; 0; 1; 2]%nat) by (vm_compute; reflexivity).
    revert Q. generalize (snd publishing). intros [|x1 [|x2 [|x3 [|x4 r]]]] Q; try discriminate Q. injection Q as _ _ Q1 Q2 _.
    destruct x3; try discriminate Q1. destruct x4; try discriminate Q2. do 2 eexists. cbn. eauto 10. }
  destruct S as (m & a & Hm & Ha). exists m, a. split; [exact Hm|]. split; [exact Ha|].
  assert (F0 : fb_state (n_filter (fst publishing)) 0%nat = 2) by reflexivity.
  assert (F3 : fb_state (n_filter (fst publishing)) 3%nat = 0) by reflexivity.
  assert (F4 : fb_state (n_filter (fst publishing)) 4%nat = 0) by reflexivity.
  assert (F5 : fb_state (n_filter (fst publishing)) 5%nat = 1) by reflexivity.
  assert (Q : periodicUpdate (list_pq RScalar) still_vt publishing_cfg 7 7 None publishing_node = publishing) by (unfold publishing; reflexivity).
  revert Hm Ha F0 F3 F4 F5 Q. generalize publishing_node publishing. intros n0 [n' o] Hm Ha F0 F3 F4 F5 Q. cbn [fst snd] in *.
  split; [exact F0|]. pose proof PI_RGT_0 as P0. pose proof PI2_1 as P1.
  pose proof (reconstructs (list_pq RScalar) still_vt publishing_cfg (list_pq_ok RScalar) 7 7 None n0 n' o m a Q Hm Ha) as T.
  cbv zeta in T. rewrite F3, F4, F5 in T. destruct T as (_ & S & _); [lra|lra|lra|]. rewrite (S 5%nat ltac:(lia)). exact F5.
Qed.
