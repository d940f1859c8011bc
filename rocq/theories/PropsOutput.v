(** * Properties of the published messages and the diagnostics (C42-C44) *)

From Coq Require Import Reals ZArith List Bool Lia Lra String Arith Floats.
From Verif Require Import Scalar FloatScalar Mat FilterBase Tf StrMap Diagnostics RosFilter SpecNode SpecTf SpecOutput
  NodeMore NodeScenario Trig TfReal TfRot TfQuat OutputProofs.
Import ListNotations.

(** A node that has fused one pose: x, y and yaw. *)
Definition out_cfg (world : string) : config RScalar :=
  mkConfig false false false true true true false 100 20 0 10 mzero mzero world "map" "odom" "base_link" "base_link".
Definition out_vec : vec RScalar := fun i => match i with 0 => 2 | 1 => 1 | 5 => 1 | _ => 0 end%R.
Definition out_start : node RScalar unit :=
  node_init (setSensorTimeout (@fb_init RScalar unit (fun _ => 0%R) tt) 20)
    (@mkAng RScalar v3zero mzero v3zero 0%R) (fun _ => 0%R) false 0.
Definition out_still : vtbl RScalar unit := mkVtbl (fun s _ _ => s) (fun s _ => s).
Definition out_upd : list bool := [true; true; false; false; false; true].
Definition out_events (lookup : option T4) : list (event RScalar unit) :=
  [@message RScalar unit "pose" 5 out_upd out_vec meye 5%R; EvCycle 7 7 lookup].
Definition out_run (world : string) lookup := node_run (list_pq RScalar) out_still (out_cfg world) out_start (out_events lookup).
(** odometry frame: one metre ahead of the robot *)
Definition out_lookup : T4 := mkTrans m3eye (v3 1 0 0).
Definition out_pose : T4 := mkTrans m3eye (v3 (-1) 0 0).

(** ** C42 *)
Theorem C42_odometry : forall (K : Scalar) E (pq : pqueue K) (vt : vtbl K E) c, pq_ok pq ->
  forall n es m, In (OutOdom m) (snd (node_run pq vt c n es)) ->
  exists before cur later lookup after, es = before ++ EvCycle cur later lookup :: after /\
    shows c (n_filter (fst (node_run pq vt c n (before ++ [EvCycle cur later lookup])))) m.
Proof.
  exact (fun K E pq vt c Hpq n es m H => odometry_of_run pq vt c Hpq n es m H).
Qed.
Print Assumptions C42_odometry.

Theorem C42_acceleration : forall (K : Scalar) E (pq : pqueue K) (vt : vtbl K E) c, pq_ok pq ->
  forall n es a, In (OutAccel a) (snd (node_run pq vt c n es)) ->
  exists before cur later lookup after, es = before ++ EvCycle cur later lookup :: after /\
    shows_accel c (fst (node_run pq vt c n (before ++ [EvCycle cur later lookup]))) a.
Proof.
  exact (fun K E pq vt c Hpq n es a H => acceleration_of_run pq vt c Hpq n es a H).
Qed.
Print Assumptions C42_acceleration.

(** Exact arithmetic: the quaternion is unit and rotates as the state's roll,
    pitch and yaw do. *)
Theorem C42_orientation : forall E (pq : pqueue RScalar) (vt : vtbl RScalar E) c, pq_ok pq ->
  forall n es m, In (OutOdom m) (snd (node_run pq vt c n es)) ->
  exists before cur later lookup after, es = before ++ EvCycle cur later lookup :: after /\
    let f := n_filter (fst (node_run pq vt c n (before ++ [EvCycle cur later lookup]))) in
    shows c f m /\ shows_angles f m /\
    ((- PI < fb_state f 3%nat <= PI -> - (PI / 2) < fb_state f 4%nat < PI / 2 -> - PI < fb_state f 5%nat <= PI ->
      m3_getRPY (m3_of_quat (o_orientation m)) = (fb_state f 3%nat, fb_state f 4%nat, fb_state f 5%nat))%R).
Proof. exact (fun E pq vt c Hpq n es m H => orientation_of_run pq vt c Hpq n es m H). Qed.
Print Assumptions C42_orientation.

(** The angular acceleration is the difference quotient of the angular
    velocities of two consecutive working cycles; its covariance is twice that
    of the second one's angular velocity over the squared interval. *)
Theorem C42_angular_acceleration : forall (K : Scalar) E (pq : pqueue K) (vt : vtbl K E) c, pq_ok pq ->
  forall cur1 later1 lookup1 cur2 later2 lookup2 n n1 n2 o1 o2,
  periodicUpdate pq vt c cur1 later1 lookup1 n = (n1, o1) ->
  periodicUpdate pq vt c cur2 later2 lookup2 n1 = (n2, o2) ->
  n_enabled n = true -> n_toggled n = true ->
  fb_initialized (n_filter n1) = true -> fb_initialized (n_filter n2) = true ->
  (forall i, (i < 3)%nat ->
  v3get (a_acc (n_ang n2)) i =
    (s_mul (s_sub (fb_state (n_filter n2) (9 + i)%nat) (fb_state (n_filter n1) (9 + i)%nat))
           (s_div (s_ofZ 1) (s_sub (toSec cur2) (toSec cur1))))) /\
  (forall i j, (i < 3)%nat -> (j < 3)%nat -> a_cov (n_ang n2) i j =
     let dt := s_sub (toSec cur2) (toSec cur1) in
     s_div (s_mul (fb_P (n_filter n2) (9 + i)%nat (9 + j)%nat) (s_ofZ 2)) (s_mul dt dt)).
Proof. exact (@angular_two_cycles). Qed.
Print Assumptions C42_angular_acceleration.

(** Two cycles at the same clock reading (a paused simulation clock): the
    published angular acceleration is not a number although the state is. *)
Theorem C42_same_clock_refuted : forall lm,
  lm_ofZ lm 0 = 0%float -> lm_ofZ lm 1 = 1%float -> lm_ofZ lm 5 = 5%float -> lm_ofZ lm 1000000000 = 1000000000%float ->
  exists (n : node (FScalar lm) unit),
  fb_initialized (n_filter n) = true /\ (forall i, fb_state (n_filter n) i = 0%float) /\ a_last_time (n_ang n) = toSec 5 /\
  forall i, (i < 3)%nat -> @s_isnan (FScalar lm) (v3get (a_acc (n_ang (differentiateMeasurements 5 n))) i) = true.
Proof. exact same_clock. Qed.
Print Assumptions C42_same_clock_refuted.

Example C42_case : map o_position (odoms (snd (out_run "odom" None))) = [v3 2 1 0] /\
  fb_state (n_filter (fst (out_run "odom" None))) 5%nat = 1%R /\
  List.length (accels (snd (out_run "odom" None))) = 1%nat.
Proof. split; [reflexivity|]. split; reflexivity. Qed.

(** ** C43 *)
Theorem C43_map_to_odom : forall E (pq : pqueue RScalar) (vt : vtbl RScalar E) c, pq_ok pq ->
  forall cur later lookup n n' o t (L B : T4),
  periodicUpdate pq vt c cur later lookup n = (n', o) -> In (OutTf t) o ->
  c_world c = c_map c -> c_map c <> c_odom c -> lookup = Some L -> rigid L -> (forall p, move L (move B p) = p) ->
  exists m, In (OutOdom m) o /\ tf_frame t = c_map c /\ tf_child t = c_odom c /\
    tf_stamp t = (o_stamp m + c_tf_offset c)%Z /\ unit_quat (tf_rotation t) /\
    forall p, plus3 (spin (tf_rotation t) (move B p)) (tf_translation t) = plus3 (spin (o_orientation m) p) (o_position m).
Proof.
  exact (fun E pq vt c Hpq cur later lookup n n' o t L B H => @map_odom_tf E pq vt c cur later lookup n n' o t L B Hpq H).
Qed.
Print Assumptions C43_map_to_odom.

Theorem C43_world_is_odom : forall (K : Scalar) E (pq : pqueue K) (vt : vtbl K E) c, pq_ok pq ->
  forall cur later lookup n n' o t,
  periodicUpdate pq vt c cur later lookup n = (n', o) -> In (OutTf t) o -> c_world c = c_odom c ->
  exists m, In (OutOdom m) o /\ tf_frame t = c_odom c /\ tf_child t = c_base_out c /\
    tf_stamp t = (o_stamp m + c_tf_offset c)%Z /\ tf_rotation t = o_orientation m /\ tf_translation t = o_position m.
Proof. exact (@odom_tf). Qed.
Print Assumptions C43_world_is_odom.

(** One transform per published odometry message, provided the frames allow it. *)
Theorem C43_sent_once : forall (K : Scalar) E (pq : pqueue K) (vt : vtbl K E) c, pq_ok pq ->
  forall cur later lookup n n' o, periodicUpdate pq vt c cur later lookup n = (n', o) ->
  List.length (tfs o) =
    if (c_publish_tf c && negb (Nat.eqb (List.length (odoms o)) 0) &&
        (String.eqb (c_world c) (c_odom c) ||
         String.eqb (c_world c) (c_map c) && match lookup with Some _ => true | None => false end))%bool
    then 1%nat else 0%nat.
Proof. exact (@tf_count). Qed.
Print Assumptions C43_sent_once.

Example C43_case : rigid out_lookup /\ (forall p, move out_lookup (move out_pose p) = p) /\
  c_world (out_cfg "map") = c_map (out_cfg "map") /\ c_map (out_cfg "map") <> c_odom (out_cfg "map") /\
  List.length (tfs (snd (out_run "map" (Some out_lookup)))) = 1%nat /\
  List.length (tfs (snd (out_run "odom" None))) = 1%nat /\ tfs (snd (out_run "map" None)) = [].
Proof.
  split; [apply rotation_eye|]. split.
  { intros p. unfold out_lookup, out_pose, move. cbn [t_basis t_origin]. rewrite !turn_eye. destruct p as [x y z]. apply v3_eq; tf_simp; lra. }
  split; [reflexivity|]. split; [discriminate|]. repeat split; reflexivity.
Qed.

(** ** C44 *)
Theorem C44_report : forall h,
  let r := fst (aggregateDiagnostics (fst (diag_trace diag_init h))) in
  exists level s d,
    rp_entries r = s ++ d /\ lists_latest (lasting h) s /\ lists_latest (recent h) d /\
    worst (lasting h ++ recent h) level /\
    rp_summary r = option_map (pair level) (verdict level).
Proof. exact report_after. Qed.
Print Assumptions C44_report.

(** The [i]-th report of a history is the one made after the operations that
    precede it. *)
Theorem C44_each_report : forall before after,
  nth_error (snd (diag_trace diag_init (before ++ Report :: after))) (List.length (snd (diag_trace diag_init before))) =
  Some (fst (aggregateDiagnostics (fst (diag_trace diag_init before)))).
Proof. exact each_report. Qed.
Print Assumptions C44_each_report.

(** Static messages persist, dynamic ones are gone after a report. *)
Theorem C44_cleared : forall h, recent (h ++ [Report]) = [] /\ lasting (h ++ [Report]) = lasting h.
Proof. exact cleared. Qed.
Print Assumptions C44_cleared.

(** The node only uses its diagnostics this way. *)
Theorem C44_node : forall (K : Scalar) E (pq : pqueue K) (vt : vtbl K E) c, pq_ok pq -> forall es n,
  exists h, diag_trace (n_diag n) h =
    (n_diag (fst (node_run pq vt c n es)), reports (snd (node_run pq vt c n es))).
Proof. exact (@run_diag). Qed.
Print Assumptions C44_node.

Example C44_case :
  let w := mkCall 1 "a" "x" false in let e := mkCall 2 "b" "y" true in
  let h := [Raise w; Raise e; Report; Raise (mkCall 1 "c" "z" false); Raise (mkCall 0 "c" "u" false)] in
  map rp_entries (snd (diag_trace diag_init (h ++ [Report; Report]))) =
    [[("b", "y"); ("a", "x")]; [("b", "y"); ("c", "u")]; [("b", "y")]]%string /\
  map (fun r => option_map fst (rp_summary r)) (snd (diag_trace diag_init (h ++ [Report; Report]))) =
    [Some 2; Some 2; Some 2]%Z /\
  List.length (reports (snd (node_run (list_pq RScalar) out_still (out_cfg "odom") out_start [EvDiagnostics; EvDiagnostics]))) = 2%nat.
Proof. repeat split; reflexivity. Qed.
