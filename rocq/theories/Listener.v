(** * RosRobotLocalizationListener: src/ros_robot_localization_listener.cpp

    Undefined behaviour is the outcome [Undefined]; endless recursion counts as
    such.  One query sees one transform buffer and one frame tree (transforms
    arriving during the query are not modelled); the 0.1 s timeout of lookups is
    left out: a buffer is the answer it finally gives.  The synchronizer is
    external: it calls odomAndAccelCallback with pairs of messages.  Log lines
    are left out. *)

From Coq Require Import ZArith Bool List String Arith.
From Verif Require Import Scalar Mat FilterBase StrMap Tf Estimator RosFilter RosPrepare.
Import ListNotations.

Inductive outcome (A : Type) : Type := Undefined | Returned (a : A).
Arguments Undefined {A}. Arguments Returned {A}.
Definition bind {A B : Type} (o : outcome A) (k : A -> outcome B) : outcome B :=
  match o with Undefined => Undefined | Returned a => k a end.

(** ** The frame tree and the ancestor cache *)

(** Parsed buffer.allFramesAsYAML(): parent of every frame that has one.
    yaml-cpp's operator[] on a missing key gives a node whose Scalar() is "". *)
Definition frame_tree : Type := smap string.
Definition parent_of (tree : frame_tree) (f : string) : string :=
  match sm_find tree f with Some p => p | None => ""%string end.

(** ros_robot_localization_listener.cpp 254-270.  More steps than there are
    frames means that a frame repeats and the recursion does not end. *)
Fixpoint findAncestorRecursive (steps : nat) (tree : frame_tree) (source target : string) : outcome bool :=
  if String.eqb source target then Returned true
  else let parent := parent_of tree source in
    if String.eqb parent "" then Returned false
    else match steps with
         | O => Undefined
         | S k => findAncestorRecursive k tree parent target
         end.

(** 272-274: static, shared by all listeners of the process *)
Record anc_cache : Type := mkCache { ca_anc : smap (list string); ca_desc : smap (list string) }.
Definition no_cache : anc_cache := mkCache [] [].
(** map[key], which creates a missing entry *)
Definition cached (m : smap (list string)) (k : string) : list string :=
  match sm_find m k with Some l => l | None => [] end.
Definition contains (l : list string) (k : string) : bool := existsb (String.eqb k) l.

(** 275-306 *)
Definition findAncestor (tree : frame_tree) (source target : string) (c : anc_cache) : outcome (bool * anc_cache) :=
  let c1 := mkCache (sm_set (ca_anc c) source (cached (ca_anc c) source)) (ca_desc c) in
  if contains (cached (ca_anc c) source) target then Returned (true, c1)
  else
    let c2 := mkCache (ca_anc c1) (sm_set (ca_desc c) source (cached (ca_desc c) source)) in
    if contains (cached (ca_desc c) source) target then Returned (false, c2)
    else
      bind (findAncestorRecursive (List.length tree) tree source target) (fun is_anc =>
      bind (findAncestorRecursive (List.length tree) tree target source) (fun is_desc =>
      let anc := if is_anc then sm_set (ca_anc c2) source (cached (ca_anc c2) source ++ [target]) else ca_anc c2 in
      let desc := if is_desc then sm_set (ca_desc c2) source (cached (ca_desc c2) source ++ [target]) else ca_desc c2 in
      Returned (is_anc, mkCache anc desc))).

(** A sequence of queries on changing trees; stops at the first undefined one. *)
Fixpoint anc_queries (qs : list (frame_tree * string * string)) (c : anc_cache) : list (outcome bool) :=
  match qs with
  | [] => []
  | (tree, source, target) :: r =>
      match findAncestor tree source target c with
      | Undefined => [Undefined]
      | Returned (b, c') => Returned b :: anc_queries r c'
      end
  end.

Section Listener.
Context {K : Scalar} {E : Type} (vt : vtbl K E).
Local Open Scope sc_scope.

(** ** Conversion of times *)

(** static_cast<int>(double), int of 32 bits: undefined unless the truncated
    value is representable. *)
Definition to_int (x : K) : outcome Z :=
  if (negb (s_isnan x) && s_ltb (s_ofZ (-2147483649)) x && s_ltb x (s_ofZ 2147483648))%bool
  then Returned (s_trunc x) else Undefined.
(** 384, 417: static_cast<int>(time * 1000000000) *)
Definition query_nanoseconds (time : K) : outcome Z := to_int (time * s_ofZ 1000000000).
(** filter_utilities.hpp 90-93 (not called anywhere) *)
Definition secToNanosec (seconds : K) : outcome Z := to_int (seconds * s_ofZ 1000000000).

(** ** Eigen (external), headers Geometry/{Quaternion,AngleAxis,Transform,EulerAngles}.h *)

(** Quaternion::toRotationMatrix: no normalization *)
Definition eig_matrix (q : quat K) : mat3 K :=
  let tx := 2 * qx q in let ty := 2 * qy q in let tz := 2 * qz q in
  let twx := tx * qw q in let twy := ty * qw q in let twz := tz * qw q in
  let txx := tx * qx q in let txy := ty * qx q in let txz := tz * qx q in
  let tyy := ty * qy q in let tyz := tz * qy q in let tzz := tz * qz q in
  mkM3 (mkV3 (1 - (tyy + tzz)) (txy - twz) (txz + twy))
       (mkV3 (txy + twz) (1 - (txx + tzz)) (tyz - twx))
       (mkV3 (txz - twy) (tyz + twx) (1 - (txx + tyy))).
(** Quaternion product *)
Definition eig_qmul (a b : quat K) : quat K :=
  mkQuat (qw a * qx b + qx a * qw b + qy a * qz b - qz a * qy b)
         (qw a * qy b + qy a * qw b + qz a * qx b - qx a * qz b)
         (qw a * qz b + qz a * qw b + qx a * qy b - qy a * qx b)
         (qw a * qw b - qx a * qx b - qy a * qy b - qz a * qz b).
(** Quaternion(AngleAxis) for the unit axes *)
Definition eig_about_x (a : K) : quat K := mkQuat (s_sin (half * a) * 1) (s_sin (half * a) * 0) (s_sin (half * a) * 0) (s_cos (half * a)).
Definition eig_about_y (a : K) : quat K := mkQuat (s_sin (half * a) * 0) (s_sin (half * a) * 1) (s_sin (half * a) * 0) (s_cos (half * a)).
Definition eig_about_z (a : K) : quat K := mkQuat (s_sin (half * a) * 0) (s_sin (half * a) * 0) (s_sin (half * a) * 1) (s_cos (half * a)).
(** tf2::transformToEigen; Affine3d as linear part and translation, product [t_mult] *)
Definition eig_affine (o : vec3 K) (q : quat K) : trans K := mkTrans (eig_matrix q) o.

(** MatrixBase::eulerAngles(2, 1, 0) of Eigen 3.3 and 3.4 *)
Definition eig_eulerAngles (m : mat3 K) : K * K * K :=
  let r0 := s_atan2 (v3x (m3r1 m)) (v3x (m3r0 m)) in
  let c2 := s_sqrt (v3z (m3r2 m) * v3z (m3r2 m) + v3y (m3r2 m) * v3y (m3r2 m)) in
  let '(y, p) :=
    if s_ltb r0 0 then (r0 + s_pi, s_atan2 (- v3x (m3r2 m)) (- c2))
    else (r0, s_atan2 (- v3x (m3r2 m)) c2) in
  let s1 := s_sin y in let c1 := s_cos y in
  (y, p, s_atan2 (s1 * v3z (m3r0 m) - c1 * v3z (m3r1 m)) (c1 * v3y (m3r1 m) - s1 * v3y (m3r0 m))).

(** ** The listener *)

(** base_frame_id_, world_frame_id_, estimator_ (null after an invalid
    filter_type) *)
Record listener : Type := mkListener {
  l_base : string; l_world : string; l_est : option (estimator K E) }.

(** 68-166 up to the waiting loop.  [filter] is the filter of the requested
    type, [None] for an invalid filter_type.  [reparse] is the detour of a
    double through its textual form.  process_noise_covar_config is read at 225
    positions whatever its size. *)
Definition listener_construct (cap : nat) (filter : option (fb K E)) (reparse : K -> K) (q : list K) : outcome listener :=
  match filter with
  | None => Returned (mkListener "" "" None)
  | Some f =>
      if Nat.ltb (List.length q) 225 then Undefined
      else Returned (mkListener "" ""
             (est_construct cap (Some f) (fun i j => reparse (nth (15 * i + j) q 0))))
  end.

(** 172-252.  The stamp of a header is whole seconds and nanoseconds; the
    former are stored. *)
Definition listener_state (odom : odom_msg K) (accel : accel_msg K) : est_state K :=
  let '(roll, pitch, yaw) := quatToRPY (o_orientation odom) in
  let s := set_vec3 (set_vec3 (set_vec3 (set_vec3 (set_vec3 vzero 0 (o_position odom)) 3 (mkV3 roll pitch yaw))
             6 (o_linear odom)) 9 (o_angular odom)) 12 (ac_linear accel) in
  let c := set_block (set_block (set_block mzero
             0 6 (fun i j => o_pose_cov odom (i * 6 + j)%nat))
             6 6 (fun i j => o_twist_cov odom (i * 6 + j)%nat))
             12 3 (fun i j => ac_cov accel (i * 6 + j)%nat) in
  mkEst (s_ofZ (o_stamp odom / 1000000000)) s c.
Definition odomAndAccelCallback (odom : odom_msg K) (accel : accel_msg K) (l : listener) : outcome listener :=
  match l_est l with
  | None => Undefined
  | Some e =>
      Returned (mkListener
        (if String.eqb (l_base l) "" then o_child odom else l_base l)
        (if String.eqb (l_world l) "" then o_frame odom else l_world l)
        (Some (est_setState e (listener_state odom accel))))
  end.

(** What a query reads besides the listener: the transform buffer (answering
    translation and rotation, [None] for a TransformException), the frame tree,
    and Affine3d::rotation(), external: the rotation nearest to the linear
    part, computed by a singular value decomposition. *)
Record lenv : Type := mkLenv {
  q_buffer : string -> string -> Z -> option (vec3 K * quat K);
  q_tree : frame_tree;
  q_rotation : mat3 K -> mat3 K
}.

(** Result: the boolean with the out parameters, the listener (its estimator's
    filter is used for predictions), the cache. *)
Definition answer_t : Type := bool * vec K * mat K * listener * anc_cache.

(** 424-511: from the estimated state to the requested frames *)
Definition target_state (env : lenv) (world : trans K) (target : trans K) (s : vec K) : vec K :=
  let base := mkTrans (eig_matrix (eig_qmul (eig_qmul (eig_about_z (s 5%nat)) (eig_about_y (s 4%nat))) (eig_about_x (s 3%nat))))
                (mkV3 (s 0%nat) (s 1%nat) (s 2%nat)) in
  let pose := t_mult (t_mult world base) target in
  let '(yaw, pitch, roll) := eig_eulerAngles (q_rotation env (t_basis pose)) in
  let lin := mkV3 (s 6%nat) (s 7%nat) (s 8%nat) in
  let ang := mkV3 (s 9%nat) (s 10%nat) (s 11%nat) in
  let lin_base := v3add lin (v3cross ang (t_origin target)) in
  let back := m3T (q_rotation env (t_basis target)) in
  set_vec3 (set_vec3 (set_vec3 (set_vec3 vzero 0 (t_origin pose)) 3 (mkV3 roll pitch yaw))
    6 (m3mv back lin_base)) 9 (m3mv back ang).
Definition target_cov (env : lenv) (target : trans K) (P : mat K) : mat K :=
  set_block mzero 0 6 (rotateCov 6 (rot6 (q_rotation env (t_basis target))) P).

(** 309-515 *)
Definition listener_getState (env : lenv) (time : K) (frame world : string) (l : listener) (c : anc_cache) : outcome answer_t :=
  match l_est l with
  | None => Undefined
  | Some e =>
    if (String.eqb (l_base l) "" || String.eqb (l_world l) "")%bool then Returned (false, vzero, mzero, l, c)
    else
      let '(_, s, e') := est_getState vt e time (mkEst 0 vzero mzero) in
      let l' := mkListener (l_base l) (l_world l) (Some e') in
      let world := if String.eqb world "" then l_world l else world in
      if (String.eqb frame (l_base l) && String.eqb world (l_world l))%bool
      then Returned (true, es_state s, es_cov s, l', c)
      else
        bind
          (if String.eqb world (l_world l) then Returned (Some t_identity, c)
           else bind (query_nanoseconds time) (fun t =>
             match q_buffer env world (l_world l) t with
             | None => Returned (None, c)
             | Some (o, q) =>
                 bind (findAncestor (q_tree env) world (l_base l) c) (fun r =>
                 Returned (if fst r then None else Some (eig_affine o q), snd r))
             end))
          (fun w => match w with
           | (None, c1) => Returned (false, vzero, mzero, l', c1)
           | (Some wt, c1) =>
               bind (query_nanoseconds time) (fun t =>
               match q_buffer env (l_base l) frame t with
               | None => Returned (false, vzero, mzero, l', c1)
               | Some (o, q) =>
                   bind (findAncestor (q_tree env) frame (l_base l) c1) (fun r =>
                   if fst r
                   then let target := eig_affine o q in
                     Returned (true, target_state env wt target (es_state s), target_cov env target (es_cov s), l', snd r)
                   else Returned (false, vzero, mzero, l', snd r))
               end)
           end)
  end.

(** 517-534; [now] is the node clock *)
Definition listener_getState_ros (env : lenv) (now stamp : Z) (frame world : string) (l : listener) (c : anc_cache) : outcome answer_t :=
  listener_getState env (s_ofZ (Z.quot (if Z.eqb stamp 0 then now else stamp) 1000000000)) frame world l c.

(** robot_localization_listener_node.cpp 72-100: the service copies the column
    major data of the covariance.  rclcpp (external) sends the response whatever
    the callback returns; its fields start at zero. *)
Definition getStateCallback (env : lenv) (now stamp : Z) (frame : string) (l : listener) (c : anc_cache)
    : outcome ((nat -> K) * (nat -> K) * listener * anc_cache) :=
  bind (listener_getState_ros env now stamp frame "" l c) (fun r =>
  match r with
  | (true, s, p, l', c') => Returned (s, fun i => p (Nat.modulo i 15) (Nat.div i 15), l', c')
  | (false, _, _, l', c') => Returned (fun _ => 0, fun _ => 0, l', c')
  end).

(** Executions: message pairs and queries in any order. *)
Inductive listener_event : Type :=
| Heard (odom : odom_msg K) (accel : accel_msg K)
| Asked (env : lenv) (time : K) (frame world : string).
Definition listener_step (ev : listener_event) (x : listener * anc_cache) : outcome (listener * anc_cache) :=
  match ev with
  | Heard o a => bind (odomAndAccelCallback o a (fst x)) (fun l => Returned (l, snd x))
  | Asked env t f w => bind (listener_getState env t f w (fst x) (snd x)) (fun r =>
      match r with (_, l, c) => Returned (l, c) end)
  end.
Fixpoint listener_run (evs : list listener_event) (x : listener * anc_cache) : outcome (listener * anc_cache) :=
  match evs with
  | [] => Returned x
  | ev :: r => bind (listener_step ev x) (listener_run r)
  end.
End Listener.
Arguments listener K E : clear implicits.
Arguments lenv K : clear implicits.
Arguments listener_event K : clear implicits.
