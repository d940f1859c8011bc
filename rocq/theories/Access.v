(** * Which entries of an update vector a message makes the node touch

    std::vector<bool>::operator[] and the Eigen accesses of measurement_ and
    covariance_ are unchecked; an index outside the vector is undefined
    behaviour.  The functions below list the indices of update_vector that
    the code of RosPrepare.v reads or writes, along the path that the message
    takes.  An operand of || that is not evaluated counts as read. *)

From Coq Require Import ZArith Bool List String Arith.
From Verif Require Import Scalar Mat FilterBase StrMap Tf RosFilter RosConfig ForceTwoD RosPrepare.
Import ListNotations.

Section Access.
Context {K : Scalar} {E : Type}.

(** ros_filter.cpp 399-405 *)
Definition two_d_accesses (two_d : bool) : list nat := if two_d then two_d_members else [].
(** ros_filter.cpp 2559-2594: with print_diagnostics_ *)
Definition covariance_accesses (print : bool) (offset dimension : nat) : list nat :=
  if print then flat_map (fun i => [offset + i; i]%nat) (seq 0 dimension) else [].

(** ros_filter.cpp 2628-2816: 2661-2663, copyCovariance, 2755-2759, 2803 *)
Definition acceleration_accesses (e : penv K) (c : config K) (msg : imu_msg K) (target : string) : list nat :=
  let msg_frame := if String.eqb (im_frame msg) "" then c_base c else im_frame msg in
  seq StateMemberAx 3 ++ covariance_accesses (c_print_diag c) POSITION_A_OFFSET ACCELERATION_SIZE ++
  match lookupTransformSafe e target msg_frame (im_stamp msg) with
  | Some _ => seq StateMemberAx 3 ++ two_d_accesses (e_two_d e)
  | None => []
  end.

(** ros_filter.cpp 3283-3436: 3322-3328, copyCovariance, 3361-3373, forceTwoD *)
Definition twist_accesses (e : penv K) (c : config K) (frame : string) (stamp : Z) (target : string) : list nat :=
  let msg_frame := if String.eqb frame "" then target else frame in
  seq StateMemberVx 6 ++ covariance_accesses (c_print_diag c) POSITION_V_OFFSET TWIST_SIZE ++
  match lookupTransformSafe e target msg_frame stamp with
  | Some _ => seq StateMemberVx 6 ++ two_d_accesses (e_two_d e)
  | None => []
  end.

(** ros_filter.cpp 2818-3281: 2885-2887, 2945-2951, 2979-2991, copyCovariance,
    the two copies 3184-3190 and prepareTwist, or forceTwoD *)
Definition pose_accesses (e : penv K) (c : config K) (msg : pose_msg K) (topic target source : string)
    (differential imu_data : bool) (n : node K E) : list nat :=
  let '(final_target, pose_frame) := pose_frames c (ps_frame msg) target differential imu_data in
  (if zero_quat (ps_orientation msg) then seq StateMemberRoll 3 else []) ++
  match lookupTransformSafe e final_target pose_frame (pose_lookup_time e (ps_stamp msg)) with
  | None => []
  | Some _ =>
      seq StateMemberX 6 ++ covariance_accesses (c_print_diag c) POSITION_OFFSET POSE_SIZE ++
      (if differential then
         match sm_find (st_previous (n_streams n)) topic, sm_find (st_prev_cov (n_streams n)) topic with
         | Some _, Some _ =>
             seq POSITION_OFFSET POSE_SIZE ++ seq 0 STATE_SIZE ++ twist_accesses e c source (ps_stamp msg) (c_base c)
         | _, _ => []
         end
       else two_d_accesses (e_two_d e))
  end.

(** ros_filter.cpp 1938-2036 and the like: the prepare function runs unless the
    message is not after the last reset or before the previous one. *)
Definition reaches_prepare (n : node K E) (topic : string) (stamp : Z) : bool :=
  (negb (Z.geb (n_set_pose n) stamp) &&
   match sm_find (n_last_msg n) topic with Some last => Z.leb last stamp | None => true end)%bool.

(** One part of a message: the vector and the indices. *)
Definition message_part (n : node K E) (used : bool) (cd : callback_data K) (stamp : Z) (idx : list nat)
    : list (list bool * list nat) :=
  if (used && reaches_prepare n (cd_topic cd) stamp)%bool then [(cd_upd cd, idx)] else [].

(** ros_filter.cpp 512-627, 1876-1936, 1938-2036, 2381-2471.  The indices of the
    later parts do not depend on what the earlier ones do to the node, except
    that each part has its own stream. *)
Definition message_accesses (e : penv K) (c : config K) (s : subscription K) (m : sensor_msg K) (n : node K E)
    : list (list bool * list nat) :=
  match s, m with
  | SubOdom _ a b, MsgOdom x =>
      message_part n (Z.gtb (cd_sum a) 0) a (o_stamp x)
        (pose_accesses e c (odom_pose x) (cd_topic a) (c_world c) (if cd_child a then o_child x else c_base c)
           (cd_differential a) false n) ++
      message_part n (Z.gtb (cd_sum b) 0) b (o_stamp x) (twist_accesses e c (o_child x) (o_stamp x) (c_base c))
  | SubPose a, MsgPose x =>
      message_part n true a (ps_stamp x)
        (pose_accesses e c x (cd_topic a) (c_world c) (c_base c) (cd_differential a) false n)
  | SubTwist a, MsgTwist x => message_part n true a (tw_stamp x) (twist_accesses e c (tw_frame x) (tw_stamp x) (c_base c))
  | SubImu _ a b d, MsgImu x =>
      message_part n (Z.gtb (cd_sum a) 0 && negb (absent (im_ori_cov x))) a (im_stamp x)
        (pose_accesses e c (imu_pose x) (cd_topic a) (c_base c) (c_base c) (cd_differential a) true n) ++
      message_part n (Z.gtb (cd_sum b) 0 && negb (absent (im_ang_cov x))) b (im_stamp x)
        (twist_accesses e c (im_frame x) (im_stamp x) (c_base c)) ++
      message_part n (Z.gtb (cd_sum d) 0 && negb (absent (im_acc_cov x))) d (im_stamp x)
        (acceleration_accesses e c x (c_base c))
  | _, _ => []
  end.

(** ros_filter.cpp 2286-2339: set_pose, on a vector of STATE_SIZE flags *)
Definition set_pose_accesses (e : penv K) (c : config K) (msg : pose_msg K) (n : node K E)
    : list (list bool * list nat) :=
  [(repeat true STATE_SIZE, pose_accesses e c msg "set_pose" (c_world c) (c_base c) false false n)].

(** The accesses of processMeasurement: initialisation or correction. *)
Definition fuse_access_ok (f : fb K E) (m : meas K) : bool :=
  if fb_initialized f then correct_access_ok m else init_access_ok m.

End Access.
