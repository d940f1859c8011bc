(** * Vocabulary for sensors that tell the truth (C107) *)

From Coq Require Import Reals ZArith List Bool String Arith.
From Verif Require Import Scalar Mat Tf FilterBase FilterOps StrMap RosFilter RosConfig RosPrepare
  SpecLin SpecFilter SpecTf SpecPrepare SpecPublished SpecTruth.
Import ListNotations.
Local Open Scope R_scope.

Definition at3 (v : V3) (i : nat) : R := nth i [X v; Y v; Z3 v] 0.
Definition axis (j : nat) : V3 :=
  v3 (if Nat.eqb j 0 then 1 else 0) (if Nat.eqb j 1 then 1 else 0) (if Nat.eqb j 2 then 1 else 0).
(** Of three variables from [o] on, the user selected one that contributes to
    the [i]-th when the three are turned by [r]. *)
Definition reached (r : M3) (upd : list bool) (o i : nat) : Prop :=
  exists j, (j < 3)%nat /\ nth (o + j) upd false = true /\ at3 (turn r (axis j)) i <> 0.
Definition agrees (r : M3) (upd : list bool) (o : nat) (v : V3) (y : rvec) : Prop :=
  forall i, (i < 3)%nat -> reached r upd o i -> same_value (o + i) (at3 v i) (y (o + i)%nat).
Definition any_of (upd : list bool) (o : nat) : Prop := exists j, (j < 3)%nat /\ nth (o + j) upd false = true.
(** Some angles of the attitude agree. *)
Definition agreeing_angles (r : M3) (upd : list bool) (attitude : V3 -> V3) (y : rvec) : Prop :=
  exists a, - (PI / 2) < Y a < PI / 2 /\ describes a attitude /\ agrees r upd 3 a y.

(** The user selects from the [n] variables from [o] on; a planar node works
    for a robot on the plane. *)
Definition sensor_ok (e : penv RScalar) (cd : callback_data RScalar) (o n : nat) (y : rvec) : Prop :=
  exact_clock e /\ List.length (cd_upd cd) = 15%nat /\
  (forall k, nth k (cd_upd cd) false = true -> (o <= k < o + n)%nat) /\
  (e_two_d e = true -> forall k, flattened k -> same_value k 0 (y k)).

(** The frame whose pose is reported, seen from the robot's frame. *)
Inductive mounted (b : tf_buffer RScalar) (base source : string) (asked : Z) : T4 -> Prop :=
| on_base : source = base -> mounted b base source asked no_motion
| elsewhere : forall s, source <> base -> answer b source base asked (Some s) -> rigid s -> mounted b base source asked s.

(** A pose that is neither differential nor relative. *)
Definition true_pose (c : config RScalar) (e : penv RScalar) (cd : callback_data RScalar) (p : pose_msg RScalar)
    (source : string) (y : rvec) : Prop :=
  let q := ps_orientation p in
  sensor_ok e cd 0 6 y /\ stamp_range (ps_stamp p) /\ c_world c <> ""%string /\
  cd_differential cd = false /\ cd_relative cd = false /\
  forall t, answer (e_buffer e) (c_world c) (ps_frame p) (ps_stamp p / 1000000000) (Some t) ->
  rigid t /\ exists s, mounted (e_buffer e) (c_base c) source (ps_stamp p / 1000000000) s /\
  (any_of (cd_upd cd) 3 \/ source <> c_base c -> unit_quat q) /\
  agrees (t_basis t) (cd_upd cd) 0 (move t (plus3 (ps_position p) (spin q (t_origin s)))) y /\
  (any_of (cd_upd cd) 3 ->
   agreeing_angles (t_basis t) (cd_upd cd) (fun v => turn (t_basis t) (spin q (turn (t_basis s) v))) y).

(** The robot's velocity and rate of turn; a point of it at [o] has the
    velocity v + w x o and the acceleration a + al x o + w x (w x o). *)
Definition true_twist (c : config RScalar) (e : penv RScalar) (cd : callback_data RScalar)
    (stamp : Z) (frame : string) (linear angular : V3) (y : rvec) : Prop :=
  sensor_ok e cd 6 6 y /\ stamp_range stamp /\
  forall t, answer (e_buffer e) (c_base c) (frame_or frame (c_base c)) stamp (Some t) ->
  rigid t /\
  agrees (t_basis t) (cd_upd cd) 6 (minus3 (turn (t_basis t) linear) (cross3 (part (K := RScalar) y 9) (t_origin t))) y /\
  agrees (t_basis t) (cd_upd cd) 9 (turn (t_basis t) angular) y.

(** The orientation of an IMU that is aligned with the robot. *)
Definition true_attitude (c : config RScalar) (e : penv RScalar) (cd : callback_data RScalar) (m : imu_msg RScalar)
    (y : rvec) : Prop :=
  let r := t_basis no_motion in
  sensor_ok e cd 3 3 y /\ stamp_range (im_stamp m) /\ c_base c <> ""%string /\
  cd_differential cd = false /\ cd_relative cd = false /\
  forall t, answer (e_buffer e) (c_base c) (im_frame m) (im_stamp m / 1000000000) (Some t) ->
  t = no_motion /\
  (any_of (cd_upd cd) 3 -> unit_quat (im_orientation m) /\ agreeing_angles r (cd_upd cd) (spin (im_orientation m)) y).

(** The acceleration, [al] being that of the turning.  Where gravity is to be
    removed, the IMU is aligned and reports its attitude, and what it feels
    contains the reaction to gravity. *)
Definition true_acceleration (c : config RScalar) (e : penv RScalar) (cd : callback_data RScalar) (m : imu_msg RScalar)
    (al : V3) (y : rvec) : Prop :=
  sensor_ok e cd 12 3 y /\ stamp_range (im_stamp m) /\
  forall t, answer (e_buffer e) (c_base c) (frame_or (im_frame m) (c_base c)) (im_stamp m) (Some t) ->
  let w := part (K := RScalar) y 9 in
  let due := plus3 (cross3 al (t_origin t)) (cross3 w (cross3 w (t_origin t))) in
  rigid t /\
  match sm_find (e_remove e) (cd_topic cd) with
  | Some true => t_basis t = t_basis no_motion /\ declared_absent (im_ori_cov m) = false /\ unit_quat (im_orientation m) /\
      exists reaction, spin (im_orientation m) reaction = up (e_gravity e) /\
      agrees (t_basis t) (cd_upd cd) 12 (minus3 (minus3 (im_linear m) due) reaction) y
  | _ => agrees (t_basis t) (cd_upd cd) 12 (minus3 (turn (t_basis t) (im_linear m)) due) y
  end.

(** A message that tells the truth [y] in the parts that are used. *)
Definition true_message (c : config RScalar) (e : penv RScalar) (s : subscription RScalar) (m : sensor_msg RScalar)
    (al : V3) (y : rvec) : Prop :=
  match s, m with
  | SubOdom _ a b, MsgOdom x =>
      ((0 < cd_sum a)%Z -> true_pose c e a (mkPose (o_stamp x) (o_frame x) (o_position x) (o_orientation x) (o_pose_cov x))
                             (if cd_child a then o_child x else c_base c) y) /\
      ((0 < cd_sum b)%Z -> true_twist c e b (o_stamp x) (o_child x) (o_linear x) (o_angular x) y)
  | SubPose a, MsgPose x => true_pose c e a x (c_base c) y
  | SubTwist a, MsgTwist x => true_twist c e a (tw_stamp x) (tw_frame x) (tw_linear x) (tw_angular x) y
  | SubImu _ a b d, MsgImu x =>
      ((0 < cd_sum a)%Z -> declared_absent (im_ori_cov x) = false -> true_attitude c e a x y) /\
      ((0 < cd_sum b)%Z -> declared_absent (im_ang_cov x) = false ->
       true_twist c e b (im_stamp x) (im_frame x) (v3 0 0 0) (im_angular x) y) /\
      ((0 < cd_sum d)%Z -> declared_absent (im_acc_cov x) = false -> true_acceleration c e d x al y)
  | _, _ => True
  end.
Definition stamp_of (m : sensor_msg RScalar) : Z :=
  match m with MsgOdom x => o_stamp x | MsgPose x => ps_stamp x | MsgTwist x => tw_stamp x | MsgImu x => im_stamp x end.

Section Sensors.
Context {E : Type}.
Variable c : course.
(** Messages tell the truth of their stamps, and so do set_pose requests; none
    says that the robot turns; measurements come from messages only; two cycles are not simultaneous. *)
Definition true_input (cfg : config RScalar) (pq : pqueue RScalar) (vt : vtbl RScalar E)
    (n : node RScalar E) (i : input (K := RScalar) (E := E)) : Prop :=
  match i with
  | Message e s m => true_message cfg e s m (v3 0 0 0) (truth c (stamp_of m))
  | Event (EvSensor _ _ _ _ _ _) => False
  | Event (EvSetPose stamp prep now) =>
      let f := filter_after pq vt cfg n (EvSetPose stamp prep now) in
      (fb_initialized f = true -> same_state (fb_state f) (truth c (fb_last_time f))) /\
      part (fb_state f) 9 = v3 0 0 0
  | Event (EvToggle on) => on = true \/ still c
  | Event (EvCycle cur _ _) => IZR cur / 1000000000 <> a_last_time (n_ang n)
  | _ => True
  end.
(** Measurements are fused in order, unless the robot stands still; the first
    one completes what is known at the start. *)
Definition in_order (o : output RScalar E) : Prop :=
  match o with
  | OutFused f m =>
      (fb_initialized f = true -> still c \/ (fb_last_time f <= m_time m)%Z) /\
      (fb_initialized f = false -> completes (fb_state f) m (truth c (m_time m)))
  | _ => True
  end.
End Sensors.
