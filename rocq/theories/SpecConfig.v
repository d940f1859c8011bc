(** * Vocabulary for the configuration properties (C40, C45-C48, C71-C72)

    Nothing here refers to the loader's helper functions, only to the
    parameters and to what loading leaves behind. *)

From Coq Require Import ZArith List Bool String Ascii Arith.
From Verif Require Import Scalar Mat FilterBase StrMap Diagnostics RosFilter RosConfig.
Import ListNotations.

Section SpecConfig.
Context {K : Scalar} {E : Type}.

(** The configured flag of variable [i] of an input. *)
Definition configured (o : option (list bool)) (i : nat) : bool :=
  match o with Some v => nth i v false | None => false end.
Definition config_size (o : option (list bool)) : nat :=
  match o with Some v => List.length v | None => 15 end.

(** [v] is the configured vector restricted to the variables [keep]. *)
Definition masked (o : option (list bool)) (keep : nat -> bool) (v : list bool) : Prop :=
  List.length v = config_size o /\ forall i, nth i v false = (keep i && configured o i)%bool.

Definition within (a b i : nat) : bool := (Nat.leb a i && Nat.ltb i b)%bool.

(** The number of configured flags, which decides whether a part is used. *)
Definition summed (d : callback_data K) : Prop :=
  cd_sum d = Z.of_nat (List.length (filter (fun b => b) (cd_upd d))).
Definition modes (differential relative child : bool) (d : callback_data K) : Prop :=
  cd_differential d = differential /\ cd_relative d = (relative && negb differential)%bool /\ cd_child d = child.

(** The subscription of the [i]-th odometry, pose, twist or IMU input. *)
Definition odom_sub (i : nat) (p : odom_par K) (s : subscription K) : Prop :=
  exists pose twist, s = SubOdom (numbered "odom" i) pose twist /\
    masked (op_config p) (fun k => negb (within 6 12 k)) (cd_upd pose) /\
    masked (op_config p) (fun k => negb (within 0 6 k)) (cd_upd twist) /\
    cd_topic pose = (numbered "odom" i ++ "_pose")%string /\ cd_topic twist = (numbered "odom" i ++ "_twist")%string /\
    modes (op_differential p) (op_relative p) (op_child p) pose /\ modes false false false twist /\
    cd_thresh pose = op_pose_thresh p /\ cd_thresh twist = op_twist_thresh p /\ summed pose /\ summed twist.
Definition pose_sub (i : nat) (p : pose_par K) (s : subscription K) : Prop :=
  exists d, s = SubPose d /\
    masked (pp_config p) (fun k => negb (within 6 15 k)) (cd_upd d) /\
    cd_topic d = numbered "pose" i /\ modes (pp_differential p) (pp_relative p) false d /\
    cd_thresh d = pp_thresh p /\ summed d.
Definition twist_sub (i : nat) (p : twist_par K) (s : subscription K) : Prop :=
  exists d, s = SubTwist d /\
    masked (tp_config p) (fun k => negb (within 0 6 k)) (cd_upd d) /\
    cd_topic d = numbered "twist" i /\ modes false false false d /\ cd_thresh d = tp_thresh p /\ summed d.
Definition imu_sub (i : nat) (p : imu_par K) (s : subscription K) : Prop :=
  exists pose twist accel, s = SubImu (numbered "imu" i) pose twist accel /\
    masked (ip_config p) (fun k => within 3 6 k || Nat.leb 15 k)%bool (cd_upd pose) /\
    masked (ip_config p) (fun k => within 9 12 k || Nat.leb 15 k)%bool (cd_upd twist) /\
    masked (ip_config p) (fun k => Nat.leb 12 k) (cd_upd accel) /\
    cd_topic pose = (numbered "imu" i ++ "_pose")%string /\ cd_topic twist = (numbered "imu" i ++ "_twist")%string /\
    cd_topic accel = (numbered "imu" i ++ "_acceleration")%string /\
    modes (ip_differential p) (ip_relative p) false pose /\ modes (ip_differential p) (ip_relative p) false twist /\
    modes (ip_differential p) (ip_relative p) false accel /\
    cd_thresh pose = ip_pose_thresh p /\ cd_thresh twist = ip_twist_thresh p /\ cd_thresh accel = ip_accel_thresh p /\
    summed pose /\ summed twist /\ summed accel.

(** Some flag that survives the mask is set. *)
Definition useful (o : option (list bool)) (keep : nat -> bool) : Prop :=
  exists i, keep i = true /\ configured o i = true.

(** Stream names of a subscription. *)
Definition stream_names (s : subscription K) : list string :=
  match s with
  | SubOdom _ a b => [cd_topic a; cd_topic b]
  | SubPose a => [cd_topic a]
  | SubTwist a => [cd_topic a]
  | SubImu _ a b d => [cd_topic a; cd_topic b; cd_topic d]
  end.

(** Sizes for which loading stays within bounds. *)
Definition twist_size_ok (o : option (list bool)) : Prop :=
  (6 <= config_size o)%nat /\ ((12 <= config_size o)%nat \/ forall i, (6 <= i)%nat -> configured o i = false).
Definition cov_size_ok (o : option (list K)) : Prop :=
  match o with None => True | Some v => List.length v = 15%nat \/ (225 <= List.length v)%nat end.
Definition control_size_ok (p : params K) : Prop :=
  p_imus p = [] \/ p_use_control p = false \/
  exists v, p_control_config p = Some v /\ (3 <= List.length v)%nat.
Definition sizes_ok (p : params K) : Prop :=
  Forall (fun o => 12 <= config_size (op_config o))%nat (p_odoms p) /\
  Forall (fun o => 15 <= config_size (pp_config o))%nat (p_poses p) /\
  Forall (fun o => twist_size_ok (tp_config o)) (p_twists p) /\
  Forall (fun o => 15 <= config_size (ip_config o))%nat (p_imus p) /\
  control_size_ok p /\ cov_size_ok (p_Q p) /\ cov_size_ok (p_P p).

(** Inputs of the pose variable [var] (0-5) in the given mode, and of its
    velocity. *)
Definition count {A : Type} (f : A -> bool) (l : list A) : nat := List.length (filter f l).
Definition pose_inputs (p : params K) (differential : bool) (var : nat) : nat :=
  (count (fun o => Bool.eqb (op_differential o) differential && configured (op_config o) var)%bool (p_odoms p) +
   count (fun o => Bool.eqb (pp_differential o) differential && configured (pp_config o) var)%bool (p_poses p) +
   count (fun o => Bool.eqb (ip_differential o) differential && Nat.leb 3 var && configured (ip_config o) var)%bool (p_imus p))%nat.
(** [other]: the velocity that odometry inputs are asked for *)
Definition velocity_inputs_of (p : params K) (var other : nat) : nat :=
  (pose_inputs p true var +
   count (fun o => configured (op_config o) (other + 6)) (p_odoms p) +
   count (fun o => configured (tp_config o) (var + 6)) (p_twists p) +
   count (fun o => Nat.leb 3 var && configured (ip_config o) (var + 6))%bool (p_imus p))%nat.
Definition velocity_inputs (p : params K) (var : nat) : nat := velocity_inputs_of p var var.

(** The start-up report about a pose variable. *)
Definition report_key (var : nat) : string :=
  (nth var ["X"; "Y"; "Z"; "ROLL"; "PITCH"; "YAW"] "" ++ "_configuration")%string.
Definition says (d : diag) (var : nat) (text : string) : Prop := sm_find (d_static d) (report_key var) = Some text.
Definition unmeasured_text : string := "Neither the variable nor its velocity is being measured.".
Definition multiple_text : string := "absolute pose inputs detected. This may result in oscillations.".
(** variables that two_d_mode exempts *)
Definition planar_free (var : nat) : bool := within 2 5 var.
End SpecConfig.

(** A nonempty name that does not begin with a separator. *)
Definition plain_name (s : string) : Prop := match s with EmptyString => False | String c _ => c <> "/"%char end.
