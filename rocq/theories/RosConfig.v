(** * RosFilter::loadParams

    Models src/ros_filter.cpp 794-1874 and 2618-2626.  The parameter server is
    the record [params]: a field of type [option] is a parameter that may be
    absent; other fields hold the value after the default of declare_parameter.
    The numbered inputs "odom0", "odom1", ... are lists (the loops stop at the
    first gap).  Debug output, log messages, queue sizes, publishers, services
    and the subscription objects themselves are not modelled. *)

From Coq Require Import ZArith Bool List String Ascii Arith Decimal DecimalString.
From Verif Require Import Scalar Mat FilterBase Tf StrMap Diagnostics RosFilter.
Import ListNotations.

(** Either a value or undefined behaviour (out-of-range access). *)
Inductive outcome (A : Type) : Type := Ok (a : A) | Undefined.
Arguments Ok {A} _.
Arguments Undefined {A}.
Definition obind {A B : Type} (x : outcome A) (f : A -> outcome B) : outcome B :=
  match x with Ok a => f a | Undefined => Undefined end.
Notation "x <- e ;; f" := (obind e (fun x => f)) (at level 61, e at next level, right associativity).

(** filter_utilities.hpp 65-83 *)
Definition slash : ascii := "/"%char.
Definition strip_slash (s : string) : string :=
  match s with
  | String c r => if Ascii.eqb c slash then r else s
  | EmptyString => EmptyString
  end.
Definition appendPrefix (tf_prefix frame_id : string) : string :=
  match tf_prefix with
  | EmptyString => frame_id
  | _ => (strip_slash tf_prefix ++ "/" ++ strip_slash frame_id)%string
  end.

(** ss << "odom" << topic_ind (1172 and the like) *)
Definition numbered (prefix : string) (i : nat) : string :=
  (prefix ++ NilEmpty.string_of_uint (Nat.to_uint i))%string.

(** std::fill(v.begin() + a, v.begin() + a + n, 0) *)
Definition fill_false (v : list bool) (a n : nat) : outcome (list bool) :=
  if Nat.leb (a + n) (List.length v)
  then Ok (firstn a v ++ repeat false n ++ skipn (a + n) v) else Undefined.
(** std::accumulate(v.begin(), v.end(), 0) *)
Definition accumulate (v : list bool) : Z := fold_left (fun s b => (s + Z.b2z b)%Z) v 0%Z.
(** v[i] *)
Definition at_flag (v : list bool) (i : nat) : outcome bool :=
  match nth_error v i with Some b => Ok b | None => Undefined end.

(** counts[var] += v[member], one statement per pair (var, member) *)
Definition add_count (counts : nat -> Z) (var : nat) (b : bool) : nat -> Z :=
  fun k => if Nat.eqb k var then (counts k + Z.b2z b)%Z else counts k.
Fixpoint add_counts (counts : nat -> Z) (v : list bool) (l : list (nat * nat)) : outcome (nat -> Z) :=
  match l with
  | [] => Ok counts
  | (var, member) :: r => b <- at_flag v member;; add_counts (add_count counts var b) v r
  end.

(** 1259-1267, 1272-1282 and the like *)
Definition pose_to_twist : list (nat * nat) :=
  [(StateMemberVx, StateMemberX); (StateMemberVy, StateMemberY); (StateMemberVz, StateMemberZ);
   (StateMemberVroll, StateMemberRoll); (StateMemberVpitch, StateMemberPitch); (StateMemberVyaw, StateMemberYaw)].
Definition pose_to_pose : list (nat * nat) :=
  [(StateMemberX, StateMemberX); (StateMemberY, StateMemberY); (StateMemberZ, StateMemberZ);
   (StateMemberRoll, StateMemberRoll); (StateMemberPitch, StateMemberPitch); (StateMemberYaw, StateMemberYaw)].
(** 1298-1306: the entry for Vy reads Vx *)
Definition odom_twist : list (nat * nat) :=
  [(StateMemberVx, StateMemberVx); (StateMemberVy, StateMemberVx); (StateMemberVz, StateMemberVz);
   (StateMemberVroll, StateMemberVroll); (StateMemberVpitch, StateMemberVpitch); (StateMemberVyaw, StateMemberVyaw)].
(** 1498-1506 *)
Definition twist_twist : list (nat * nat) :=
  [(StateMemberVx, StateMemberVx); (StateMemberVy, StateMemberVy); (StateMemberVz, StateMemberVz);
   (StateMemberVroll, StateMemberVroll); (StateMemberVpitch, StateMemberVpitch); (StateMemberVyaw, StateMemberVyaw)].
(** 1715-1736 *)
Definition imu_pose_twist : list (nat * nat) :=
  [(StateMemberVroll, StateMemberRoll); (StateMemberVpitch, StateMemberPitch); (StateMemberVyaw, StateMemberYaw)].
Definition imu_pose_pose : list (nat * nat) :=
  [(StateMemberRoll, StateMemberRoll); (StateMemberPitch, StateMemberPitch); (StateMemberYaw, StateMemberYaw)].
Definition imu_twist : list (nat * nat) :=
  [(StateMemberVroll, StateMemberVroll); (StateMemberVpitch, StateMemberVpitch); (StateMemberVyaw, StateMemberVyaw)].

(** 117-131: state_variable_names_ of the six pose variables *)
Definition pose_var_name (i : nat) : string := nth i ["X"; "Y"; "Z"; "ROLL"; "PITCH"; "YAW"]%string ""%string.

Section RosConfig.
Context {K : Scalar} {E : Type}.
Local Open Scope sc_scope.

(** ros_filter.hpp 69-90: CallbackData *)
Record callback_data : Type := mkCb {
  cd_topic : string;         (* topic_name_ *)
  cd_upd : list bool;        (* update_vector_ *)
  cd_sum : Z;                (* update_sum_ *)
  cd_differential : bool;    (* differential_ *)
  cd_relative : bool;        (* relative_ *)
  cd_child : bool;           (* pose_use_child_frame_ *)
  cd_thresh : K              (* rejection_threshold_ *)
}.

(** Parameters of one numbered input; [None] for "_config" is the default of
    loadUpdateConfig (2618-2626): 15 times false. *)
Record odom_par : Type := mkOdomPar {
  op_topic : string; op_config : option (list bool); op_differential : bool; op_relative : bool;
  op_child : bool; op_pose_thresh : K; op_twist_thresh : K }.
Record pose_par : Type := mkPosePar {
  pp_topic : string; pp_config : option (list bool); pp_differential : bool; pp_relative : bool;
  pp_thresh : K }.
Record twist_par : Type := mkTwistPar {
  tp_topic : string; tp_config : option (list bool); tp_thresh : K }.
Record imu_par : Type := mkImuPar {
  ip_topic : string; ip_config : option (list bool); ip_differential : bool; ip_relative : bool;
  ip_pose_thresh : K; ip_twist_thresh : K; ip_accel_thresh : K; ip_remove_gravity : bool }.

Record params : Type := mkParams {
  p_print_diag : bool; p_gravity : K;
  p_map : string; p_odom : string; p_base : string;
  p_base_out : option string; p_world : option string; p_tf_prefix : option string;
  p_publish_tf : bool; p_publish_acc : bool; p_permit : bool;
  p_tf_offset : K; p_tf_timeout : K; p_frequency : K; p_predict_now : bool;
  p_sensor_timeout : option K; p_two_d : bool; p_smooth : bool; p_history : K;
  p_use_control : bool; p_control_timeout : K; p_control_config : option (list bool);
  p_acc_limits : option (list K); p_acc_gains : option (list K);
  p_dec_limits : option (list K); p_dec_gains : option (list K);
  p_dynamic_noise : bool; p_initial_state : option (list K); p_disabled : bool;
  p_odoms : list odom_par; p_poses : list pose_par; p_twists : list twist_par; p_imus : list imu_par;
  p_Q : option (list K); p_P : option (list K)
}.

Definition loadUpdateConfig (o : option (list bool)) : list bool :=
  match o with Some v => v | None => repeat false STATE_SIZE end.

(** What the subscriptions are bound to (1234-1247, 1397-1411, 1484-1496,
    1685-1707). *)
Inductive subscription : Type :=
| SubOdom (name : string) (pose twist : callback_data)
| SubPose (data : callback_data)
| SubTwist (data : callback_data)
| SubImu (name : string) (pose twist accel : callback_data).

(** Variables of loadParams that the loops over the inputs change. *)
Record loading : Type := mkLoading {
  l_subs : list subscription;        (* topic_subs_ *)
  l_abs : nat -> Z;                  (* abs_pose_var_counts *)
  l_twist : nat -> Z;                (* twist_var_counts *)
  l_control : list bool;             (* control_update_vector *)
  l_diag : diag;                     (* diagnostics *)
  l_gravity : smap bool              (* remove_gravitational_acceleration_ *)
}.

Definition with_counts (l : loading) (a t : nat -> Z) : loading :=
  mkLoading (l_subs l) a t (l_control l) (l_diag l) (l_gravity l).
Definition with_sub (l : loading) (s : subscription) : loading :=
  mkLoading (l_subs l ++ [s]) (l_abs l) (l_twist l) (l_control l) (l_diag l) (l_gravity l).
Definition with_ldiag (l : loading) (c : diag_call) : loading :=
  mkLoading (l_subs l) (l_abs l) (l_twist l) (l_control l) (addDiagnostic (l_diag l) c) (l_gravity l).
Definition with_control (l : loading) (v : list bool) : loading :=
  mkLoading (l_subs l) (l_abs l) (l_twist l) v (l_diag l) (l_gravity l).
Definition with_gravity (l : loading) (k : string) (b : bool) : loading :=
  mkLoading (l_subs l) (l_abs l) (l_twist l) (l_control l) (l_diag l) (sm_set (l_gravity l) k b).

(** relative && differential: differential wins (1195-1202 and the like) *)
Definition use_relative (differential relative : bool) : bool :=
  if (relative && differential)%bool then false else relative.

(** 1257-1283, 1413-1433, 1715-1727: counting of pose inputs *)
Definition count_pose (differential : bool) (to_twist to_pose : list (nat * nat)) (v : list bool) (l : loading)
    : outcome loading :=
  if differential then t <- add_counts (l_twist l) v to_twist;; Ok (with_counts l (l_abs l) t)
  else a <- add_counts (l_abs l) v to_pose;; Ok (with_counts l a (l_twist l)).
Definition count_twist (to_twist : list (nat * nat)) (v : list bool) (l : loading) : outcome loading :=
  t <- add_counts (l_twist l) v to_twist;; Ok (with_counts l (l_abs l) t).

(** 1163-1321 *)
Definition load_odom (i : nat) (p : odom_par) (l : loading) : outcome loading :=
  let name := numbered "odom" i in
  let relative := use_relative (op_differential p) (op_relative p) in
  let update_vec := loadUpdateConfig (op_config p) in
  pose_vec <- fill_false update_vec POSITION_V_OFFSET TWIST_SIZE;;
  twist_vec <- fill_false update_vec POSITION_OFFSET POSE_SIZE;;
  let pose_sum := accumulate pose_vec in
  let twist_sum := accumulate twist_vec in
  let l1 :=
    if Z.gtb (pose_sum + twist_sum) 0 then
      with_sub l (SubOdom name
        (mkCb (name ++ "_pose") pose_vec pose_sum (op_differential p) relative (op_child p) (op_pose_thresh p))
        (mkCb (name ++ "_twist") twist_vec twist_sum false false false (op_twist_thresh p)))
    else with_ldiag l (mkCall DIAG_WARN (op_topic p ++ "_configuration")
           "is listed as an input topic, but all update variables are false" true) in
  l2 <- (if Z.gtb pose_sum 0 then count_pose (op_differential p) pose_to_twist pose_to_pose pose_vec l1 else Ok l1);;
  if Z.gtb twist_sum 0 then count_twist odom_twist twist_vec l2 else Ok l2.

(** 1323-1439 *)
Definition load_pose (i : nat) (p : pose_par) (l : loading) : outcome loading :=
  let name := numbered "pose" i in
  let relative := use_relative (pp_differential p) (pp_relative p) in
  v1 <- fill_false (loadUpdateConfig (pp_config p)) POSITION_V_OFFSET TWIST_SIZE;;
  pose_vec <- fill_false v1 POSITION_A_OFFSET ACCELERATION_SIZE;;
  let pose_sum := accumulate pose_vec in
  if Z.gtb pose_sum 0 then
    count_pose (pp_differential p) pose_to_twist pose_to_pose pose_vec
      (with_sub l (SubPose (mkCb name pose_vec pose_sum (pp_differential p) relative false (pp_thresh p))))
  else Ok l.

(** 1441-1519 *)
Definition load_twist (i : nat) (p : twist_par) (l : loading) : outcome loading :=
  let name := numbered "twist" i in
  twist_vec <- fill_false (loadUpdateConfig (tp_config p)) POSITION_OFFSET POSE_SIZE;;
  let twist_sum := accumulate twist_vec in
  if Z.gtb twist_sum 0 then
    count_twist twist_twist twist_vec
      (with_sub l (SubTwist (mkCb name twist_vec twist_sum false false false (tp_thresh p))))
  else Ok l.

(** 1657-1683: one of the three control axes *)
Fixpoint set_at (v : list bool) (i : nat) (b : bool) : list bool :=
  match v, i with
  | [], _ => []
  | _ :: r, O => b :: r
  | x :: r, Datatypes.S j => x :: set_at r j b
  end.
Definition drop_control (axis member : nat) (accel_vec : list bool) (control : list bool) : outcome (list bool) :=
  c <- at_flag control axis;;
  if (c : bool) then a <- at_flag accel_vec member;; Ok (if (a : bool) then set_at control axis false else control)
  else Ok control.

(** 1521-1755.  The warnings about position and velocity entries (1596-1621)
    read entries 0-2 and 6-8, which the fills below require anyway. *)
Definition load_imu (i : nat) (p : imu_par) (l : loading) : outcome loading :=
  let name := numbered "imu" i in
  let relative := use_relative (ip_differential p) (ip_relative p) in
  let l0 := with_gravity l (name ++ "_acceleration") (ip_remove_gravity p) in
  let update_vec := loadUpdateConfig (ip_config p) in
  a1 <- fill_false update_vec POSITION_OFFSET POSITION_SIZE;;
  a2 <- fill_false a1 POSITION_V_OFFSET TWIST_SIZE;;
  pose_vec <- fill_false a2 POSITION_A_OFFSET ACCELERATION_SIZE;;
  b1 <- fill_false update_vec POSITION_OFFSET POSE_SIZE;;
  b2 <- fill_false b1 POSITION_V_OFFSET 3;;
  twist_vec <- fill_false b2 POSITION_A_OFFSET ACCELERATION_SIZE;;
  c1 <- fill_false update_vec POSITION_OFFSET POSE_SIZE;;
  accel_vec <- fill_false c1 POSITION_V_OFFSET TWIST_SIZE;;
  let pose_sum := accumulate pose_vec in
  let twist_sum := accumulate twist_vec in
  let accel_sum := accumulate accel_vec in
  d1 <- drop_control ControlMemberVx StateMemberAx accel_vec (l_control l0);;
  d2 <- drop_control ControlMemberVy StateMemberAy accel_vec d1;;
  d3 <- drop_control ControlMemberVz StateMemberAz accel_vec d2;;
  let l1 := with_control l0 d3 in
  let l2 :=
    if Z.gtb (pose_sum + twist_sum + accel_sum) 0 then
      with_sub l1 (SubImu name
        (mkCb (name ++ "_pose") pose_vec pose_sum (ip_differential p) relative false (ip_pose_thresh p))
        (mkCb (name ++ "_twist") twist_vec twist_sum (ip_differential p) relative false (ip_twist_thresh p))
        (mkCb (name ++ "_acceleration") accel_vec accel_sum (ip_differential p) relative false (ip_accel_thresh p)))
    else l1 in
  l3 <- (if Z.gtb pose_sum 0 then count_pose (ip_differential p) imu_pose_twist imu_pose_pose pose_vec l2 else Ok l2);;
  if Z.gtb twist_sum 0 then count_twist imu_twist twist_vec l3 else Ok l3.

(** The do-while loops over the numbered inputs. *)
Fixpoint load_all {P : Type} (load : nat -> P -> loading -> outcome loading) (i : nat) (ps : list P) (l : loading)
    : outcome loading :=
  match ps with
  | [] => Ok l
  | p :: r => l1 <- load i p l;; load_all load (Datatypes.S i) r l1
  end.

(** 964-1071.  [use] is use_control_; the vectors are control_update_vector,
    acceleration_limits, acceleration_gains, deceleration_limits and
    deceleration_gains. *)
Record control_par : Type := mkControlPar {
  cp_use : bool; cp_config : list bool;
  cp_acc_limits : list K; cp_acc_gains : list K; cp_dec_limits : list K; cp_dec_gains : list K }.
Definition six {A : Type} (l : list A) : bool := Nat.eqb (List.length l) TWIST_SIZE.
Definition ones : list K := repeat (1 : K) TWIST_SIZE.
Definition gains (l : list K) : list K := if six l then l else ones.
Definition given_six {A : Type} (o : option (list A)) (absent : bool) : bool :=
  match o with Some v => six v | None => absent end.
Definition load_control (p : params) : control_par :=
  if p_use_control p then
    let config := match p_control_config p with Some v => v | None => [] end in
    let acc_limits := match p_acc_limits p with Some v => v | None => ones end in
    let acc_gains := match p_acc_gains p with Some v => gains v | None => [] end in
    let dec_limits := match p_dec_limits p with Some v => v | None => acc_limits end in
    let dec_gains := match p_dec_gains p with Some v => gains v | None => acc_gains end in
    mkControlPar
      (given_six (p_control_config p) false && given_six (p_acc_limits p) true && given_six (p_dec_limits p) true)%bool
      config acc_limits acc_gains dec_limits dec_gains
  else mkControlPar false (repeat false TWIST_SIZE) ones ones ones ones.

(** 1793-1837 *)
Definition unmeasured (two_d : bool) (t : nat -> Z) (var : nat) : bool :=
  (Z.eqb (t (var + POSITION_V_OFFSET)%nat) 0 &&
   (negb (Nat.leb StateMemberZ var && Nat.leb var StateMemberPitch) || negb two_d))%bool.
Definition check_var (two_d : bool) (a t : nat -> Z) (d : diag) (var : nat) : diag :=
  if Z.gtb (a var) 1 then
    addDiagnostic d (mkCall DIAG_WARN (pose_var_name var ++ "_configuration")
      "absolute pose inputs detected. This may result in oscillations." true)
  else if (Z.eqb (a var) 0 && unmeasured two_d t var)%bool then
    addDiagnostic d (mkCall DIAG_ERROR (pose_var_name var ++ "_configuration")
      "Neither the variable nor its velocity is being measured." true)
  else d.
Definition check_vars (p : params) (a t : nat -> Z) (d : diag) : diag :=
  if p_print_diag p then fold_left (check_var (p_two_d p) a t) (seq 0 6) d else d.

(** 1839-1863: load_covariance.  [covariance] has 15 x 15 entries whatever the
    length of the parameter, so the second test always succeeds and the throw
    is unreachable; Map reads 225 entries, column by column.  [None] is the
    return value false (the matrix is then zero). *)
Definition load_covariance (par : option (list K)) : outcome (option (mat K)) :=
  match par with
  | None => Ok None
  | Some v =>
      if Nat.eqb (List.length v) STATE_SIZE then
        Ok (Some (fun i j => if Nat.eqb i j then nth i v 0 else 0))
      else if Nat.leb 225 (List.length v) then
        Ok (Some (fun i j => nth (i + STATE_SIZE * j)%nat v 0))
      else Undefined
  end.
Definition or_zero (o : option (mat K)) : mat K := match o with Some m => m | None => mzero end.

(** What loadParams leaves behind. *)
Record loaded : Type := mkLoaded {
  ld_config : config K;
  ld_filter : fb K E;
  ld_diag : diag;
  ld_subs : list subscription;
  ld_gravity_flags : smap bool;      (* remove_gravitational_acceleration_ *)
  ld_gravity : K;                    (* gravitational_acceleration_ *)
  ld_two_d : bool;                   (* two_d_mode_ *)
  ld_tf_timeout : Z;                 (* tf_timeout_ *)
  ld_enabled : bool                  (* enabled_ *)
}.

Definition when {A : Type} (o : option A) (f : fb K E) (set : fb K E -> A -> fb K E) : fb K E :=
  match o with Some a => set f a | None => f end.

(** 794-1874.  [f] is the constructed filter, [now] the clock reading of line
    1161, [period] the diagnostic updater's period.  The filter's setters
    commute except where the order below keeps the source's. *)
Definition loadParams (p : params) (period now : Z) (f : fb K E) : outcome loaded :=
  let prefixed := fun s => match p_tf_prefix p with Some _ => appendPrefix "" s | None => s end in
  let base_out := match p_base_out p with Some s => s | None => p_base p end in
  let world := match p_world p with Some s => s | None => p_odom p end in
  let sensor_timeout :=
    dur_from_seconds (match p_sensor_timeout p with Some s => s | None => 1 / p_frequency p end) in
  let cp := load_control p in
  let f1 := setUseDynamicProcessNoiseCovariance (setSensorTimeout f sensor_timeout) (p_dynamic_noise p) in
  let f2 := match p_initial_state p with
            | Some v => if Nat.eqb (List.length v) STATE_SIZE then setState f1 (fun i => nth i v 0) else f1
            | None => f1
            end in
  let f3 := setLastMeasurementTime f2 now in
  l1 <- load_all load_odom 0 (p_odoms p) (mkLoading [] (fun _ => 0%Z) (fun _ => 0%Z) (cp_config cp) diag_init []);;
  l2 <- load_all load_pose 0 (p_poses p) l1;;
  l3 <- load_all load_twist 0 (p_twists p) l2;;
  l4 <- load_all load_imu 0 (p_imus p) l3;;
  let use_control := (cp_use cp && negb (Z.eqb (accumulate (l_control l4)) 0))%bool in
  let f4 := if use_control
            then setControlParams f3 (l_control l4) (dur_from_seconds (p_control_timeout p))
                   (cp_acc_limits cp) (cp_acc_gains cp) (cp_dec_limits cp) (cp_dec_gains cp)
            else f3 in
  let d := check_vars p (l_abs l4) (l_twist l4) (l_diag l4) in
  Q <- load_covariance (p_Q p);;
  P <- load_covariance (p_P p);;
  let f5 := when Q f4 setProcessNoiseCovariance in
  let f6 := when P f5 setEstimateErrorCovariance in
  Ok (mkLoaded
    (mkConfig (p_smooth p) (p_predict_now p) use_control (p_permit p) (p_publish_tf p) (p_publish_acc p)
       (p_print_diag p) (dur_from_seconds (s_abs (p_history p))) sensor_timeout (dur_from_seconds (p_tf_offset p))
       period (or_zero Q) (or_zero P) (prefixed world) (prefixed (p_map p)) (prefixed (p_odom p))
       (prefixed (p_base p)) (prefixed base_out))
    f6 d (l_subs l4) (l_gravity l4) (p_gravity p) (p_two_d p) (dur_from_seconds (p_tf_timeout p))
    (negb (p_disabled p))).

(** ros_filter.cpp 2039-2092: the node after initialize.  [ang] holds the
    uninitialised members, except that line 1754-1755 zeroes the covariance;
    latest_control_ is zero when control is used and empty otherwise. *)
Definition start (p : params) (period now later : Z) (f : fb K E) (ang : angular K) (nothing : vec K)
    : outcome (loaded * node K E) :=
  ld <- loadParams p period now f;;
  let n := node_init (ld_filter ld)
             (mkAng (a_acc ang) mzero (a_last_twist ang) (a_last_time ang))
             (if c_use_control (ld_config ld) then vzero else nothing)
             (p_disabled p) later in
  Ok (ld, with_diag n (ld_diag ld)).

End RosConfig.

Arguments callback_data K : clear implicits.
Arguments subscription K : clear implicits.
Arguments odom_par K : clear implicits.
Arguments pose_par K : clear implicits.
Arguments twist_par K : clear implicits.
Arguments imu_par K : clear implicits.
Arguments params K : clear implicits.
Arguments loading K : clear implicits.
Arguments control_par K : clear implicits.
Arguments loaded K E : clear implicits.
