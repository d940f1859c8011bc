(** * FilterBase: state and operations shared by EKF and UKF

    Models src/filter_base.cpp and include/robot_localization/filter_base.hpp,
    measurement.hpp, filter_common.hpp.  Debug output (FB_DEBUG, setDebug) is
    not modelled. *)

From Coq Require Import ZArith Bool String List Arith.
From Verif Require Import Scalar Mat.
Import ListNotations.

(** filter_common.hpp 41-58 and 63-71 *)
Notation StateMemberX := 0%nat (only parsing).
Notation StateMemberY := 1%nat (only parsing).
Notation StateMemberZ := 2%nat (only parsing).
Notation StateMemberRoll := 3%nat (only parsing).
Notation StateMemberPitch := 4%nat (only parsing).
Notation StateMemberYaw := 5%nat (only parsing).
Notation StateMemberVx := 6%nat (only parsing).
Notation StateMemberVy := 7%nat (only parsing).
Notation StateMemberVz := 8%nat (only parsing).
Notation StateMemberVroll := 9%nat (only parsing).
Notation StateMemberVpitch := 10%nat (only parsing).
Notation StateMemberVyaw := 11%nat (only parsing).
Notation StateMemberAx := 12%nat (only parsing).
Notation StateMemberAy := 13%nat (only parsing).
Notation StateMemberAz := 14%nat (only parsing).
Notation ControlMemberVx := 0%nat (only parsing).
Notation ControlMemberVy := 1%nat (only parsing).
Notation ControlMemberVz := 2%nat (only parsing).
Notation ControlMemberVroll := 3%nat (only parsing).
Notation ControlMemberVpitch := 4%nat (only parsing).
Notation ControlMemberVyaw := 5%nat (only parsing).
(** filter_common.hpp 78-93 *)
Notation STATE_SIZE := 15%nat (only parsing).
Notation POSITION_OFFSET := 0%nat (only parsing).
Notation ORIENTATION_OFFSET := 3%nat (only parsing).
Notation POSITION_V_OFFSET := 6%nat (only parsing).
Notation ORIENTATION_V_OFFSET := 9%nat (only parsing).
Notation POSITION_A_OFFSET := 12%nat (only parsing).
Notation POSE_SIZE := 6%nat (only parsing).
Notation TWIST_SIZE := 6%nat (only parsing).
Notation POSITION_SIZE := 3%nat (only parsing).
Notation ORIENTATION_SIZE := 3%nat (only parsing).
Notation ACCELERATION_SIZE := 3%nat (only parsing).

Section FilterBase.
Context {K : Scalar}.
Local Open Scope sc_scope.

(** measurement.hpp 56-102.  [time_], [latest_control_time_] in nanoseconds. *)
Record meas : Type := mkMeas {
  m_topic : string;          (* topic_name_ *)
  m_time : Z;                (* time_ *)
  m_value : vec K;           (* measurement_ *)
  m_cov : mat K;             (* covariance_ *)
  m_upd : list bool;         (* update_vector_ *)
  m_thresh : K;              (* mahalanobis_thresh_ *)
  m_control : vec K;         (* latest_control_ *)
  m_control_time : Z         (* latest_control_time_ *)
}.

(** measurement.hpp 98-101: operator(), "a has lower priority than b". *)
Definition meas_later (a b : meas) : bool := Z.gtb (m_time a) (m_time b).

(** filter_utilities.hpp 85-98: nanosecToSec, toSec(Duration), toSec(Time). *)
Definition nanosecToSec (ns : Z) : K := s_ofZ ns * lit 1 9.
Definition toSec (ns : Z) : K := nanosecToSec ns.

(** rclcpp::Duration::seconds() (external): nanoseconds divided by 1e9. *)
Definition dur_seconds (ns : Z) : K := s_ofZ ns / s_ofZ 1000000000.

(** rclcpp::Duration::from_seconds(double) (external): truncation to ns. *)
Definition dur_from_seconds (s : K) : Z := s_trunc (s * s_ofZ 1000000000).

(** angles::normalize_angle (external package "angles"):
    r = fmod(a + pi, 2 pi); r <= 0 ? r + pi : r - pi. *)
Definition normalize_angle (a : K) : K :=
  let r := s_fmod (a + s_pi) (2 * s_pi) in
  if s_leb r 0 then r + s_pi else r - s_pi.

Definition is_angle (i : nat) : bool :=
  Nat.eqb i StateMemberRoll || Nat.eqb i StateMemberPitch || Nat.eqb i StateMemberYaw.

Section WithExt.
Context {E : Type}.

(** filter_base.hpp 327-480.  [covariance_epsilon_] (never read) and
    [identity_] (constant) are omitted. *)
Record fb : Type := mkFb {
  fb_initialized : bool;  (* initialized_ *)
  fb_use_control : bool;  (* use_control_ *)
  fb_use_dyn : bool;  (* use_dynamic_process_noise_covariance_ *)
  fb_control_timeout : Z;  (* control_timeout_ (ns) *)
  fb_last_time : Z;  (* last_measurement_time_ (ns) *)
  fb_control_time : Z;  (* latest_control_time_ (ns) *)
  fb_sensor_timeout : Z;  (* sensor_timeout_ (ns) *)
  fb_acc_gains : list K;  (* acceleration_gains_ *)
  fb_acc_limits : list K;  (* acceleration_limits_ *)
  fb_dec_gains : list K;  (* deceleration_gains_ *)
  fb_dec_limits : list K;  (* deceleration_limits_ *)
  fb_control_upd : list bool;  (* control_update_vector_ *)
  fb_control_acc : vec K;  (* control_acceleration_ *)
  fb_control : vec K;  (* latest_control_ *)
  fb_predicted : vec K;  (* predicted_state_ *)
  fb_state : vec K;  (* state_ *)
  fb_dynQ : mat K;  (* dynamic_process_noise_covariance_ *)
  fb_P : mat K;  (* estimate_error_covariance_ *)
  fb_Q : mat K;  (* process_noise_covariance_ *)
  fb_F : mat K;  (* transfer_function_ *)
  fb_J : mat K;  (* transfer_function_jacobian_ *)
  fb_ext : E   (* members of the subclass *)
}.

Definition set_initialized (s : fb) (x : bool) : fb :=
  mkFb x (fb_use_control s) (fb_use_dyn s) (fb_control_timeout s) (fb_last_time s) (fb_control_time s) (fb_sensor_timeout s) (fb_acc_gains s)
    (fb_acc_limits s) (fb_dec_gains s) (fb_dec_limits s) (fb_control_upd s) (fb_control_acc s) (fb_control s) (fb_predicted s) (fb_state s)
    (fb_dynQ s) (fb_P s) (fb_Q s) (fb_F s) (fb_J s) (fb_ext s).
Definition set_use_dyn (s : fb) (x : bool) : fb :=
  mkFb (fb_initialized s) (fb_use_control s) x (fb_control_timeout s) (fb_last_time s) (fb_control_time s) (fb_sensor_timeout s) (fb_acc_gains s)
    (fb_acc_limits s) (fb_dec_gains s) (fb_dec_limits s) (fb_control_upd s) (fb_control_acc s) (fb_control s) (fb_predicted s) (fb_state s)
    (fb_dynQ s) (fb_P s) (fb_Q s) (fb_F s) (fb_J s) (fb_ext s).
Definition set_last_time (s : fb) (x : Z) : fb :=
  mkFb (fb_initialized s) (fb_use_control s) (fb_use_dyn s) (fb_control_timeout s) x (fb_control_time s) (fb_sensor_timeout s) (fb_acc_gains s)
    (fb_acc_limits s) (fb_dec_gains s) (fb_dec_limits s) (fb_control_upd s) (fb_control_acc s) (fb_control s) (fb_predicted s) (fb_state s)
    (fb_dynQ s) (fb_P s) (fb_Q s) (fb_F s) (fb_J s) (fb_ext s).
Definition set_control_time (s : fb) (x : Z) : fb :=
  mkFb (fb_initialized s) (fb_use_control s) (fb_use_dyn s) (fb_control_timeout s) (fb_last_time s) x (fb_sensor_timeout s) (fb_acc_gains s)
    (fb_acc_limits s) (fb_dec_gains s) (fb_dec_limits s) (fb_control_upd s) (fb_control_acc s) (fb_control s) (fb_predicted s) (fb_state s)
    (fb_dynQ s) (fb_P s) (fb_Q s) (fb_F s) (fb_J s) (fb_ext s).
Definition set_sensor_timeout (s : fb) (x : Z) : fb :=
  mkFb (fb_initialized s) (fb_use_control s) (fb_use_dyn s) (fb_control_timeout s) (fb_last_time s) (fb_control_time s) x (fb_acc_gains s)
    (fb_acc_limits s) (fb_dec_gains s) (fb_dec_limits s) (fb_control_upd s) (fb_control_acc s) (fb_control s) (fb_predicted s) (fb_state s)
    (fb_dynQ s) (fb_P s) (fb_Q s) (fb_F s) (fb_J s) (fb_ext s).
Definition set_control_acc (s : fb) (x : vec K) : fb :=
  mkFb (fb_initialized s) (fb_use_control s) (fb_use_dyn s) (fb_control_timeout s) (fb_last_time s) (fb_control_time s) (fb_sensor_timeout s) (fb_acc_gains s)
    (fb_acc_limits s) (fb_dec_gains s) (fb_dec_limits s) (fb_control_upd s) x (fb_control s) (fb_predicted s) (fb_state s)
    (fb_dynQ s) (fb_P s) (fb_Q s) (fb_F s) (fb_J s) (fb_ext s).
Definition set_control (s : fb) (x : vec K) : fb :=
  mkFb (fb_initialized s) (fb_use_control s) (fb_use_dyn s) (fb_control_timeout s) (fb_last_time s) (fb_control_time s) (fb_sensor_timeout s) (fb_acc_gains s)
    (fb_acc_limits s) (fb_dec_gains s) (fb_dec_limits s) (fb_control_upd s) (fb_control_acc s) x (fb_predicted s) (fb_state s)
    (fb_dynQ s) (fb_P s) (fb_Q s) (fb_F s) (fb_J s) (fb_ext s).
Definition set_predicted (s : fb) (x : vec K) : fb :=
  mkFb (fb_initialized s) (fb_use_control s) (fb_use_dyn s) (fb_control_timeout s) (fb_last_time s) (fb_control_time s) (fb_sensor_timeout s) (fb_acc_gains s)
    (fb_acc_limits s) (fb_dec_gains s) (fb_dec_limits s) (fb_control_upd s) (fb_control_acc s) (fb_control s) x (fb_state s)
    (fb_dynQ s) (fb_P s) (fb_Q s) (fb_F s) (fb_J s) (fb_ext s).
Definition set_state (s : fb) (x : vec K) : fb :=
  mkFb (fb_initialized s) (fb_use_control s) (fb_use_dyn s) (fb_control_timeout s) (fb_last_time s) (fb_control_time s) (fb_sensor_timeout s) (fb_acc_gains s)
    (fb_acc_limits s) (fb_dec_gains s) (fb_dec_limits s) (fb_control_upd s) (fb_control_acc s) (fb_control s) (fb_predicted s) x
    (fb_dynQ s) (fb_P s) (fb_Q s) (fb_F s) (fb_J s) (fb_ext s).
Definition set_dynQ (s : fb) (x : mat K) : fb :=
  mkFb (fb_initialized s) (fb_use_control s) (fb_use_dyn s) (fb_control_timeout s) (fb_last_time s) (fb_control_time s) (fb_sensor_timeout s) (fb_acc_gains s)
    (fb_acc_limits s) (fb_dec_gains s) (fb_dec_limits s) (fb_control_upd s) (fb_control_acc s) (fb_control s) (fb_predicted s) (fb_state s)
    x (fb_P s) (fb_Q s) (fb_F s) (fb_J s) (fb_ext s).
Definition set_P (s : fb) (x : mat K) : fb :=
  mkFb (fb_initialized s) (fb_use_control s) (fb_use_dyn s) (fb_control_timeout s) (fb_last_time s) (fb_control_time s) (fb_sensor_timeout s) (fb_acc_gains s)
    (fb_acc_limits s) (fb_dec_gains s) (fb_dec_limits s) (fb_control_upd s) (fb_control_acc s) (fb_control s) (fb_predicted s) (fb_state s)
    (fb_dynQ s) x (fb_Q s) (fb_F s) (fb_J s) (fb_ext s).
Definition set_Q (s : fb) (x : mat K) : fb :=
  mkFb (fb_initialized s) (fb_use_control s) (fb_use_dyn s) (fb_control_timeout s) (fb_last_time s) (fb_control_time s) (fb_sensor_timeout s) (fb_acc_gains s)
    (fb_acc_limits s) (fb_dec_gains s) (fb_dec_limits s) (fb_control_upd s) (fb_control_acc s) (fb_control s) (fb_predicted s) (fb_state s)
    (fb_dynQ s) (fb_P s) x (fb_F s) (fb_J s) (fb_ext s).
Definition set_F (s : fb) (x : mat K) : fb :=
  mkFb (fb_initialized s) (fb_use_control s) (fb_use_dyn s) (fb_control_timeout s) (fb_last_time s) (fb_control_time s) (fb_sensor_timeout s) (fb_acc_gains s)
    (fb_acc_limits s) (fb_dec_gains s) (fb_dec_limits s) (fb_control_upd s) (fb_control_acc s) (fb_control s) (fb_predicted s) (fb_state s)
    (fb_dynQ s) (fb_P s) (fb_Q s) x (fb_J s) (fb_ext s).
Definition set_J (s : fb) (x : mat K) : fb :=
  mkFb (fb_initialized s) (fb_use_control s) (fb_use_dyn s) (fb_control_timeout s) (fb_last_time s) (fb_control_time s) (fb_sensor_timeout s) (fb_acc_gains s)
    (fb_acc_limits s) (fb_dec_gains s) (fb_dec_limits s) (fb_control_upd s) (fb_control_acc s) (fb_control s) (fb_predicted s) (fb_state s)
    (fb_dynQ s) (fb_P s) (fb_Q s) (fb_F s) x (fb_ext s).
Definition set_ext (s : fb) (x : E) : fb :=
  mkFb (fb_initialized s) (fb_use_control s) (fb_use_dyn s) (fb_control_timeout s) (fb_last_time s) (fb_control_time s) (fb_sensor_timeout s) (fb_acc_gains s)
    (fb_acc_limits s) (fb_dec_gains s) (fb_dec_limits s) (fb_control_upd s) (fb_control_acc s) (fb_control s) (fb_predicted s) (fb_state s)
    (fb_dynQ s) (fb_P s) (fb_Q s) (fb_F s) (fb_J s) x.

(** filter_base.cpp 72-128: reset().  Members not assigned there are kept:
    control inputs and parameters, use_dynamic..., subclass members. *)
Definition default_Q : mat K :=
  fun i j =>
    if negb (Nat.eqb i j) then 0 else
    nth i [lit 5 2; lit 5 2; lit 6 2; lit 3 2; lit 3 2; lit 6 2;
           lit 25 3; lit 25 3; lit 4 2; lit 1 2; lit 1 2; lit 2 2;
           lit 1 2; lit 1 2; lit 15 3] 0.

Definition fb_reset (s : fb) : fb :=
  mkFb false (fb_use_control s) (fb_use_dyn s) (fb_control_timeout s)
    0%Z (fb_control_time s) 33333333%Z
    (fb_acc_gains s) (fb_acc_limits s) (fb_dec_gains s) (fb_dec_limits s)
    (fb_control_upd s) vzero (fb_control s) vzero vzero
    default_Q (mscale (lit 1 9) meye) default_Q meye mzero (fb_ext s).

(** filter_base.cpp 48-68: constructor.  [latest_control_] is allocated but not
    initialised by the code; its content is the argument [garbage]. *)
Definition fb_init (garbage : vec K) (e : E) : fb :=
  fb_reset
    (mkFb false false false 0%Z 0%Z 0%Z 0%Z
       (repeat (0 : K) TWIST_SIZE) (repeat (0 : K) TWIST_SIZE)
       (repeat (0 : K) TWIST_SIZE) (repeat (0 : K) TWIST_SIZE)
       (repeat false TWIST_SIZE) garbage garbage garbage garbage
       mzero mzero mzero mzero mzero e).

(** filter_base.cpp 130-155.  [norm()] is sqrt of the sum of squares; the
    diagonal velocity matrix products are the literal matrix products. *)
Definition velocity_norm (x : vec K) : K :=
  s_sqrt (sumn TWIST_SIZE (fun i => x (POSITION_V_OFFSET + i)%nat * x (POSITION_V_OFFSET + i)%nat)).

Definition velocity_matrix (x : vec K) : mat K :=
  fun i j => if Nat.eqb i j then meye i j * velocity_norm x else meye i j.

Definition computeDynamicProcessNoiseCovariance (s : fb) (x : vec K) : fb :=
  let V := velocity_matrix x in
  let blk := mmul TWIST_SIZE (mmul TWIST_SIZE V (fb_Q s)) (mT V) in
  set_dynQ s (fun i j =>
    if (Nat.ltb i TWIST_SIZE && Nat.ltb j TWIST_SIZE)%bool then blk i j else fb_dynQ s i j).

(** filter_base.cpp 267-273 *)
Definition setControl (s : fb) (control : vec K) (control_time : Z) : fb :=
  set_control_time (set_control s control) control_time.

(** filter_base.cpp 275-290 *)
Definition setControlParams (s : fb) (upd : list bool) (timeout : Z)
    (acc_limits acc_gains dec_limits dec_gains : list K) : fb :=
  mkFb (fb_initialized s) true (fb_use_dyn s) timeout (fb_last_time s)
    (fb_control_time s) (fb_sensor_timeout s) acc_gains acc_limits dec_gains dec_limits
    upd (fb_control_acc s) (fb_control s) (fb_predicted s) (fb_state s)
    (fb_dynQ s) (fb_P s) (fb_Q s) (fb_F s) (fb_J s) (fb_ext s).

(** filter_base.cpp 306-336: plain setters *)
Definition setUseDynamicProcessNoiseCovariance (s : fb) (b : bool) : fb := set_use_dyn s b.
Definition setEstimateErrorCovariance (s : fb) (P : mat K) : fb := set_P s P.
Definition setLastMeasurementTime (s : fb) (t : Z) : fb := set_last_time s t.
Definition setProcessNoiseCovariance (s : fb) (Q : mat K) : fb := set_dynQ (set_Q s Q) Q.
Definition setSensorTimeout (s : fb) (d : Z) : fb := set_sensor_timeout s d.
Definition setState (s : fb) (x : vec K) : fb := set_state s x.

(** filter_base.cpp 383-420 *)
Definition computeControlAcceleration (state control acceleration_limit acceleration_gain
    deceleration_limit deceleration_gain : K) : K :=
  let error := control - state in
  let same_sign := s_leb (s_abs error) (s_abs control + lit 1 2) in
  let set_point := if same_sign then control else 0 in
  let decelerating := s_ltb (s_abs set_point) (s_abs state) in
  let limit := if decelerating then deceleration_limit else acceleration_limit in
  let gain := if decelerating then deceleration_gain else acceleration_gain in
  s_min (s_max (gain * error) (- limit)) limit.

(** filter_base.cpp 360-361 *)
Definition control_timed_out (s : fb) (reference_time : Z) : bool :=
  Z.geb (reference_time - fb_control_time s) (fb_control_timeout s).

(** filter_base.cpp 353-381; the loop over the six control axes is written
    pointwise. *)
Definition prepareControl (s : fb) (reference_time : Z) : fb :=
  set_control_acc s (fun i =>
    if (fb_use_control s && Nat.ltb i TWIST_SIZE && flag (fb_control_upd s) i)%bool
    then computeControlAcceleration
           (fb_state s (i + POSITION_V_OFFSET)%nat)
           (if control_timed_out s reference_time then 0 else fb_control s i)
           (nth i (fb_acc_limits s) 0) (nth i (fb_acc_gains s) 0)
           (nth i (fb_dec_limits s) 0) (nth i (fb_dec_gains s) 0)
    else 0).

(** Accesses of prepareControl (filter_base.cpp 371-378) and of Ekf::predict
    (ekf.cpp 410-418) are inside the vectors' bounds.  When this is [false]
    the C++ code reads out of range (undefined behaviour). *)
Definition control_access_ok (s : fb) : bool :=
  (Nat.leb (if fb_use_control s then TWIST_SIZE else 3) (length (fb_control_upd s)) &&
   (negb (fb_use_control s) ||
    forallb (fun i => negb (flag (fb_control_upd s) i) ||
       (Nat.ltb i (length (fb_acc_limits s)) && Nat.ltb i (length (fb_acc_gains s)) &&
        Nat.ltb i (length (fb_dec_limits s)) && Nat.ltb i (length (fb_dec_gains s))))
      (seq 0 TWIST_SIZE)))%bool.

(** filter_base.cpp 422-427 *)
Definition wrap_angles (x : vec K) : vec K :=
  let x1 := vset x StateMemberRoll (normalize_angle (x StateMemberRoll)) in
  let x2 := vset x1 StateMemberPitch (normalize_angle (x1 StateMemberPitch)) in
  vset x2 StateMemberYaw (normalize_angle (x2 StateMemberYaw)).
Definition wrapStateAngles (s : fb) : fb := set_state s (wrap_angles (fb_state s)).

(** filter_base.cpp 429-449: [true] means accepted.  [n] is the size of the
    innovation. *)
Definition checkMahalanobisThreshold (n : nat) (innovation : vec K)
    (inv_cov : mat K) (n_sigmas : K) : bool :=
  let squared_mahalanobis := dot n innovation (mvmul n inv_cov innovation) in
  let threshold := n_sigmas * n_sigmas in
  negb (s_leb threshold squared_mahalanobis).

(** Virtual methods of the subclass. *)
Record vtbl : Type := mkVtbl {
  v_predict : fb -> Z -> Z -> fb;       (* predict(reference_time, delta) *)
  v_correct : fb -> meas -> fb          (* correct(measurement) *)
}.

(** filter_base.cpp 231-248: initialisation from the first measurement. *)
Definition init_from (s : fb) (m : meas) : fb :=
  let n := length (m_upd m) in
  let st := fun i => if (Nat.ltb i n && flag (m_upd m) i)%bool then m_value m i else fb_state s i in
  let P := fun i j =>
    if (Nat.ltb i n && Nat.ltb j n && (flag (m_upd m) i && flag (m_upd m) j))%bool
    then m_cov m i j else fb_P s i j in
  set_initialized (set_P (set_state s st) P) true.

(** filter_base.cpp 195-265.  [validateDelta] (338-351) is empty. *)
Definition processMeasurement (vt : vtbl) (s : fb) (m : meas) : fb :=
  if fb_initialized s then
    let delta := (m_time m - fb_last_time s)%Z in
    let s1 :=
      if Z.gtb delta 0 then
        let p := v_predict vt s (m_time m) delta in set_predicted p (fb_state p)
      else s in
    let s2 := v_correct vt s1 m in
    if Z.geb delta 0 then set_last_time s2 (m_time m) else s2
  else
    set_last_time (init_from s m) (m_time m).

End WithExt.
End FilterBase.

Arguments meas K : clear implicits.
Arguments fb K E : clear implicits.
Arguments vtbl K E : clear implicits.

(** Correction helpers shared (duplicated in the source) by ekf.cpp 77-160 and
    ukf.cpp 95-188. *)
Section Subset.
Context {K : Scalar}.
Local Open Scope sc_scope.

(** ekf.cpp 78-94 / ukf.cpp 96-112 *)
Definition update_indices (m : meas K) : list nat :=
  filter (fun i => flag (m_upd m) i && negb (s_isnan (m_value m i)) && negb (s_isinf (m_value m i)))%bool
    (seq 0 (length (m_upd m))).

(** ekf.cpp 128-152 / ukf.cpp 156-180: diagonal repair. *)
Definition repair_variance (r : K) : K :=
  let a := if s_ltb r 0 then s_abs r else r in
  if s_ltb a (lit 1 9) then lit 1 9 else a.

(** ekf.cpp 116-153 / ukf.cpp 144-181.  The subsets have size [length idx];
    positions beyond it do not exist in the code and are zero here. *)
Definition meas_subset (idx : list nat) (m : meas K) : vec K :=
  fun i => if Nat.ltb i (length idx) then m_value m (nth i idx 0%nat) else 0.
Definition state_subset (idx : list nat) (x : vec K) : vec K :=
  fun i => if Nat.ltb i (length idx) then x (nth i idx 0%nat) else 0.
Definition cov_subset (idx : list nat) (m : meas K) : mat K :=
  fun i j => if (Nat.ltb i (length idx) && Nat.ltb j (length idx))%bool then
               let r := m_cov m (nth i idx 0%nat) (nth j idx 0%nat) in
               if Nat.eqb i j then repair_variance r else r
             else 0.

(** ekf.cpp 158-160 / ukf.cpp 186-188: H *)
Definition state_to_meas (idx : list nat) : mat K :=
  fun i k => if (Nat.ltb i (length idx) && Nat.eqb k (nth i idx 0%nat))%bool then 1 else 0.

(** ekf.cpp 181-188 / ukf.cpp 272-279 *)
Definition wrap_subset (idx : list nat) (v : vec K) : vec K :=
  fun i => if is_angle (nth i idx 0%nat) then normalize_angle (v i) else v i.

(** Reads [measurement_(i)] for a selected [i >= 15] are out of range. *)
Definition correct_access_ok (m : meas K) : bool :=
  forallb (fun i => negb (flag (m_upd m) i) || Nat.ltb i STATE_SIZE) (seq 0 (length (m_upd m))).
(** filter_base.cpp 233-246 reads and writes every index below the vector size. *)
Definition init_access_ok (m : meas K) : bool := Nat.leb (length (m_upd m)) STATE_SIZE.

End Subset.

(** Eigen routines used by the filters. *)
Record Eigen (K : Scalar) : Type := mkEigen {
  e_inv : nat -> mat K -> mat K;    (* A.inverse() for an n x n matrix *)
  e_llt : nat -> mat K -> mat K     (* A.llt().matrixL() *)
}.
Arguments mkEigen {K} _ _.
Arguments e_inv {K} _ _ _.
Arguments e_llt {K} _ _ _.
