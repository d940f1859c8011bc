(** * Vocabulary for the measurement properties (C41, C49-C57)

    Buffers, stamps, what a measurement carries, and the motion of a rigid
    body; none of the helper functions of RosPrepare.v is used. *)

From Coq Require Import ZArith List Bool String Arith Reals Sorted.
From Verif Require Import Scalar Mat Tf FilterBase StrMap RosFilter RosConfig RosPrepare SpecConfig SpecNode SpecLin SpecTf.
Import ListNotations.

Section SpecPrepare.
Context {K : Scalar} {E : Type}.

(** The transform that changes nothing. *)
Definition no_motion : trans K :=
  let o := s_ofZ 0 in let i := s_ofZ 1 in
  mkTrans (mkM3 (mkV3 i o o) (mkV3 o i o) (mkV3 o o i)) (mkV3 o o o).

(** The answer of a lookup: at the time asked for, else the latest, else the
    identity if the frames agree, else none. *)
Inductive answer (b : tf_buffer K) (target source : string) (asked : Z) : option (trans K) -> Prop :=
| at_time : forall t, b target source asked = Some t -> answer b target source asked (Some t)
| latest_one : forall t, b target source asked = None -> b target source 0%Z = Some t ->
    answer b target source asked (Some t)
| same_frame : b target source asked = None -> b target source 0%Z = None -> target = source ->
    answer b target source asked (Some no_motion)
| unavailable : b target source asked = None -> b target source 0%Z = None -> target <> source ->
    answer b target source asked None.

(** A message that a stream accepts: after the last reset, not before the
    previous message of the stream. *)
Definition fresh (n : node K E) (topic : string) (stamp : Z) : Prop :=
  (n_set_pose n < stamp)%Z /\
  forall t, sm_find (n_last_msg n) topic = Some t -> (t <= stamp)%Z.

(** Variables that two_d_mode overwrites; [kept] are the others. *)
Definition flattened (i : nat) : Prop := In i [2; 3; 4; 8; 9; 10; 14]%nat.
Definition kept (two_d : bool) (i : nat) : Prop := two_d = false \/ ~ flattened i.

(** The frame of a message, if it names one. *)
Definition frame_or (f default : string) : string := match f with EmptyString => default | _ => f end.

Definition angular_velocity (n : node K E) : vec3 K :=
  mkV3 (fb_state (n_filter n) 9%nat) (fb_state (n_filter n) 10%nat) (fb_state (n_filter n) 11%nat).
Definition part (v : vec K) (i : nat) : vec3 K := mkV3 (v i) (v (i + 1)%nat) (v (i + 2)%nat).

(** No measurement of the stream so far: neither first pose nor previous pose. *)
Definition unseen (n : node K E) (topic : string) : Prop :=
  sm_find (st_initial (n_streams n)) topic = None /\
  sm_find (st_previous (n_streams n)) topic = None.

(** What the node remembers of a stream: first pose, previous pose and its
    covariance, last stamp, and the stamp of the last set_pose. *)
Definition remembered (k : string) (s : streams K) :=
  (sm_find (st_initial s) k, sm_find (st_previous s) k, sm_find (st_prev_cov s) k).
Definition memory (k : string) (n : node K E) :=
  (remembered k (n_streams n), sm_find (n_last_msg n) k, n_set_pose n).

(** A covariance whose first entry declares the part absent (-1 within 1e-9). *)
Definition declared_absent (cov : nat -> K) : bool :=
  s_ltb (s_abs (s_add (cov 0%nat) (s_ofZ 1))) (lit 1 9).

End SpecPrepare.

Local Open Scope R_scope.

(** Stamps that fit the header (seconds are a 32-bit number). *)
Definition stamp_range (t : Z) : Prop := (0 <= t < 2147483648 * 1000000000)%Z.
(** tf2's conversions between seconds and time points lose nothing. *)
Definition exact_clock (e : penv RScalar) : Prop :=
  forall t, stamp_range t ->
    e_from_sec e (IZR t / 1000000000) = t /\ e_to_sec e t = IZR t / 1000000000.

(** A covariance array as a matrix. *)
Definition as_matrix (n : nat) (cov : nat -> R) : rmat := fun i j => cov (n * i + j)%nat.
(** The block of [A] at (o, o). *)
Definition block (o : nat) (A : rmat) : rmat := fun i j => A (o + i)%nat (o + j)%nat.

(** The body's x axis is not vertical. *)
Definition not_vertical (axis : V3) : Prop := - 1 < Z3 axis < 1.

(** ** Rigid-body motion *)
Definition derivative (f f' : R -> V3) : Prop :=
  forall t, derivable_pt_lim (fun s => X (f s)) t (X (f' t)) /\
            derivable_pt_lim (fun s => Y (f s)) t (Y (f' t)) /\
            derivable_pt_lim (fun s => Z3 (f s)) t (Z3 (f' t)).
(** [w] is the angular velocity, in body coordinates, of a body with attitude
    [Q]: points fixed to the body move by w x u. *)
Definition body_rates (Q : R -> M3) (w : R -> V3) : Prop :=
  forall u : V3, derivative (fun t => turn (Q t) u) (fun t => turn (Q t) (cross3 (w t) u)).

(** The two orientation angles and heading [a] describe the attitude [m]. *)
Definition describes (a : V3) (attitude : V3 -> V3) : Prop :=
  forall v, oriented (X a) (Y a) (Z3 a) v = attitude v.

(** The measured variables [o], [o]+1, [o]+2 are [x], except where two_d_mode
    overwrites them. *)
Definition measures (two_d : bool) (v : nat -> R) (o : nat) (x : V3) : Prop :=
  (kept two_d o -> v o = X x) /\ (kept two_d (o + 1) -> v (o + 1)%nat = Y x) /\ (kept two_d (o + 2) -> v (o + 2)%nat = Z3 x).
(** Block [o], [o]+n of the measurement covariance is [C]. *)
Definition measures_cov (two_d : bool) (A : rmat) (o n : nat) (C : rmat) : Prop :=
  forall i j, (i < n)%nat -> (j < n)%nat -> kept two_d (o + i) \/ i <> j -> A (o + i)%nat (o + j)%nat = C i j.
(** Nothing outside the variables [o] .. [o]+n-1 is measured. *)
Definition only (two_d : bool) (v : nat -> R) (A : rmat) (o n : nat) : Prop :=
  forall i j, (i < o \/ o + n <= i)%nat -> (kept two_d i -> v i = 0) /\
    (kept two_d i \/ i <> j -> A i j = 0 /\ A j i = 0).
Definition same_flags (two_d : bool) (u w : list bool) : Prop :=
  forall i, kept two_d i -> nth i u false = nth i w false.

(** ** Turned covariances *)
(** Six numbers made of two vectors, three made of one. *)
Definition both (a b : V3) : rvec := fun i => nth i [X a; Y a; Z3 a; X b; Y b; Z3 b] 0.
Definition one (a : V3) : rvec := fun i => nth i [X a; Y a; Z3 a] 0.
Definition bilinear (n : nat) (A : rmat) (x y : rvec) : R := rdot n x (rmv n A y).
(** [D] is the covariance [C] seen from axes turned by [r]: it weighs turned
    vectors as [C] weighs the originals. *)
Definition turned6 (r : M3) (C D : rmat) : Prop :=
  forall a b a' b', bilinear 6 D (both (turn r a) (turn r b)) (both (turn r a') (turn r b')) =
    bilinear 6 C (both a b) (both a' b').
Definition turned3 (r : M3) (C D : rmat) : Prop :=
  forall a b, bilinear 3 D (one (turn r a)) (one (turn r b)) = bilinear 3 C (one a) (one b).

(** ** Gravity *)
Definition up (g : R) : V3 := v3 0 0 g.
Definition at_rest {E : Type} (n : node RScalar E) : Prop :=
  angular_velocity n = v3 0 0 0 /\ a_acc (n_ang n) = v3 0 0 0.
(** The attitude of the IMU as the node knows it: from the message unless
    declared absent, then from the state and the mounting. *)
Inductive imu_attitude {E : Type} (n : node RScalar E) (msg : imu_msg RScalar) (mount : M3) : (V3 -> V3) -> Prop :=
| from_message : 1 / 1000000000 <= Rabs (im_ori_cov msg 0%nat + 1) -> unit_quat (im_orientation msg) ->
    imu_attitude n msg mount (spin (im_orientation msg))
| from_state : Rabs (im_ori_cov msg 0%nat + 1) < 1 / 1000000000 ->
    imu_attitude n msg mount (fun v => oriented (fb_state (n_filter n) 3%nat) (fb_state (n_filter n) 4%nat)
      (fb_state (n_filter n) 5%nat) (turn mount v)).

(** ** Executions with messages *)
Section Execution.
Context {K : Scalar} {E : Type}.

(** A message on a subscription, with the transforms known at that moment, or
    another event of the node. *)
Inductive input : Type :=
| Message (e : penv K) (s : subscription K) (m : sensor_msg K)
| Event (ev : event K E).
Definition deliver (pq : pqueue K) (vt : vtbl K E) (c : config K) (n : node K E) (i : input)
    : node K E * list (output K E) :=
  match i with
  | Message e s m => receive pq e c s m n
  | Event ev => node_step pq vt c n ev
  end.
Fixpoint respond (pq : pqueue K) (vt : vtbl K E) (c : config K) (n : node K E) (is : list input)
    : node K E * list (output K E) :=
  match is with
  | [] => (n, [])
  | i :: r =>
      let '(n1, o1) := deliver pq vt c n i in
      let '(n2, o2) := respond pq vt c n1 r in
      (n2, o1 ++ o2)
  end.

(** Events other than raw sensor events, resets and set_pose. *)
Definition ordinary (ev : event K E) : Prop :=
  match ev with EvSensor _ _ _ _ _ _ | EvReset | EvSetPose _ _ _ => False | _ => True end.
Definition foreign (topic : string) (i : input) : Prop :=
  match i with
  | Message _ s _ => ~ In topic (stream_names s)
  | Event ev => ordinary ev
  end.

(** The inputs of an execution seen from one pose stream. *)
Inductive stream_input : Type := Own (e : penv K) (p : pose_msg K) | Foreign (i : input).
Definition as_input (cd : callback_data K) (x : stream_input) : input :=
  match x with Own e p => Message e (SubPose cd) (MsgPose p) | Foreign i => i end.
Fixpoint own_of (l : list stream_input) : list (penv K * pose_msg K) :=
  match l with [] => [] | Own e p :: r => (e, p) :: own_of r | Foreign _ :: r => own_of r end.
Definition all_foreign (topic : string) (l : list stream_input) : Prop :=
  forall i, In (Foreign i) l -> foreign topic i.

(** The measurements queued for a stream. *)
Definition of_stream (topic : string) (os : list (output K E)) : list (meas K) :=
  filter (fun m => String.eqb (m_topic m) topic) (queued os).

(** Stamps that the stream accepts, strictly increasing. *)
Definition follows (n : node K E) (topic : string) (l : list (penv K * pose_msg K)) : Prop :=
  (forall x, In x l -> fresh n topic (ps_stamp (snd x))) /\
  StronglySorted (fun x y => (ps_stamp (snd x) < ps_stamp (snd y))%Z) l.

(** Looking up a frame from itself gives the identity or fails. *)
Definition self_known (e : penv K) : Prop :=
  forall f t, e_buffer e f f t = None \/ e_buffer e f f t = Some no_motion.
End Execution.

(** [ys] belong, one by one, to the consecutive pairs of [x :: xs]. *)
Fixpoint steps {A B : Type} (P : A -> A -> B -> Prop) (x : A) (xs : list A) (ys : list B) : Prop :=
  match xs, ys with
  | [], [] => True
  | x' :: xs', y :: ys' => P x x' y /\ steps P x' xs' ys'
  | _, _ => False
  end.
Definition pairwise {A B : Type} (P : A -> A -> B -> Prop) (xs : list A) (ys : list B) : Prop :=
  match xs with [] => ys = [] | x :: r => steps P x r ys end.

(** The velocity measurement of a differential stream: displacement [d] and
    rotation angles [a] from pose [p] to pose [q], seen from [p], over the time
    between the stamps. *)
Definition velocity_between (upd : list bool) (x y : penv RScalar * pose_msg RScalar) (m : meas RScalar) : Prop :=
  let p := snd x in let q := snd y in let two_d := e_two_d (fst y) in
  let dt := (IZR (ps_stamp q - ps_stamp p) / 1000000000)%R in
  m_time m = ps_stamp q /\
  exists d a : V3,
    spin (ps_orientation p) d = minus3 (ps_position q) (ps_position p) /\
    (forall u, spin (ps_orientation p) u = spin (ps_orientation q) (v3 1 0 0) -> not_vertical u ->
       forall v, spin (ps_orientation p) (oriented (X a) (Y a) (Z3 a) v) = spin (ps_orientation q) v) /\
    measures two_d (m_value m) 6 (times3 (/ dt) d) /\
    measures two_d (m_value m) 9 (times3 (/ dt) a) /\
    (forall i, kept two_d i -> nth i (m_upd m) false = (within 6 12 i && nth (i - 6) upd false)%bool) /\
    measures_cov two_d (m_cov m) 6 6
      (fun i j => (as_matrix 6 (ps_cov q) i j + as_matrix 6 (ps_cov p) i j) * dt)%R /\
    only two_d (m_value m) (m_cov m) 6 6.

(** The measurement of a relative stream: displacement [d] and rotation from
    the first pose [x] to the pose [y], seen from the first, then moved by [t]. *)
Definition motion_from (t : T4) (x y : penv RScalar * pose_msg RScalar) (m : meas RScalar) : Prop :=
  let p := snd x in let q := snd y in let two_d := e_two_d (fst y) in
  m_time m = ps_stamp q /\
  exists d a : V3,
    spin (ps_orientation p) d = minus3 (ps_position q) (ps_position p) /\
    measures two_d (m_value m) 0 (move t d) /\ measures two_d (m_value m) 3 a /\
    (forall u, spin (ps_orientation p) u = spin (ps_orientation q) (v3 1 0 0) -> not_vertical (turn (t_basis t) u) ->
       forall v w, spin (ps_orientation p) w = spin (ps_orientation q) v ->
         oriented (X a) (Y a) (Z3 a) v = turn (t_basis t) w) /\
    (x = y -> t = no_motion -> a = v3 0 0 0) /\
    only two_d (m_value m) (m_cov m) 0 6.

(** The pose [q] is the pose [p] moved by [g]. *)
Definition moved_pose (g : T4) (p q : pose_msg RScalar) : Prop :=
  ps_stamp q = ps_stamp p /\ ps_frame q = ps_frame p /\ ps_cov q = ps_cov p /\
  ps_position q = move g (ps_position p) /\
  forall v, spin (ps_orientation q) v = turn (t_basis g) (spin (ps_orientation p) v).
(** Two measurements with the same time, value, flags and covariance on the
    variables that count. *)
Definition same_measurement (two_d : bool) (m m' : meas RScalar) : Prop :=
  m_time m' = m_time m /\ m_thresh m' = m_thresh m /\ same_flags two_d (m_upd m) (m_upd m') /\
  (forall i, kept two_d i -> m_value m' i = m_value m i) /\
  (forall i j, kept two_d i \/ i <> j -> m_cov m' i j = m_cov m i j).

(** Transforms that are rigid motions; covariances of a message that are
    symmetric and positive semi-definite unless the part is declared absent
    (first entry -1). *)
Definition rigid_buffer (b : tf_buffer RScalar) : Prop := forall x y z t, b x y z = Some t -> rigid t.
Definition present (cov : nat -> R) : Prop := 1 / 1000000000 <= Rabs (cov 0%nat + 1).
Definition message_psd (m : sensor_msg RScalar) : Prop :=
  match m with
  | MsgOdom o => psd 6 (as_matrix 6 (o_pose_cov o)) /\ psd 6 (as_matrix 6 (o_twist_cov o))
  | MsgPose p => psd 6 (as_matrix 6 (ps_cov p))
  | MsgTwist t => psd 6 (as_matrix 6 (tw_cov t))
  | MsgImu i => (present (im_ori_cov i) -> psd 3 (as_matrix 3 (im_ori_cov i))) /\
                (present (im_ang_cov i) -> psd 3 (as_matrix 3 (im_ang_cov i))) /\
                (present (im_acc_cov i) -> psd 3 (as_matrix 3 (im_acc_cov i)))
  end.
(** Inputs of an execution in three dimensions with such messages; resets may
    occur. *)
Definition sound_input {E : Type} (i : @input RScalar E) : Prop :=
  match i with
  | Message e s m => e_two_d e = false /\ rigid_buffer (e_buffer e) /\ message_psd m
  | Event EvReset => True
  | Event ev => ordinary ev
  end.
Definition sound_streams (s : streams RScalar) : Prop :=
  (forall k t, sm_find (st_initial s) k = Some t -> rigid t) /\
  (forall k t, sm_find (st_previous s) k = Some t -> rigid t) /\
  (forall k C, sm_find (st_prev_cov s) k = Some C -> psd 6 C).
