(** * Vocabulary for nodes in two_d_mode (C94)

    Levelled transforms and covariances, and estimates in the plane. *)

From Coq Require Import Reals ZArith List Bool String Arith.
From Verif Require Import Scalar Mat Tf FilterBase StrMap RosFilter RosConfig RosPrepare
  SpecConfig SpecNode SpecTf SpecLin SpecFilter SpecPrepare SpecStart SpecPublished.
Import ListNotations.
Local Open Scope R_scope.

(** A covariance of pose or twist (n = 6) or acceleration (n = 3) in which z,
    roll and pitch are not correlated with anything, roll and pitch are equally
    uncertain, x and y are both exact or both not, and no combination of the
    variables of the plane is known exactly but for the exact ones. *)
Definition level_cov (n : nat) (C : rmat) : Prop :=
  psd n C /\
  (forall i j, (i < n)%nat -> (j < n)%nat -> vertical i = true -> i <> j -> C i j = 0) /\
  ((4 < n)%nat -> C 3%nat 3%nat = C 4%nat 4%nat) /\
  (C 0%nat 0%nat = 0 <-> C 1%nat 1%nat = 0) /\
  (forall v, quad n C v = 0 -> forall i, (i < n)%nat -> vertical i = false -> C i i <> 0 -> v i = 0).

(** Rigid transforms about the vertical axis. *)
Definition levelled (t : T4) : Prop := rigid t /\ turn (t_basis t) (v3 0 0 1) = v3 0 0 1.
Definition level_buffer (b : tf_buffer RScalar) : Prop := forall x y z t, b x y z = Some t -> levelled t.

(** A covariance of three angles as part of one of a pose or twist. *)
Definition angular_part (C : rmat) : rmat :=
  fun i j => if (Nat.leb 3 i && Nat.leb 3 j)%bool then C (i - 3)%nat (j - 3)%nat else 0.

Definition message_level (m : sensor_msg RScalar) : Prop :=
  match m with
  | MsgOdom o => level_cov 6 (as_matrix 6 (o_pose_cov o)) /\ level_cov 6 (as_matrix 6 (o_twist_cov o))
  | MsgPose p => level_cov 6 (as_matrix 6 (ps_cov p))
  | MsgTwist t => level_cov 6 (as_matrix 6 (tw_cov t))
  | MsgImu i => (present (im_ori_cov i) -> level_cov 6 (angular_part (as_matrix 3 (im_ori_cov i)))) /\
                (present (im_ang_cov i) -> level_cov 6 (angular_part (as_matrix 3 (im_ang_cov i)))) /\
                (present (im_acc_cov i) -> level_cov 3 (as_matrix 3 (im_acc_cov i)))
  end.

(** The configured process noise keeps the plane apart, and the vertical
    velocity, the roll rate and the pitch rate are not controlled. *)
Definition planar_params (p : params RScalar) : Prop :=
  (forall v M, p_Q p = Some v -> taken_as (Some v) mzero M -> decoupled 15 vertical M) /\
  (p_use_control p = true -> forall j, (2 <= j < 5)%nat -> configured (p_control_config p) j = false).

(** Inputs of a node in two_d_mode, as in [usable]. *)
Definition usable_level {E : Type} (two_d : bool) (c : config RScalar) (subs : list (subscription RScalar))
    (after : node RScalar E -> event RScalar E -> fb RScalar E) (n : node RScalar E)
    (i : input (K:=RScalar) (E:=E)) : Prop :=
  match i with
  | Message e s m => In s subs /\ e_two_d e = two_d /\ level_buffer (e_buffer e) /\ message_level m
  | Event (EvSensor _ _ _ _ _ _) => False
  | Event (EvSetPose stamp prep now) =>
      (exists (e : penv RScalar) (msg : pose_msg RScalar), e_two_d e = two_d /\ level_buffer (e_buffer e) /\
         level_cov 6 (as_matrix 6 (ps_cov msg)) /\ stamp = ps_stamp msg /\
         prep = preparePose e c msg "set_pose"%string (c_world c) (c_base c) false false false) /\
      (fb_initialized (n_filter n) = false -> diagonal 15 (fb_P (after n (EvSetPose stamp prep now))))
  | Event _ => True
  end.

(** What is published lies in the plane. *)
Definition published_planar {E : Type} (o : output RScalar E) : Prop :=
  match o with
  | OutOdom m => Z3 (o_position m) = 0 /\ qx (o_orientation m) = 0 /\ qy (o_orientation m) = 0 /\
                 Z3 (o_linear m) = 0 /\ X (o_angular m) = 0 /\ Y (o_angular m) = 0
  | OutAccel m => Z3 (ac_linear m) = 0
  | _ => True
  end.

(** A measurement in two_d_mode: the variables outside the plane are measured
    as zero with variance 1e-6. *)
Definition forced {K : Scalar} (m : meas K) : Prop :=
  forall i, vertical i = true ->
    m_value m i = s_ofZ 0 /\ m_cov m i i = lit 1 6 /\ (List.length (m_upd m) = 15%nat -> nth i (m_upd m) false = true).
