(** * Specification vocabulary for the listener *)

From Coq Require Import Reals ZArith List Bool Arith String Sorted.
From Verif Require Import Scalar Mat FilterBase StrMap Tf RosFilter RosPrepare Estimator Listener SpecLin SpecTf SpecEstimator SpecPrepare.
Import ListNotations.

(** ** Frame trees *)
(** [p] is the parent of [f]. *)
Definition child_of (tree : frame_tree) (f p : string) : Prop := sm_find tree f = Some p /\ p <> ""%string.
(** [g] is [f] or a parent, grandparent, ... of it. *)
Inductive ancestor (tree : frame_tree) : string -> string -> Prop :=
| itself f : ancestor tree f f
| of_parent f p g : child_of tree f p -> ancestor tree p g -> ancestor tree f g.
Definition acyclic (tree : frame_tree) : Prop := forall f p, child_of tree f p -> ~ ancestor tree p f.
Definition decides (o : outcome bool) (P : Prop) : Prop := exists b, o = Returned b /\ (b = true <-> P).

(** ** Stored states *)
Section Stored.
Context {K : Scalar}.
Definition whole_second (stamp : Z) : Z := (stamp / 1000000000)%Z.
Definition pair_msg : Type := (odom_msg K * accel_msg K)%type.
Definition stamp_of (m : pair_msg) : Z := o_stamp (fst m).
(** Whole seconds (int32) are numbers and compare like the integers they are. *)
Definition int32 (a : Z) : Prop := (-2147483648 <= a < 2147483648)%Z.
Definition seconds_ok : Prop := forall a b, int32 a -> int32 b ->
  s_isnan (s_ofZ a : K) = false /\ s_ltb (s_ofZ a : K) (s_ofZ b) = Z.ltb a b /\ s_eqb (s_ofZ a : K) (s_ofZ b) = Z.eqb a b.
Definition stamped32 (m : pair_msg) : Prop := int32 (whole_second (stamp_of m)).
(** Messages in order of their stamps. *)
Definition in_order (l : list pair_msg) : Prop := Sorted (fun a b => (stamp_of a <= stamp_of b)%Z) l.
(** The first message of every second. *)
Fixpoint first_of_seconds (last : option Z) (l : list pair_msg) : list pair_msg :=
  match l with
  | [] => []
  | m :: r =>
      let s := whole_second (stamp_of m) in
      if match last with Some t => Z.eqb t s | None => false end then first_of_seconds last r
      else m :: first_of_seconds (Some s) r
  end.
(** What the events of an execution deliver. *)
Fixpoint heard (evs : list (listener_event K)) : list pair_msg :=
  match evs with [] => [] | Heard o a :: r => (o, a) :: heard r | Asked _ _ _ _ :: r => heard r end.
(** [s] is the message pair, stamped with its whole second. *)
Definition at3 (s : vec K) (o : nat) (v : vec3 K) : Prop :=
  s o = v3x v /\ s (o + 1)%nat = v3y v /\ s (o + 2)%nat = v3z v.
Definition block_of (r c o n : nat) : bool := (Nat.leb o r && Nat.ltb r (o + n) && Nat.leb o c && Nat.ltb c (o + n))%bool.
Definition stores (m : pair_msg) (s : est_state K) : Prop :=
  es_time s = s_ofZ (whole_second (stamp_of m)) /\
  at3 (es_state s) 0 (o_position (fst m)) /\
  at3 (es_state s) 6 (o_linear (fst m)) /\ at3 (es_state s) 9 (o_angular (fst m)) /\
  at3 (es_state s) 12 (ac_linear (snd m)) /\
  forall i j, (i < 15)%nat -> (j < 15)%nat -> es_cov s i j =
    if block_of i j 0 6 then o_pose_cov (fst m) (i * 6 + j)%nat
    else if block_of i j 6 6 then o_twist_cov (fst m) ((i - 6) * 6 + (j - 6))%nat
    else if block_of i j 12 3 then ac_cov (snd m) ((i - 12) * 6 + (j - 12))%nat
    else s_ofZ 0.
End Stored.
Arguments seconds_ok K : clear implicits.

(** ** Queries *)
Local Open Scope R_scope.
(** Affine3d::rotation() of a rotation is that rotation. *)
Definition keeps_rotations (f : M3 -> M3) : Prop := forall m, rotation m -> f m = m.
(** A looked up transform as a motion. *)
Definition moved (o : V3) (q : Q4) (p : V3) : V3 := plus3 (spin q p) o.
(** The pose held by a state. *)
Definition body_point (s : vec RScalar) (p : V3) : V3 :=
  plus3 (oriented (s 3%nat) (s 4%nat) (s 5%nat) p) (v3 (s 0%nat) (s 1%nat) (s 2%nat)).
Definition body_attitude (s : vec RScalar) (p : V3) : V3 := oriented (s 3%nat) (s 4%nat) (s 5%nat) p.
Definition linear_of (s : vec RScalar) : V3 := v3 (s 6%nat) (s 7%nat) (s 8%nat).
Definition angular_of (s : vec RScalar) : V3 := v3 (s 9%nat) (s 10%nat) (s 11%nat).
Definition length3 (v : V3) : R := sqrt (inner v v).
(** The time asked for fits in an int of nanoseconds. *)
Definition int_nanoseconds (time : R) : Prop := -2147483649 < time * 1000000000 < 2147483648.

(** Rotations in the buffer are unit quaternions. *)
Definition unit_answers (env : lenv RScalar) : Prop :=
  forall a b t o q, q_buffer env a b t = Some (o, q) -> unit_quat q.
(** From the world frame [from] of the estimator to the requested one, at
    nanosecond [t]; a frame below the base frame is no world. *)
Inductive to_world (env : lenv RScalar) (base from : string) (t : Z) : string -> (V3 -> V3) -> Prop :=
| own_world : to_world env base from t from (fun p => p)
| other_world w o q : w <> from -> q_buffer env w from t = Some (o, q) -> ~ ancestor (q_tree env) w base ->
    to_world env base from t w (moved o q).
(** The requested frame is placed at (o, q) below the base frame. *)
Definition mounted (env : lenv RScalar) (base frame : string) (t : Z) (o : V3) (q : Q4) : Prop :=
  q_buffer env base frame t = Some (o, q) /\ ancestor (q_tree env) frame base.
(** All queries of an execution see the same frame tree. *)
Definition one_tree {K : Scalar} (tree : frame_tree) (evs : list (listener_event K)) : Prop :=
  forall env t f w, In (Asked env t f w) evs -> q_tree env = tree.
(** State of the frame mounted at (o, q) on a body in state [s], seen from a
    world moved by [W]. *)
Definition carried (W : V3 -> V3) (o : V3) (q : Q4) (s s' : vec RScalar) : Prop :=
  (forall p, body_point s' p = W (body_point s (moved o q p))) /\
  spin q (linear_of s') = plus3 (linear_of s) (cross3 (angular_of s) o) /\
  spin q (angular_of s') = angular_of s.
