(** * Vocabulary for what a started node publishes (C93)

    Conditions on the inputs of an execution, and what subscribers see. *)

From Coq Require Import Reals ZArith List Bool String Arith Sorting.Sorted.
From Verif Require Import Scalar Mat Tf FilterBase StrMap RosFilter RosConfig RosPrepare
  SpecConfig SpecNode SpecLin SpecFilter SpecPrepare SpecStart.
Import ListNotations.

Section Inputs.
Context {K : Scalar} {E : Type}.

(** Clock readings of an input, in order; the clock never goes backwards. *)
Definition input_readings (i : input (K:=K) (E:=E)) : list Z :=
  match i with Message _ _ _ => [] | Event ev => readings ev end.
Definition steady_clock (t0 : Z) (is : list (input (K:=K) (E:=E))) : Prop :=
  StronglySorted Z.le (t0 :: List.concat (map input_readings is)).

(** A condition on every input and the node that receives it. *)
Fixpoint along (C : node K E -> input (K:=K) (E:=E) -> Prop) (pq : pqueue K) (vt : vtbl K E) (c : config K)
    (n : node K E) (is : list (input (K:=K) (E:=E))) : Prop :=
  match is with
  | [] => True
  | i :: r => C n i /\ along C pq vt c (fst (deliver pq vt c n i)) r
  end.

(** A raw measurement event; a message stands for a few of them. *)
Definition raw (ev : event K E) : Prop := match ev with EvSensor _ _ _ _ _ _ => True | _ => False end.
Inductive expands : input (K:=K) (E:=E) -> list (event K E) -> Prop :=
| as_sensors : forall e s m es, Forall raw es -> expands (Message e s m) es
| as_event : forall ev, expands (Event ev) [ev].
End Inputs.

Local Open Scope R_scope.

Definition diagonal (n : nat) (M : rmat) : Prop :=
  forall i j, (i < n)%nat -> (j < n)%nat -> i <> j -> M i j = 0.

(** The covariance parameters, if given, are positive semi-definite; the
    initial one is diagonal, and dynamic process noise needs a process noise
    that does not correlate pose and other variables. *)
Definition covariance_params (p : params RScalar) : Prop :=
  (forall v M, p_P p = Some v -> taken_as (Some v) mzero M -> psd 15 M /\ diagonal 15 M) /\
  (forall v M, p_Q p = Some v -> taken_as (Some v) mzero M ->
     psd 15 M /\ (p_dynamic_noise p = true -> decoupled 15 pose_index M)).

(** An input in three dimensions with rigid transforms: a message on one of the
    subscriptions with positive semi-definite covariances, a set_pose request
    with such a covariance, or any other event.  A request that arrives before
    the first measurement has to leave a diagonal covariance ([after] is the
    filter behind it). *)
Definition usable {E : Type} (c : config RScalar) (subs : list (subscription RScalar))
    (after : node RScalar E -> event RScalar E -> fb RScalar E) (n : node RScalar E)
    (i : input (K:=RScalar) (E:=E)) : Prop :=
  match i with
  | Message e s m => In s subs /\ e_two_d e = false /\ rigid_buffer (e_buffer e) /\ message_psd m
  | Event (EvSensor _ _ _ _ _ _) => False
  | Event (EvSetPose stamp prep now) =>
      (exists (e : penv RScalar) (msg : pose_msg RScalar), e_two_d e = false /\ rigid_buffer (e_buffer e) /\ psd 6 (as_matrix 6 (ps_cov msg)) /\
         stamp = ps_stamp msg /\
         prep = preparePose e c msg "set_pose"%string (c_world c) (c_base c) false false false) /\
      (fb_initialized (n_filter n) = false -> diagonal 15 (fb_P (after n (EvSetPose stamp prep now))))
  | Event _ => True
  end.
Definition filter_after {E : Type} (pq : pqueue RScalar) (vt : vtbl RScalar E) (c : config RScalar)
    (n : node RScalar E) (ev : event RScalar E) : fb RScalar E := n_filter (fst (node_step pq vt c n ev)).

(** Published covariances are symmetric and positive semi-definite: pose and
    twist, and the linear part of the acceleration. *)
Definition published_psd {E : Type} (o : output RScalar E) : Prop :=
  match o with
  | OutOdom m => psd 6 (as_matrix 6 (o_pose_cov m)) /\ psd 6 (as_matrix 6 (o_twist_cov m))
  | OutAccel m => psd 3 (as_matrix 6 (ac_cov m))
  | _ => True
  end.
