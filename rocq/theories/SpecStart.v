(** * Vocabulary for the start-up properties (C86)

    Refers to the parameters and to the fields that start-up fills, not to the
    loader's helpers. *)

From Coq Require Import ZArith List Bool String Arith.
From Verif Require Import Scalar Mat FilterBase StrMap RosFilter RosConfig.
Import ListNotations.

Section SpecStart.
Context {K : Scalar} {E : Type}.

(** A covariance parameter taken as the matrix [M]: absent, the [default];
    15 entries, a diagonal; more entries, the columns one after the other, all
    of them present. *)
Definition taken_as (o : option (list K)) (default M : mat K) : Prop :=
  match o with
  | None => M = default
  | Some v =>
      (List.length v = 15%nat ->
         (forall i, (i < 15)%nat -> nth_error v i = Some (M i i)) /\
         (forall i j, (i < 15)%nat -> (j < 15)%nat -> i <> j -> M i j = s_ofZ 0)) /\
      (List.length v <> 15%nat ->
         forall i j, (i < 15)%nat -> (j < 15)%nat -> nth_error v (i + 15 * j) = Some (M i j))
  end.

(** The same matrix read row by row. *)
Definition row_major (v : list K) (M : mat K) : Prop :=
  forall i j, (i < 15)%nat -> (j < 15)%nat -> nth_error v (15 * i + j) = Some (M i j).

(** A list parameter with a default. *)
Definition or_else {A : Type} (o : option A) (d : A) : A := match o with Some a => a | None => d end.

(** Gains that do not have one entry per axis are replaced by ones. *)
Definition six_or_ones (v w : list K) : Prop :=
  (List.length v = 6%nat -> w = v) /\ (List.length v <> 6%nat -> w = repeat (s_ofZ 1) 6).
Definition gains_taken (o : option (list K)) (absent w : list K) : Prop :=
  match o with None => w = absent | Some v => six_or_ones v w end.

(** Nothing has been received, fused, published or set. *)
Definition untouched_node (n : node K E) : Prop :=
  n_queue n = [] /\ n_meas_hist n = [] /\ n_state_hist n = [] /\
  st_initial (n_streams n) = [] /\ st_previous (n_streams n) = [] /\ st_prev_cov (n_streams n) = [] /\
  n_last_msg n = [] /\ n_set_pose n = 0%Z /\ n_ctl_time n = 0%Z /\ n_last_pub n = 0%Z /\
  n_toggled n = true /\ fb_initialized (n_filter n) = false.

(** A period given in seconds or as a rate. *)
Definition timeout_of (given : option K) (frequency : K) : K :=
  match given with Some s => s | None => s_div (s_ofZ 1) frequency end.

End SpecStart.
