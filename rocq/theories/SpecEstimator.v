(** * Specification vocabulary for the state buffer *)

From Coq Require Import List Bool Arith Sorted.
From Verif Require Import Scalar Mat FilterBase Estimator.
Import ListNotations.

(** On values that are not NaN the comparisons form a total order. *)
Definition order_ok (K : Scalar) : Prop :=
  (forall a b : K, s_isnan a = false -> s_isnan b = false -> s_leb a b = true \/ s_leb b a = true) /\
  (forall a b c : K, s_isnan a = false -> s_isnan b = false -> s_isnan c = false ->
     s_leb a b = true -> s_leb b c = true -> s_leb a c = true) /\
  (forall a b : K, s_isnan a = false -> s_isnan b = false -> s_ltb a b = negb (s_leb b a)) /\
  (forall a b : K, s_isnan a = false -> s_isnan b = false -> s_eqb a b = (s_leb a b && s_leb b a)%bool).

(** Stamps that are numbers. *)
Definition stamped {K} (x : est_state K) : Prop := s_isnan (es_time x) = false.
Definition op_stamped {K} (o : est_op K) : Prop :=
  match o with EstSet x => stamped x | EstQuery t => s_isnan t = false | _ => True end.

Definition before_eq {K} (x y : est_state K) : Prop := s_leb (es_time x) (es_time y) = true.
Definition before {K} (x y : est_state K) : Prop := s_ltb (es_time x) (es_time y) = true.

(** Non-decreasing time order, oldest first. *)
Definition time_ordered {K} (l : list (est_state K)) : Prop := StronglySorted before_eq l.

(** The last [n] elements of a list. *)
Definition last_n {A} (n : nat) (l : list A) : list A := skipn (length l - n) l.

(** A buffer as every reachable estimator has it. *)
Definition good_buffer {K} (cap : nat) (l : list (est_state K)) : Prop :=
  Forall stamped l /\ time_ordered l /\ length l <= cap.

(** What a query for time [t] should answer.  [Anchored c p]: a prediction from
    the buffered state [p] reported with code [c]. *)
Inductive verdict (K : Scalar) : Type :=
| VEmpty | VExact (s : est_state K) | VAnchored (code : est_result) (p : est_state K).
Arguments VEmpty {K}. Arguments VExact {K}. Arguments VAnchored {K}.

Definition earlier {K} (s : est_state K) (t : K) : Prop := s_ltb (es_time s) t = true.
Definition later {K} (s : est_state K) (t : K) : Prop := s_ltb t (es_time s) = true.
Definition same_time {K} (s : est_state K) (t : K) : Prop := s_eqb (es_time s) t = true.

Definition query_verdict {K} (l : list (est_state K)) (t : K) (v : verdict K) : Prop :=
  match v with
  | VEmpty => l = []
  | VExact s => In s l /\ same_time s t
  | VAnchored Interpolation p =>
      exists l1 n l2, l = l1 ++ p :: n :: l2 /\ earlier p t /\ forall z, In z (n :: l2) -> later z t
  | VAnchored ExtrapolationIntoFuture p => exists l1, l = l1 ++ [p] /\ earlier p t
  | VAnchored ExtrapolationIntoPast p =>
      exists l2, l = p :: l2 /\ forall z, In z l -> later z t
  | VAnchored _ _ => False
  end.
