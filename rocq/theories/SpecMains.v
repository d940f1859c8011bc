(** * What is claimed of the main programs (C102) *)

From Coq Require Import ZArith List Arith.
From Verif Require Import Scalar Mat FilterBase RosFilter RosConfig Ukf SpecPrepare.
Import ListNotations.

Section SpecMains.
Context {K : Scalar}.
Local Open Scope sc_scope.

(** The scaling and the weights that belong to alpha, kappa and beta. *)
Definition weights_from (alpha kappa beta : K) (e : ukf_ext K) : Prop :=
  let lambda := alpha * alpha * (s_ofZ 15 + kappa) - s_ofZ 15 in
  u_lambda e = lambda /\
  u_sw e 0%nat = lambda / (s_ofZ 15 + lambda) /\
  u_cw e 0%nat = lambda / (s_ofZ 15 + lambda) + (1 - alpha * alpha + beta) /\
  forall i, (0 < i)%nat -> u_sw e i = 1 / (2 * (s_ofZ 15 + lambda)) /\ u_cw e i = 1 / (2 * (s_ofZ 15 + lambda)).

(** A predicate on the filter that a measurement is fused into. *)
Definition fusing {E : Type} (P : fb K E -> Prop) (o : output K E) : Prop :=
  match o with OutFused f _ => P f | _ => True end.

(** A prediction to the current time is among the outputs. *)
Definition predicting {E : Type} (os : list (output K E)) : Prop := exists r d, In (OutPredict r d) os.

End SpecMains.

(** The outputs of a cycle after some inputs. *)
Definition cycle_of {K E} (vt : vtbl K E) (pq : pqueue K) (is : list input) (cur later : Z) (r : outcome (loaded K E * node K E)) : list (output K E) :=
  match r with
  | Ok (ld, n) => snd (node_step pq vt (ld_config ld) (fst (respond pq vt (ld_config ld) n is)) (EvCycle cur later None))
  | Undefined => []
  end.
