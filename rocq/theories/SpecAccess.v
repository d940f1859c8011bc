(** * Vocabulary for memory safety of measurement processing (C87) *)

From Coq Require Import ZArith List Bool String Arith.
From Verif Require Import Scalar Mat FilterBase StrMap Tf RosFilter RosConfig RosPrepare Access SpecConfig SpecPrepare.
Import ListNotations.

Section SpecAccess.
Context {K : Scalar} {E : Type}.

(** Every configuration vector has one flag per state variable (or is absent). *)
Definition full_configs (p : params K) : Prop :=
  Forall (fun o => config_size (op_config o) = 15%nat) (p_odoms p) /\
  Forall (fun o => config_size (pp_config o) = 15%nat) (p_poses p) /\
  Forall (fun o => config_size (tp_config o) = 15%nat) (p_twists p) /\
  Forall (fun o => config_size (ip_config o) = 15%nat) (p_imus p).

(** An input that the node can receive: a message on one of its subscriptions,
    or an event that is not a raw measurement. *)
Definition proper (subs : list (subscription K)) (i : input (K:=K) (E:=E)) : Prop :=
  match i with
  | Message _ s _ => In s subs
  | Event (EvSensor _ _ _ _ _ _) => False
  | Event _ => True
  end.

(** The indices lie inside the vector. *)
Definition inside (x : list bool * list nat) : Prop := forall i, In i (snd x) -> (i < List.length (fst x))%nat.

(** What fusing [m] touches in the state, the measurement and their
    covariances, which all have 15 rows. *)
Definition fused_inside (o : output K E) : Prop :=
  match o with OutFused f m => fuse_access_ok f m = true | _ => True end.
End SpecAccess.
