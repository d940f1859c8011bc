(** * Memory safety of measurement processing (C87) *)

From Coq Require Import Reals ZArith List Bool String Arith Lia.
From Verif Require Import Scalar Mat FilterBase StrMap Tf Diagnostics RosFilter RosConfig ForceTwoD RosPrepare Access
  SpecConfig SpecNode SpecPrepare SpecStart SpecAccess NodeProofs AccessFacts AccessListed NodeMore PrepareWit PropsConfig PropsStart.
Import ListNotations.

(** ** C87: with one flag per state variable every access is in range *)
Theorem C87_fused : forall (K : Scalar) E (pq : pqueue K) (vt : vtbl K E) (p : params K) period now later (f : fb K E) ang nothing ld n is,
  pq_ok pq -> start p period now later f ang nothing = Ok (ld, n) -> full_configs p ->
  Forall (proper (ld_subs ld)) is ->
  Forall fused_inside (snd (respond pq vt (ld_config ld) n is)).
Proof. exact run_safe. Qed.
Print Assumptions C87_fused.

Theorem C87_messages : forall (K : Scalar) E (p : params K) period now (f : fb K E) ld,
  loadParams p period now f = Ok ld -> full_configs p ->
  (forall (e : penv K) s m (n : node K E), In s (ld_subs ld) -> Forall inside (message_accesses e (ld_config ld) s m n)) /\
  (forall (e : penv K) msg (n : node K E), Forall inside (set_pose_accesses e (ld_config ld) msg n)).
Proof. exact accesses_safe. Qed.
Print Assumptions C87_messages.

(** What a message changes in its vector before queueing it is listed. *)
Theorem C87_listed : forall (K : Scalar) E (pq : pqueue K) (e : penv K) c s m (n : node K E) q,
  In q (queued (snd (receive pq e c s m n))) ->
  exists part, In part (message_accesses e c s m n) /\
    forall i, nth i (m_upd q) false <> nth i (fst part) false -> In i (snd part).
Proof. exact (fun K E pq e c s m n q => receive_listed pq e c s m n q). Qed.
Print Assumptions C87_listed.

(** ** Concrete executions: a twist input, its message, one cycle *)
Definition ex_env87 : penv RScalar := @mkEnv RScalar true 9.81%R [] (fun _ _ _ => Some t_identity) (fun _ => 0%Z) (fun _ => 0%R).
Definition ex_twist87 : twist_msg RScalar := @mkTwist RScalar 5 "base_link" v3zero v3zero (fun _ => 1%R).
Definition ex_par87 (flags : list bool) : params RScalar :=
  ex_par true false None None [] [] [ex_twist (Some flags)] [] None None.
Definition ex_ins87 (ld : loaded RScalar unit) : list (input (K := RScalar) (E := unit)) :=
  map (fun s => Message ex_env87 s (MsgTwist ex_twist87)) (ld_subs ld) ++ [Event (EvCycle 6 6 None)].
Definition outs87 (ld : loaded RScalar unit) (n : node RScalar unit) : list (output RScalar unit) :=
  snd (respond (list_pq RScalar) prep_still (ld_config ld) n (ex_ins87 ld)).
Definition fusions87 (os : list (output RScalar unit)) : list bool :=
  flat_map (fun o => match o with OutFused f m => [fuse_access_ok f m] | _ => [] end) os.
Lemma ex_proper87 ld : Forall (proper (ld_subs ld)) (ex_ins87 ld).
Proof.
  unfold ex_ins87. apply Forall_app. split; [|repeat constructor].
  apply Forall_forall. intros i Hi. apply in_map_iff in Hi. destruct Hi as (s & <- & Hs). exact Hs.
Qed.
Lemma fusions87_inside os : Forall fused_inside os -> Forall (fun b => b = true) (fusions87 os).
Proof.
  intros H. apply Forall_forall. intros b Hb. unfold fusions87 in Hb. apply in_flat_map in Hb.
  destruct Hb as (o & Ho & Hb). rewrite Forall_forall in H. specialize (H o Ho).
  destruct o; cbn in Hb; try contradiction. destruct Hb as [<-|[]]. exact H.
Qed.

(** Such an execution fuses a measurement, and its message touches indices. *)
Example C87_case :
  full_configs (ex_par87 (repeat true 15)) /\ pq_ok (list_pq RScalar) /\
  exists ld n, started (ex_par87 (repeat true 15)) = Some (ld, n) /\
    (Forall (proper (ld_subs ld)) (ex_ins87 ld) /\ fusions87 (outs87 ld n) = [true] /\
     map (fun s => List.length (message_accesses ex_env87 (ld_config ld) s (MsgTwist ex_twist87) n)) (ld_subs ld) = [1%nat]).
Proof.
  split; [repeat constructor|]. split; [apply list_pq_ok|].
  enough (H : match started (ex_par87 (repeat true 15)) with
    | Some (ld, n) => fusions87 (outs87 ld n) = [true] /\
        map (fun s => List.length (message_accesses ex_env87 (ld_config ld) s (MsgTwist ex_twist87) n)) (ld_subs ld) = [1%nat]
    | None => False end).
  { apply started_case. destruct (started _) as [[ld n]|]; [|exact H]. split; [apply ex_proper87|exact H]. }
  lazy. split; reflexivity.
Qed.

(** A twist input that measures the forward speed only: in two_d_mode its
    message also writes the flag of z. *)
Example C87_listed_case :
  exists ld n, started (ex_par87 (repeat false 6 ++ [true] ++ repeat false 8)) = Some (ld, n) /\
    map (fun s => map (fun q => nth 2 (m_upd q) false)
                    (queued (snd (receive (list_pq RScalar) ex_env87 (ld_config ld) s (MsgTwist ex_twist87) n)))) (ld_subs ld) = [[true]].
Proof. apply started_case. lazy. reflexivity. Qed.

(** A longer vector is accepted, and the first measurement of a twist input
    then writes outside the state. *)
Theorem C87_long_refuted :
  exists (p : params RScalar) ld n is, started p = Some (ld, n) /\ Forall (proper (ld_subs ld)) is /\
    ~ Forall fused_inside (snd (respond (list_pq RScalar) prep_still (ld_config ld) n is)).
Proof.
  exists (ex_par87 (repeat true 16)).
  assert (H : match started (ex_par87 (repeat true 16)) with
    | Some (ld, n) => fusions87 (outs87 ld n) = [false] | None => False end) by (lazy; reflexivity).
  destruct (started _) as [[ld n]|]; [|contradiction]. exists ld, n, (ex_ins87 ld). split; [reflexivity|].
  split; [apply ex_proper87|]. intros HF. apply fusions87_inside in HF. unfold outs87 in H. rewrite H in HF.
  inversion HF. discriminate.
Qed.
Print Assumptions C87_long_refuted.

(** So is a shorter one, and in two_d_mode a message of a twist input then
    writes outside the update vector. *)
Theorem C87_short_refuted :
  exists (p : params RScalar) ld n s m, started p = Some (ld, n) /\ In s (ld_subs ld) /\
    ~ Forall inside (message_accesses ex_env87 (ld_config ld) s m n).
Proof.
  exists (ex_par87 (repeat true 14)).
  assert (H : match started (ex_par87 (repeat true 14)) with
    | Some (ld, n) =>
        match ld_subs ld with
        | s :: _ => exists u, message_accesses ex_env87 (ld_config ld) s (MsgTwist ex_twist87) n =
                      [(u, twist_accesses ex_env87 (ld_config ld) "base_link" 5 "base_link")] /\ List.length u = 14%nat
        | [] => False end
    | None => False end).
  { lazy. eexists. split; reflexivity. }
  destruct (started _) as [[ld n]|]; [|contradiction]. destruct (ld_subs ld) as [|s l] eqn:El; [contradiction|].
  exists ld, n, s, (MsgTwist ex_twist87). split; [reflexivity|]. rewrite El. split; [left; reflexivity|].
  destruct H as (u & Hu & Hl). rewrite Hu. intros HF. inversion HF as [|x l' Hx Hr]. subst.
  specialize (Hx 14%nat). cbn [fst snd] in Hx. rewrite Hl in Hx. enough (14 < 14)%nat by lia. apply Hx.
  unfold twist_accesses. apply in_or_app. right. apply in_or_app. right. cbn. tauto.
Qed.
Print Assumptions C87_short_refuted.
