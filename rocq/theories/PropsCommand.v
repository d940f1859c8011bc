(** * Velocity commands (C89) *)

From Coq Require Import Reals ZArith List Bool String Lia Lra.
From Verif Require Import Scalar Mat FilterBase Tf StrMap RosFilter RosConfig RosPrepare Ekf Ukf SpecNode SpecPrepare SpecCommand
  NodeProofs CommandFacts NodeMore PrepareWit PropsConfig PropsStart PropsAccess.
Import ListNotations.

(** ** C89: without lagged replay every fusion runs with the last command given
    in the body frame, whatever else happened since *)
Theorem C89_in_effect : forall (K : Scalar) E (pq : pqueue K) (vt : vtbl K E) c, keeps_command vt ->
  c_smooth c = false \/ c_use_control c = false ->
  forall es (n : node K E) v ev f m, last_command (c_base c) (command_of (n_filter n)) es v ->
  In (OutFused f m) (snd (node_step pq vt c (fst (node_run pq vt c n es)) ev)) -> command_of f = v.
Proof. exact (@command_in_effect). Qed.
Print Assumptions C89_in_effect.
Theorem C89_after : forall (K : Scalar) E (pq : pqueue K) (vt : vtbl K E) c, keeps_command vt ->
  c_smooth c = false \/ c_use_control c = false ->
  forall es (n : node K E) v, last_command (c_base c) (command_of (n_filter n)) es v ->
  command_of (n_filter (fst (node_run pq vt c n es))) = v.
Proof. exact (@run_command). Qed.
Print Assumptions C89_after.
Theorem C89_filters : forall K eig, keeps_command (@ekf_vtbl K eig) /\ keeps_command (@ukf_vtbl K eig).
Proof. exact (fun K eig => conj (ekf_keeps_command eig) (ukf_keeps_command eig)). Qed.
Print Assumptions C89_filters.
Theorem C89_determined : forall (K : Scalar) E base (u : vec K * Z) (es : list (event K E)), exists v, last_command base u es v.
Proof. exact (@last_command_total). Qed.
Print Assumptions C89_determined.

(** A queued measurement carries the last command, with any configuration; the
    stamp is that of the command unless a reset came since. *)
Theorem C89_tag : forall (K : Scalar) E (pq : pqueue K) (vt : vtbl K E) c es (n : node K E) v ev m,
  last_command (c_base c) (n_ctl n, n_ctl_time n) es v ->
  In (OutQueued m) (snd (node_step pq vt c (fst (node_run pq vt c n es)) ev)) ->
  m_control m = fst v /\ (no_resets es -> m_control_time m = snd v).
Proof. exact (@command_tag). Qed.
Print Assumptions C89_tag.

(** A command in another frame changes nothing. *)
Theorem C89_refused : forall (K : Scalar) E (pq : pqueue K) (vt : vtbl K E) c frame ctl stamp (n : node K E),
  ~ in_body_frame (c_base c) frame -> node_step pq vt c n (EvControl frame ctl stamp) = (n, []).
Proof.
  exact (fun K E pq vt c frame ctl stamp n H =>
    f_equal (fun x => (x, [])) (proj2 (proj2 (control_step pq vt c frame ctl stamp n)) H)).
Qed.
Print Assumptions C89_refused.
(** A command without header counts as one in the body frame, now. *)
Theorem C89_unstamped : forall (K : Scalar) E (c : config K) ctl now (n : node K E),
  controlCallback c ctl now n = controlStampedCallback c (c_base c) ctl now n /\
  command_of (n_filter (controlCallback c ctl now n)) = (ctl, now).
Proof. exact (@control_unstamped). Qed.
Print Assumptions C89_unstamped.

(** ** Concrete executions *)
Definition ex_command : vec RScalar := fun i => if Nat.eqb i 0 then 1%R else 0%R.
Definition ex_par89 : params RScalar :=
  ex_par true true (Some [true; false; false; false; false; false]) (Some []) [] [] [ex_twist (Some (repeat true 15))] [] None None.
Definition ex_twist89 (ld : loaded RScalar unit) (stamp : Z) : list (event RScalar unit) :=
  match ld_subs ld with
  | [SubTwist d] => [EvSensor true (cd_topic d) stamp (cd_upd d) (cd_thresh d)
      (prepareTwist ex_env87 (ld_config ld) (@mkTwist RScalar stamp "base_link" v3zero v3zero (fun _ => 1%R)) (cd_topic d) "base_link")]
  | _ => []
  end.
Definition commands89 (os : list (output RScalar unit)) : list Z :=
  flat_map (fun o => match o with OutFused f _ => [snd (command_of f)] | _ => [] end) os.
(** A command in another frame between two messages, then a cycle that fuses both. *)
Example C89_case : exists ld n, started ex_par89 = Some (ld, n) /\
  (c_use_control (ld_config ld) = true /\ c_smooth (ld_config ld) = false /\ c_base (ld_config ld) = "base_link"%string /\
   commands89 (snd (node_run (list_pq RScalar) prep_still (ld_config ld) n
     (EvControl "base_link" ex_command 3 :: ex_twist89 ld 5 ++ EvControl "map" vzero 6 :: ex_twist89 ld 7 ++ [EvCycle 8 8 None]))) = [3; 3]%Z).
Proof. apply started_case. lazy. repeat split. Qed.

(** "A reset forgets the commands given before it" is false: *)
Theorem C89_reset_refuted : exists (p : params RScalar) ld n es f m,
  started p = Some (ld, n) /\ c_use_control (ld_config ld) = true /\ Forall (fun ev => forall frame ctl stamp, ev <> EvControl frame ctl stamp) es /\
  In (OutFused f m) (snd (node_run (list_pq RScalar) prep_still (ld_config ld) n (EvControl "base_link" ex_command 3 :: EvReset :: es))) /\
  command_of f = (ex_command, 3%Z).
Proof.
  exists ex_par89.
  assert (H : match started ex_par89 with
    | Some (ld, n) => c_use_control (ld_config ld) = true /\
        match snd (node_run (list_pq RScalar) prep_still (ld_config ld) n
          (EvControl "base_link" ex_command 3 :: EvReset :: ex_twist89 ld 5 ++ [EvCycle 8 8 None])) with
        | [_; OutFused f _] | [_; OutFused f _; _] | [_; OutFused f _; _; _] | [_; OutFused f _; _; _; _] => command_of f = (ex_command, 3%Z)
        | _ => False
        end
    | None => False end) by (lazy; auto).
  destruct (started ex_par89) as [[ld n]|]; [|contradiction]. destruct H as (H1 & H2).
  exists ld, n, (ex_twist89 ld 5 ++ [EvCycle 8 8 None]).
  assert (HN : Forall (fun ev => forall frame ctl stamp, ev <> EvControl frame ctl stamp) (ex_twist89 ld 5 ++ [EvCycle 8 8 None])).
  { apply Forall_app. split; [|repeat constructor; discriminate]. unfold ex_twist89.
    destruct (ld_subs ld) as [|[t a b|a|a|t a b d] [|s l]]; repeat constructor; discriminate. }
  revert H2. generalize (snd (node_run (list_pq RScalar) prep_still (ld_config ld) n
    (EvControl "base_link" ex_command 3 :: EvReset :: ex_twist89 ld 5 ++ [EvCycle 8 8 None]))). intros os H2.
  destruct os as [|o1 [|o2 os]]; try contradiction. destruct o2 as [| | | | | | |f m|]; try contradiction;
    try (destruct os as [|? [|? [|? [|? ?]]]]; contradiction).
  exists f, m. split; [reflexivity|]. split; [exact H1|]. split; [exact HN|]. split; [right; left; reflexivity|].
  destruct os as [|? [|? [|? [|? ?]]]]; try contradiction; exact H2.
Qed.
Print Assumptions C89_reset_refuted.
