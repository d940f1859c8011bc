(** * Executions of a started EKF node (cases of C93) *)

From Coq Require Import Reals ZArith List Bool Lia Lra String Arith.
From Verif Require Import Scalar Mat FilterBase FilterOps Ekf StrMap Tf Diagnostics RosFilter RosConfig ForceTwoD RosPrepare
  SpecConfig SpecNode SpecTf SpecLin SpecFilter SpecPrepare SpecStart SpecAccess SpecPublished
  RBridge RLin EigenExist NodeProofs NodeInv Trig TfReal TfRot PrepareProofs PrepareReal PreparePsd PrepareThm AccessFacts PublishedFacts NodeMore
  PropsConfig PropsStart.
Import ListNotations.
Local Open Scope R_scope.

Definition tw_env : penv RScalar := @mkEnv RScalar false 9.81 [] (fun _ _ _ => Some no_motion) (fun _ => 0%Z) (fun _ => 0).
Definition tw_msg : twist_msg RScalar :=
  @mkTwist RScalar 5 "base_link" v3zero v3zero (fun k => if Nat.eqb k 0 then 1 / 4 else 0).
(** One twist topic that measures vx only. *)
Definition tw_par (P : option (list R)) : params RScalar :=
  ex_par false false None None [] [] [ex_twist (Some (flags [6%nat]))] [] None P.
Definition tw_ins (ld : loaded RScalar unit) : list (input (K := RScalar) (E := unit)) :=
  map (fun s => Message tw_env s (MsgTwist tw_msg)) (ld_subs ld) ++ [Event (EvCycle 6 6 None)].

Lemma tw_prep (c : config RScalar) topic (n : node RScalar unit) upd : List.length upd = 15%nat ->
  let r := prepareTwist tw_env c tw_msg topic "base_link" n upd vzero mzero in
  pr_ok r = true /\ pr_upd r = upd /\ pr_cov r 6%nat 6%nat = 1 / 4.
Proof.
  intros HL r.
  destruct (twist_ready (E := unit) tw_env c tw_msg topic "base_link"%string n upd vzero mzero no_motion eq_refl no_motion_rigid) as (A & _ & B & C).
  fold r in A, B, C. split; [exact A|]. split.
  - apply (nth_ext _ _ false false).
    + unfold r. rewrite twist_len, HL. reflexivity.
    + intros i Hi. destruct (B i) as [_ ->]; [apply kept_false|]. rewrite no_motion_flags. reflexivity.
  - rewrite C by (left; apply kept_false). unfold set_block. cbn [Nat.leb Nat.ltb andb Nat.add Nat.sub].
    unfold rotateCov, mmul, sumn, rot6, as_matrix, mT. cbn. toR. lra.
Qed.

(** Entries of the twist covariances published, in order. *)
Definition shown_twist (r : list (output RScalar unit)) (k : nat) : list R :=
  flat_map (fun o => match o with OutOdom m => [o_twist_cov m k] | _ => [] end) r.
Definition tw_rest (c : config RScalar) (d : callback_data RScalar) (n : node RScalar unit) (r : prepared RScalar) :=
  let n1 := fst (sensorCallback (list_pq RScalar) true (cd_topic d) 5 (cd_upd d) (cd_thresh d) (fun _ _ _ _ => r) n) in
  snd (node_step (list_pq RScalar) (ekf_vtbl ideal_eigen) c n1 (EvCycle 6 6 None)).
Definition tw_fact (P : option (list R)) (P67 P77 : R) : Prop :=
  match started (tw_par P) with
  | Some (ld, n) => exists d, ld_subs ld = [SubTwist d] /\ cd_upd d = flags [6%nat] /\ c_base (ld_config ld) = "base_link"%string /\
      forall v cv st dg, let r := tw_rest (ld_config ld) d n (mkPrep true (flags [6%nat]) v cv st dg) in
        shown_twist r 0 = [cv 6%nat 6%nat] /\ shown_twist r 1 = [P67] /\ shown_twist r 6 = [P67] /\ shown_twist r 7 = [P77]
  | None => False
  end.
(** Correlated velocities: the all-ones block at vx, vy. *)
Definition tw_corr (k : nat) : R := if Nat.eqb k 6 then 1 else if Nat.eqb k 7 then 1 else 0.
Definition tw_cov0 : list R := map (fun k => tw_corr (k / 15) * tw_corr (k mod 15)) (seq 0 225).

Ltac tw_facts :=
  unfold tw_fact;
  match goal with |- match ?x with _ => _ end => let y := eval hnf in x in change x with y end;
  cbv beta iota; eexists; split; [cbn; reflexivity|]; split; [reflexivity|]; split; [reflexivity|];
  intros; split; [lazy; reflexivity|].
Lemma tw_default : tw_fact None (1 / 1000000000 * 0) (1 / 1000000000 * 1).
Proof. tw_facts. split; [|split]; lazy; reflexivity. Qed.
Lemma tw_correlated : tw_fact (Some tw_cov0) (1 * 1) (1 * 1).
Proof. tw_facts. split; [|split]; lazy; reflexivity. Qed.

Lemma tw_shown P P67 P77 : tw_fact P P67 P77 ->
  exists ld n d m, started (tw_par P) = Some (ld, n) /\ ld_subs ld = [SubTwist d] /\ cd_upd d = flags [6%nat] /\
    c_base (ld_config ld) = "base_link"%string /\
    In (OutOdom m) (snd (respond (list_pq RScalar) (ekf_vtbl ideal_eigen) (ld_config ld) n (tw_ins ld))) /\
    o_twist_cov m 0%nat = 1 / 4 /\ o_twist_cov m 1%nat = P67 /\ o_twist_cov m 6%nat = P67 /\ o_twist_cov m 7%nat = P77.
Proof.
  unfold tw_fact. destruct (started (tw_par P)) as [[ld n]|]; [|contradiction].
  intros (d & H1 & H2 & H3 & H4).
  set (n1 := if sm_mem (n_last_msg n) (cd_topic d) then n
             else with_last_msg n (sm_set (n_last_msg n) (cd_topic d) 5%Z)).
  destruct (tw_prep (ld_config ld) (cd_topic d) n1 (cd_upd d) ltac:(rewrite H2; reflexivity)) as (P1 & P2 & P3).
  set (r := prepareTwist tw_env (ld_config ld) tw_msg (cd_topic d) "base_link" n1 (cd_upd d) vzero mzero) in *.
  assert (Er : r = mkPrep true (flags [6%nat]) (pr_val r) (pr_cov r) (pr_streams r) (pr_diag r)).
  { rewrite <- H2. revert P1 P2. destruct r as [o u v cv st dg]. cbn. intros -> ->. reflexivity. }
  specialize (H4 (pr_val r) (pr_cov r) (pr_streams r) (pr_diag r)). rewrite <- Er in H4. cbv zeta in H4.
  assert (R : exists o, snd (respond (list_pq RScalar) (ekf_vtbl ideal_eigen) (ld_config ld) n (tw_ins ld)) =
                o ++ tw_rest (ld_config ld) d n r).
  { unfold tw_ins. rewrite H1. cbn [map List.app].
    rewrite (proj2 (PrepareSeq.respond_cons _ _ _ EmptyString _ _)). cbn [snd].
    rewrite (proj2 (PrepareSeq.respond_cons _ _ _ EmptyString _ _)). cbn [snd].
    assert (D : deliver (list_pq RScalar) (ekf_vtbl ideal_eigen) (ld_config ld) n (Message tw_env (SubTwist d) (MsgTwist tw_msg)) =
      sensorCallback (list_pq RScalar) true (cd_topic d) 5 (cd_upd d) (cd_thresh d) (fun _ _ _ _ => r) n).
    { cbn [deliver receive]. rewrite H3. reflexivity. }
    rewrite D. eexists. rewrite app_nil_r. unfold tw_rest. reflexivity. }
  destruct R as [o Ro]. destruct H4 as (A & B & C & D). rewrite P3 in A.
  set (l := tw_rest (ld_config ld) d n r) in *. clearbody l.
  assert (exists m, In (OutOdom m) l /\ o_twist_cov m 0%nat = 1 / 4 /\ o_twist_cov m 1%nat = P67 /\ o_twist_cov m 6%nat = P67 /\ o_twist_cov m 7%nat = P77) as (m & Hm & G).
  { clear - A B C D. induction l as [|a l IH]; [discriminate A|].
    destruct a as [m| | | | | | | |]; try (destruct (IH A B C D) as (m' & Hm & G); exists m'; split; [right; exact Hm|exact G]).
    exists m. split; [left; reflexivity|]. apply (f_equal (hd 0)) in A, B, C, D. cbn in A, B, C, D.
    repeat split; assumption. }
  exists ld, n, d, m. split; [reflexivity|]. split; [exact H1|]. split; [exact H2|]. split; [exact H3|].
  split; [rewrite Ro; apply in_or_app; right; exact Hm|exact G].
Qed.

Lemma tw_msg_psd : message_psd (MsgTwist tw_msg).
Proof.
  cbn [message_psd]. eapply psd_ext; [|apply (psd_diag 6 (fun i => if Nat.eqb i 0 then 1 / 4 else 0)); intros i _; destruct (Nat.eqb i 0); lra].
  intros i j Hi Hj. unfold as_matrix, tw_msg. cbn [tw_cov].
  destruct (Nat.eqb_spec i j) as [<-|]; destruct i as [|i]; try destruct j as [|j]; try reflexivity; try congruence.
Qed.
Lemma tw_usable P ld n d : ld_subs ld = [SubTwist d] ->
  along (usable (ld_config ld) (ld_subs ld) (filter_after (list_pq RScalar) (ekf_vtbl ideal_eigen) (ld_config ld)))
    (list_pq RScalar) (ekf_vtbl ideal_eigen) (ld_config ld) n (tw_ins ld) /\ steady_clock 0 (tw_ins ld) /\ full_configs (tw_par P).
Proof.
  intros H. split; [|split].
  - unfold tw_ins. rewrite H. cbn [map List.app along]. split; [|split; exact I].
    split; [left; reflexivity|]. split; [reflexivity|]. split; [|exact tw_msg_psd].
    intros x y z t Ht. injection Ht as <-. exact no_motion_rigid.
  - unfold tw_ins. rewrite H. unfold steady_clock. cbn. repeat constructor; lia.
  - repeat constructor.
Qed.
Lemma tw_cov0_psd (M : rmat) : taken_as (K:=RScalar) (Some tw_cov0) mzero M -> psd 15 M.
Proof.
  intros [_ H]. specialize (H ltac:(cbn; discriminate)).
  assert (E : forall i j, (i < 15)%nat -> (j < 15)%nat -> M i j = tw_corr j * tw_corr i).
  { intros i j Hi Hj. specialize (H i j Hi Hj). unfold tw_cov0 in H. rewrite nth_error_map in H.
    rewrite (nth_error_nth' (seq 0 225) 0%nat) in H by (rewrite seq_length; lia).
    rewrite seq_nth in H by lia. cbn [option_map Nat.add] in H.
    replace ((i + 15 * j) / 15)%nat with j in H
      by (rewrite (Nat.mul_comm 15), Nat.div_add, Nat.div_small by lia; reflexivity).
    replace ((i + 15 * j) mod 15)%nat with i in H
      by (rewrite (Nat.mul_comm 15), Nat.mod_add, Nat.mod_small by lia; reflexivity).
    symmetry. injection H as H. exact H. }
  eapply psd_ext; [|apply (psd_sandwich 15 1 (fun i _ => tw_corr i) (fun _ _ => 1))].
  - intros i j Hi Hj. rewrite E by assumption. unfold rmul, rT. cbn [rsum]. ring.
  - split; [intros i j _ _; reflexivity|]. intros x. unfold quad. cbn [rsum]. pose proof (Rle_0_sqr (x 0%nat)) as Q. unfold Rsqr in Q. lra.
Qed.

(** The published covariance of a node configured with [tw_cov0] is indefinite. *)
Lemma tw_indefinite (C : nat -> R) : C 0%nat = 1 / 4 -> C 1%nat = 1 -> C 6%nat = 1 -> C 7%nat = 1 -> ~ psd 6 (as_matrix 6 C).
Proof.
  intros H0 H1 H6 H7 [_ H]. specialize (H (fun i => if Nat.eqb i 0 then 1 else if Nat.eqb i 1 then -1 else 0)).
  unfold quad, as_matrix in H. cbn in H. rewrite H0, H1, H6, H7 in H. lra.
Qed.

Lemma correlated_ex : exists (p : params RScalar) (v : list R) ld n is,
  start p 0 0 0 (@fb_init RScalar unit (fun _ => 0) tt) ex_ang86 vzero = Ok (ld, n) /\ full_configs p /\
  p_P p = Some v /\ (forall M, taken_as (K:=RScalar) (Some v) mzero M -> psd 15 M) /\ p_Q p = None /\ steady_clock 0 is /\
  along (usable (ld_config ld) (ld_subs ld) (filter_after (list_pq RScalar) (ekf_vtbl ideal_eigen) (ld_config ld)))
    (list_pq RScalar) (ekf_vtbl ideal_eigen) (ld_config ld) n is /\
  exists m, In (OutOdom m) (snd (respond (list_pq RScalar) (ekf_vtbl ideal_eigen) (ld_config ld) n is)) /\
    ~ psd 6 (as_matrix 6 (o_twist_cov m)).
Proof.
  destruct (tw_shown _ _ _ tw_correlated) as (ld & n & d & m & H1 & H2 & _ & _ & H3 & H4).
  exists (tw_par (Some tw_cov0)), tw_cov0, ld, n, (tw_ins ld). destruct (tw_usable (Some tw_cov0) ld n d H2) as (U1 & U2 & U3).
  split.
  - revert H1. unfold started, ex_new. destruct (start _ _ _ _ _ _ _) as [r|]; [|discriminate]. intros E. injection E as ->. reflexivity.
  - split; [exact U3|]. split; [reflexivity|]. split; [exact tw_cov0_psd|]. split; [reflexivity|]. split; [exact U2|]. split; [exact U1|].
    exists m. split; [exact H3|]. destruct H4 as (A & B & C & D). apply tw_indefinite; lra.
Qed.
