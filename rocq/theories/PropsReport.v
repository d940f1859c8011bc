(** * Reports about covariances (C88) *)

From Coq Require Import Reals ZArith List Bool String Arith Lia Lra.
From Verif Require Import Scalar Mat FilterBase StrMap Tf Diagnostics RosFilter RosConfig RosPrepare
  SpecConfig SpecNode SpecPrepare SpecReport RBridge NodeProofs ReportFacts NodeMore PrepareWit PropsConfig PropsStart PropsAccess.
Import ListNotations.

(** ** C88: a pose message is reported exactly when one of its used entries is
    large or one of its used variances is not positive *)
Theorem C88_pose : forall E (pq : pqueue RScalar) (e : penv RScalar) c d msg target source imu (n : node RScalar E) m,
  cd_differential d = false -> e_two_d e = false -> c_print_diag c = true ->
  let r := poseCallback pq e c d msg target source imu n in
  queued (snd r) = [m] ->
  (too_large (K:=RScalar) (ps_cov msg) (m_upd m) 0 6 \/ not_positive (ps_cov msg) (m_upd m) 0 6 ->
     exists text, reported (fst r) (cd_topic d) = Some text) /\
  (~ too_large (K:=RScalar) (ps_cov msg) (m_upd m) 0 6 -> ~ not_positive (ps_cov msg) (m_upd m) 0 6 ->
     reported (fst r) (cd_topic d) = reported n (cd_topic d)).
Proof. exact pose_reports. Qed.
Print Assumptions C88_pose.

Definition ex_env88 : penv RScalar := @mkEnv RScalar false 9.81%R [] (fun _ _ _ => Some t_identity) (fun _ => 0%Z) (fun _ => 0%R).
Definition ex_pose88 : pose_msg RScalar := @mkPose RScalar 5 "odom" v3zero (@mkQuat RScalar 0%R 0%R 0%R 1%R) (fun _ => 0%R).
Example C88_case :
  exists ld n d, started (ex_par true false None None [] [ex_pose (Some (repeat true 15))] [] [] None None) = Some (ld, n) /\
    In (SubPose d) (ld_subs ld) /\ cd_differential d = false /\ e_two_d ex_env88 = false /\ c_print_diag (ld_config ld) = true /\
    exists m, queued (snd (poseCallback (list_pq RScalar) ex_env88 (ld_config ld) d ex_pose88 "odom" "base_link" false n)) = [m].
Proof.
  assert (H : match started (ex_par true false None None [] [ex_pose (Some (repeat true 15))] [] [] None None) with
    | Some (ld, n) =>
        match ld_subs ld with
        | [SubPose d] => cd_differential d = false /\ c_print_diag (ld_config ld) = true /\
            Z.ltb (n_set_pose n) 5 = true /\ n_last_msg n = []
        | _ => False end
    | None => False end).
  { lazy; auto. }
  destruct (started _) as [[ld n]|]; [|contradiction]. exists ld, n.
  destruct (ld_subs ld) as [|s [|s' l]]; [contradiction| |destruct s; contradiction].
  destruct s as [t a b|a|a|t a b d]; try contradiction. destruct H as (H1 & H2 & H3 & H4). exists a.
  split; [reflexivity|]. split; [left; reflexivity|]. split; [exact H1|]. split; [reflexivity|]. split; [exact H2|].
  apply pose_is_queued; [exact H1|apply Z.ltb_lt; exact H3|exact H4|]. intros x y t. exists t_identity. reflexivity.
Qed.

(** Of a velocity or an acceleration only large entries are reported ... *)
Theorem C88_velocity : forall (K : Scalar) E (pq : pqueue K) (p : params K) period now (f : fb K E) ld s d,
  loadParams p period now f = Ok ld -> In s (ld_subs ld) -> velocity_stream s d ->
  forall e msg target (n : node K E), ~ too_large (tw_cov msg) (cd_upd d) 6 6 ->
  reported (fst (twistCallback pq e (ld_config ld) d msg target n)) (cd_topic d) = reported n (cd_topic d).
Proof. exact (@velocity_silent). Qed.
Print Assumptions C88_velocity.
Theorem C88_acceleration : forall (K : Scalar) E (pq : pqueue K) (p : params K) period now (f : fb K E) ld s d,
  loadParams p period now f = Ok ld -> In s (ld_subs ld) -> acceleration_stream s d ->
  forall e msg target (n : node K E), ~ too_large (im_acc_cov msg) (cd_upd d) 12 3 ->
  reported (fst (accelerationCallback pq e (ld_config ld) d msg target n)) (cd_topic d) = reported n (cd_topic d).
Proof. exact (@acceleration_silent). Qed.
Print Assumptions C88_acceleration.

(** ... so a zero variance of a used velocity is queued without a report. *)
Definition ex_zero_twist : twist_msg RScalar := @mkTwist RScalar 5 "base_link" v3zero v3zero (fun _ => 0%R).
Theorem C88_velocity_refuted :
  exists (p : params RScalar) ld n s d, started p = Some (ld, n) /\ In s (ld_subs ld) /\ velocity_stream s d /\
    c_print_diag (ld_config ld) = true /\ not_positive (tw_cov ex_zero_twist) (cd_upd d) 6 6 /\
    let r := twistCallback (list_pq RScalar) ex_env87 (ld_config ld) d ex_zero_twist "base_link" n in
    List.length (queued (snd r)) = 1%nat /\ reported (fst r) (cd_topic d) = None.
Proof.
  exists (ex_par87 (repeat true 15)).
  assert (H : match started (ex_par87 (repeat true 15)) with
    | Some (ld, n) =>
        match ld_subs ld with
        | [SubTwist d] => c_print_diag (ld_config ld) = true /\ nth 6 (cd_upd d) false = true /\ reported n (cd_topic d) = None /\
            List.length (queued (snd (twistCallback (list_pq RScalar) ex_env87 (ld_config ld) d ex_zero_twist "base_link" n))) = 1%nat
        | _ => False end
    | None => False end) by (lazy; auto).
  unfold started in *.
  destruct (start (ex_par87 (repeat true 15)) 0 0 0 ex_new ex_ang86 vzero) as [[ld n]|] eqn:Hst; [|contradiction].
  exists ld, n. destruct (ld_subs ld) as [|s [|s' l]] eqn:El; [contradiction| |destruct s; contradiction].
  destruct s as [t a b|a|a|t a b d]; try contradiction. destruct H as (H1 & H2 & H3 & H4).
  exists (SubTwist a), a. split; [reflexivity|]. split; [left; reflexivity|]. split; [reflexivity|].
  split; [exact H1|]. split; [exists 0%nat; repeat split; [lia|cbn; lra|exact H2]|].
  cbv zeta. split; [exact H4|].
  apply StartFacts.start_eq in Hst. destruct Hst as (HL & Hn).
  rewrite (C88_velocity RScalar unit (list_pq RScalar) _ _ _ _ ld (SubTwist a) a HL); [exact H3|rewrite El; left; reflexivity|reflexivity|].
  intros (i & j & _ & _ & Hx & _). apply Rltb_true in Hx. cbn [tw_cov ex_zero_twist] in Hx.
  pose proof (Hx : (IZR 1000 / IZR (10 ^ 0) < 0)%R) as Hy. change (10 ^ 0)%Z with 1%Z in Hy. lra.
Qed.
Print Assumptions C88_velocity_refuted.
(** a loaded acceleration stream *)
Example C88_acceleration_case : exists s d, In s (subs_of ex_full) /\ acceleration_stream s d /\ nth 12 (cd_upd d) false = true.
Proof.
  assert (H : match subs_of ex_full with
    | [_; _; _; SubImu _ _ _ d] => nth 12 (cd_upd d) false = true | _ => False end) by (lazy; reflexivity).
  destruct (subs_of ex_full) as [|s1 [|s2 [|s3 [|s4 [|s5 l]]]]]; try contradiction.
  - destruct s4; try contradiction. eexists _, _. split; [do 3 right; left; reflexivity|]. split; [reflexivity|exact H].
  - destruct s4; contradiction.
Qed.
