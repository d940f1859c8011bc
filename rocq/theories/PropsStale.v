(** * The velocity command nobody has given yet (C91)

    FilterBase's constructor allocates [latest_control_] without setting it;
    [g] and [g'] below are two contents the memory may have had. *)

From Coq Require Import Reals ZArith List Bool String Lia Lra.
From Verif Require Import EstimatorFilter Scalar Mat SpecMotion FilterBase Tf StrMap RosFilter RosConfig RosPrepare Ekf Ukf RBridge Motion FilterExtra
  SpecNode SpecStale StaleFacts NodeMore PrepareWit PropsConfig PropsStart PropsAccess PropsCommand.
Import ListNotations.

(** ** C91: two nodes started alike that differ in what that memory held send,
    queue and fuse the same, command or no command later on, as long as cycles
    and fused measurements are timed at or after control_timeout *)
Theorem C91_started : forall (K : Scalar) E (pq : pqueue K) (vt : vtbl K E) (p : params K) period now later g g' (e : E) ang nothing ld n,
  blind_when_timed_out vt -> start p period now later (fb_init g e) ang nothing = Ok (ld, n) ->
  forall es t, Forall blind_event es ->
  (dur_from_seconds (p_control_timeout p) <= t)%Z -> cycles_from t es -> fused_from t (snd (node_run pq vt (ld_config ld) n es)) ->
  exists ld' n', start p period now later (fb_init g' e) ang nothing = Ok (ld', n') /\ ld_config ld' = ld_config ld /\
    map observed (snd (node_run pq vt (ld_config ld') n' es)) = map observed (snd (node_run pq vt (ld_config ld) n es)).
Proof. exact (@unset_command). Qed.
Print Assumptions C91_started.

(** A node that uses no control does so at any time, from any state. *)
Theorem C91_unused : forall (K : Scalar) E (pq : pqueue K) (vt : vtbl K E) c (n : node K E) u es t,
  blind_when_timed_out vt -> fb_use_control (n_filter n) = false -> Forall blind_event es ->
  cycles_from t es -> fused_from t (snd (node_run pq vt c n es)) ->
  map observed (snd (node_run pq vt c n es)) = map observed (snd (node_run pq vt c (other_memory u n) es)).
Proof.
  exact (fun K E pq vt c n u es t B U H1 H2 H3 =>
    run_rel t vt B pq c es n _ (memory_rel t n u (or_introl U)) H1 H2 H3).
Qed.
Print Assumptions C91_unused.

(** Both filters and all three preparations meet the conditions. *)
Theorem C91_filters : forall (K : Scalar) eig, blind_when_timed_out (@ekf_vtbl K eig) /\ blind_when_timed_out (@ukf_vtbl K eig).
Proof. exact (fun K eig => conj (ekf_blind eig) (ukf_blind eig)). Qed.
Print Assumptions C91_filters.
Theorem C91_preparations : forall (K : Scalar) E e c topic target,
  (forall msg source differential relative imu, blind_prep (preparePose (K := K) (E := E) e c msg topic target source differential relative imu)) /\
  (forall msg, blind_prep (prepareTwist (K := K) (E := E) e c msg topic target)) /\
  (forall msg relative, blind_prep (prepareAcceleration (K := K) (E := E) e c msg topic target relative)).
Proof.
  exact (fun K E e c topic target => conj (fun msg => pose_blind e c msg topic target)
    (conj (fun msg => twist_blind e c msg topic target) (fun msg => acceleration_blind e c msg topic target))).
Qed.
Print Assumptions C91_preparations.

(** ** A concrete execution: two messages fused two and three seconds after
    time zero by a node that uses control and was given no command *)
Definition ex_ins91 (ld : loaded RScalar unit) : list (event RScalar unit) :=
  ex_twist89 ld 2000000000 ++ EvCycle 2500000000 2500000000 None :: ex_twist89 ld 3000000000 ++ [EvCycle 3500000000 3500000000 None].
Definition fused_times (os : list (output RScalar unit)) : list Z :=
  flat_map (fun o => match o with OutFused _ m => [m_time m] | _ => [] end) os.
Lemma fused_times_from t os : Forall (fun z => (t <= z)%Z) (fused_times os) -> fused_from t os.
Proof.
  unfold fused_from. induction os as [|o os IH]; intros H; [constructor|]. cbn in H. apply Forall_app in H. destruct H as (H & H').
  constructor; [|apply IH, H']. destruct o; try exact I. inversion H; assumption.
Qed.
Example C91_case : blind_when_timed_out prep_still /\ exists ld n, started ex_par89 = Some (ld, n) /\
  (c_use_control (ld_config ld) = true /\ (dur_from_seconds (p_control_timeout ex_par89) <= 2000000000)%Z /\
   Forall blind_event (ex_ins91 ld) /\ cycles_from 2000000000 (ex_ins91 ld) /\
   fused_times (snd (node_run (list_pq RScalar) prep_still (ld_config ld) n (ex_ins91 ld))) = [2000000000; 3000000000]%Z).
Proof.
  split; [repeat split|].
  assert (D : (dur_from_seconds (p_control_timeout ex_par89) <= 2000000000)%Z).
  { pose proof (dur_from_seconds_close 1%R) as H. change (p_control_timeout ex_par89) with 1%R. apply Rabs_def2 in H. apply le_IZR. lra. }
  assert (B : forall ld, Forall blind_event (ex_ins91 ld) /\ cycles_from 2000000000 (ex_ins91 ld)).
  { intros ld. unfold ex_ins91, ex_twist89, cycles_from. destruct (ld_subs ld) as [|[t a b|a|a|t a b d] [|s l]];
      (split; repeat (apply Forall_cons || apply Forall_nil); try exact I; try lia; apply twist_blind). }
  apply started_case.
  assert (H : match started ex_par89 with
    | Some (ld, n) => c_use_control (ld_config ld) = true /\
        fused_times (snd (node_run (list_pq RScalar) prep_still (ld_config ld) n (ex_ins91 ld))) = [2000000000; 3000000000]%Z
    | None => False end) by (lazy; split; reflexivity).
  destruct (started ex_par89) as [[ld n]|]; [|exact H]. destruct H as (H1 & H2). destruct (B ld). auto.
Qed.

(** ** Before the timeout the command is read: a filter that was given none
    predicts the acceleration [1] or [0], depending on the memory *)
Definition ex_ctl91 (g : R) : ekf RScalar :=
  setControlParams (@fb_init RScalar unit (fun _ => g) tt) (repeat true 6) 1000000000
    (repeat 1%R 6) (repeat 1%R 6) (repeat 1%R 6) (repeat 1%R 6).
Theorem C91_early_refuted :
  fb_control_time (ex_ctl91 0) = 0%Z /\ with_command (K := RScalar) (fun _ => 0%R) (ex_ctl91 1) = ex_ctl91 0 /\
  fb_state (ekf_predict (ex_ctl91 0) 500000000 100000000) 12%nat = 0%R /\
  fb_state (ekf_predict (ex_ctl91 1) 500000000 100000000) 12%nat = 1%R.
Proof.
  split; [reflexivity|]. split; [reflexivity|].
  assert (A : forall g : R, (g = 0 \/ g = 1)%R -> fb_state (ekf_predict (ex_ctl91 g) 500000000 100000000) 12%nat = g).
  { intros g Hg. destruct (ekf_predict_motion (ex_ctl91 g) 500000000 100000000) as (_ & _ & _ & _ & _ & _ & H).
    - apply (@tf_inv_init RScalar unit (fun _ => g) tt).
    - specialize (H 0%nat ltac:(lia)). change (12 + 0)%nat with 12%nat in H. rewrite H. clear H.
      change (controlled_state (fun i => nth i (fb_control_upd (ex_ctl91 g)) false) (fb_control_acc (ekf_predict (ex_ctl91 g) 500000000 100000000))
        (fb_state (ex_ctl91 g)) (100000000 / 1000000000) 12%nat) with (@computeControlAcceleration RScalar 0%R g 1%R 1%R 1%R 1%R).
      unfold computeControlAcceleration. rewrite s_min_R, s_max_R. toR. destruct (Rltb _ _); unfold Rmin, Rmax; repeat destruct Rle_dec; lra. }
  split; apply A; auto.
Qed.
Print Assumptions C91_early_refuted.
