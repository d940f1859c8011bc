(** * Properties of the node after start-up (C86) *)

From Coq Require Import Reals Lra ZArith List Bool String Ascii Arith Lia.
From Verif Require Import Scalar Mat FilterBase Tf StrMap Diagnostics RosFilter RosConfig SpecConfig SpecNode SpecStart
  StartFacts PropsConfig.
Import ListNotations.

Theorem C86_fresh : forall (K : Scalar) E (p : params K) period now later g (e : E) ang nothing ld n,
  start p period now later (fb_init g e) ang nothing = Ok (ld, n) ->
  untouched_node n /\ n_enabled n = negb (p_disabled p) /\ ld_enabled ld = negb (p_disabled p) /\ n_last_diag n = later /\
  n_diag n = ld_diag ld /\ n_filter n = ld_filter ld.
Proof. exact (@start_fresh). Qed.
Print Assumptions C86_fresh.

Theorem C86_filter : forall (K : Scalar) E (p : params K) period now later g (e : E) ang nothing ld n,
  start p period now later (fb_init g e) ang nothing = Ok (ld, n) ->
  let f := n_filter n in
  fb_last_time f = now /\
  fb_sensor_timeout f = dur_from_seconds (timeout_of (p_sensor_timeout p) (p_frequency p)) /\
  fb_use_dyn f = p_dynamic_noise p /\
  (forall v, p_initial_state p = Some v -> List.length v = 15%nat ->
     forall i, (i < 15)%nat -> nth_error v i = Some (fb_state f i)) /\
  ((forall v, p_initial_state p = Some v -> List.length v <> 15%nat) -> forall i, fb_state f i = s_ofZ 0) /\
  taken_as (p_Q p) default_Q (fb_Q f) /\ fb_dynQ f = fb_Q f /\
  taken_as (p_P p) (mscale (lit 1 9) meye) (fb_P f) /\
  taken_as (p_Q p) mzero (c_Q (ld_config ld)) /\ taken_as (p_P p) mzero (c_P (ld_config ld)).
Proof. exact (@start_filter). Qed.
Print Assumptions C86_filter.

Theorem C86_options : forall (K : Scalar) E (p : params K) period now later (f : fb K E) ang nothing ld n,
  start p period now later f ang nothing = Ok (ld, n) ->
  let c := ld_config ld in
  c_smooth c = p_smooth p /\ c_predict_now c = p_predict_now p /\ c_permit c = p_permit p /\
  c_publish_tf c = p_publish_tf p /\ c_publish_acc c = p_publish_acc p /\ c_print_diag c = p_print_diag p /\
  c_history c = dur_from_seconds (s_abs (p_history p)) /\
  c_sensor_timeout c = dur_from_seconds (timeout_of (p_sensor_timeout p) (p_frequency p)) /\
  c_tf_offset c = dur_from_seconds (p_tf_offset p) /\ c_diag_period c = period /\
  ld_gravity ld = p_gravity p /\ ld_two_d ld = p_two_d p /\ ld_tf_timeout ld = dur_from_seconds (p_tf_timeout p) /\
  (forall i o, nth_error (p_imus p) i = Some o ->
     sm_find (ld_gravity_flags ld) (numbered "imu" i ++ "_acceleration") = Some (ip_remove_gravity o)) /\
  (forall k, (forall i, (i < List.length (p_imus p))%nat -> k <> (numbered "imu" i ++ "_acceleration")%string) ->
     sm_find (ld_gravity_flags ld) k = None).
Proof. exact (@start_options). Qed.
Print Assumptions C86_options.

Theorem C86_control : forall (K : Scalar) E (p : params K) period now later g (e : E) ang nothing ld n,
  start p period now later (fb_init g e) ang nothing = Ok (ld, n) ->
  let f := n_filter n in
  fb_use_control f = c_use_control (ld_config ld) /\
  (c_use_control (ld_config ld) = false -> n_ctl n = nothing) /\
  (c_use_control (ld_config ld) = true ->
     n_ctl n = vzero /\
     fb_control_timeout f = dur_from_seconds (p_control_timeout p) /\
     fb_acc_limits f = or_else (p_acc_limits p) (repeat (s_ofZ 1) 6) /\
     fb_dec_limits f = or_else (p_dec_limits p) (fb_acc_limits f) /\
     gains_taken (p_acc_gains p) [] (fb_acc_gains f) /\
     gains_taken (p_dec_gains p) (fb_acc_gains f) (fb_dec_gains f)).
Proof. exact (@start_control). Qed.
Print Assumptions C86_control.

(** A node started disabled fuses, predicts and publishes nothing before the
    enabling service is called. *)
Theorem C86_disabled : forall (K : Scalar) E (pq : pqueue K) (vt : vtbl K E) (p : params K) period now later g (e : E) ang nothing ld n es,
  pq_ok pq -> start p period now later (fb_init g e) ang nothing = Ok (ld, n) -> p_disabled p = true -> Forall not_enable es ->
  let r := node_run pq vt (ld_config ld) n es in
  fused (snd r) = [] /\ intervals (snd r) = [] /\ odoms (snd r) = [] /\ accels (snd r) = [] /\ tfs (snd r) = [] /\
  fb_initialized (n_filter (fst r)) = false.
Proof. exact (@start_disabled). Qed.
Print Assumptions C86_disabled.

(** A matrix of 225 entries is read column by column ... *)
Theorem C86_transposed : forall (K : Scalar) E (p : params K) period now later g (e : E) ang nothing ld n v,
  start p period now later (fb_init g e) ang nothing = Ok (ld, n) -> List.length v <> 15%nat ->
  (p_Q p = Some v -> row_major v (mT (fb_Q (n_filter n)))) /\ (p_P p = Some v -> row_major v (mT (fb_P (n_filter n)))).
Proof. exact (@start_transposed). Qed.
Print Assumptions C86_transposed.
(** ... which makes no difference if it is symmetric ... *)
Theorem C86_symmetric : forall (K : Scalar) E (p : params K) period now later g (e : E) ang nothing ld n v,
  start p period now later (fb_init g e) ang nothing = Ok (ld, n) -> List.length v <> 15%nat ->
  (forall i j, (i < 15)%nat -> (j < 15)%nat -> nth_error v (15 * i + j) = nth_error v (15 * j + i)) ->
  (p_Q p = Some v -> row_major v (fb_Q (n_filter n))) /\ (p_P p = Some v -> row_major v (fb_P (n_filter n))).
Proof. exact (@start_symmetric). Qed.
Print Assumptions C86_symmetric.
(** ... and does otherwise, because the written order is by rows. *)
Definition ex_one (k : nat) : list R := map (fun i => if Nat.eqb i k then 1%R else 0%R) (seq 0 225).
Definition ex_ang86 : angular RScalar := @mkAng RScalar v3zero mzero v3zero 0%R.
Definition started (p : params RScalar) : option (loaded RScalar unit * node RScalar unit) :=
  match start p 0 0 0 ex_new ex_ang86 vzero with Ok r => Some r | Undefined => None end.
Theorem C86_row_major_refuted :
  exists (p : params RScalar) ld n v, started p = Some (ld, n) /\ p_P p = Some v /\ List.length v = 225%nat /\
    ~ row_major v (fb_P (n_filter n)).
Proof.
  exists (ex_par true false None None [] [] [] [] None (Some (ex_one 1))). eexists _, _, (ex_one 1).
  split; [reflexivity|]. split; [reflexivity|]. split; [reflexivity|].
  intros H. specialize (H 0%nat 1%nat ltac:(lia) ltac:(lia)). cbn in H. injection H. lra.
Qed.
Print Assumptions C86_row_major_refuted.

Lemma started_case p (P : loaded RScalar unit -> node RScalar unit -> Prop) :
  match started p with Some (ld, n) => P ld n | None => False end -> exists ld n, started p = Some (ld, n) /\ P ld n.
Proof. destruct (started p) as [[ld n]|]; [eauto|contradiction]. Qed.
Example C86_case :
  (exists ld n, started ex_full = Some (ld, n) /\ c_use_control (ld_config ld) = true /\ n_enabled n = true /\
     sm_find (ld_gravity_flags ld) "imu0_acceleration" = Some true /\ fb_acc_gains (n_filter n) = repeat 1%R 6) /\
  (exists ld n, started (ex_par true false None None [] [] [] [] (Some (repeat 2%R 15)) (Some (ex_one 0))) = Some (ld, n) /\
     fb_Q (n_filter n) 3%nat 3%nat = 2%R /\ fb_P (n_filter n) 0%nat 0%nat = 1%R).
Proof. split; apply started_case; lazy; repeat split. Qed.
(** a node started disabled *)
Definition ex_disabled : params RScalar :=
  @mkParams RScalar true 9.81%R "map" "odom" "base_link" None None None true false true 0%R 0%R 30%R false None
    true false 0%R false 1%R None None None None None false None true [] [] [] [] None None.
Example C86_disabled_case : exists ld n, started ex_disabled = Some (ld, n) /\ n_enabled n = false /\
  Forall not_enable [EvSensor (E := unit) true "odom0_pose" 5 (repeat true 15) (1%R : RScalar) (fun _ u v c => mkPrep true u v c no_streams []);
     EvCycle 6 6 None].
Proof. eexists _, _. split; [reflexivity|]. split; [reflexivity|]. repeat constructor. Qed.
