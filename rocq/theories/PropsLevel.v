(** * Properties of a started EKF node in two_d_mode (C94) *)

From Coq Require Import Reals ZArith List Bool String Arith.
From Verif Require Import Scalar Mat FilterBase FilterOps Ekf StrMap Tf RosFilter RosConfig RosPrepare
  SpecConfig SpecNode SpecTf SpecLin SpecFilter SpecPrepare SpecStart SpecAccess SpecPublished SpecLevel
  EigenExist NodeMore LevelPrepare LevelNode LevelCase PropsConfig PropsStart.
Import ListNotations.

(** Every queued measurement measures the variables outside the plane as zero. *)
Theorem C94_forced : forall (K : Scalar) E (pq : pqueue K) (vt : vtbl K E) c, pq_ok pq -> forall is n,
  (forall i, In i is -> match i with
                        | Message e _ _ => e_two_d e = true
                        | Event (EvSensor _ _ _ _ _ _) => False
                        | Event _ => True
                        end) ->
  Forall forced (queued (snd (respond pq vt c n is))).
Proof. exact (@run_forced). Qed.
Print Assumptions C94_forced.

(** From start-up on, the estimate and what is published stay in the plane. *)
Theorem C94_planar : forall eig (pq : pqueue RScalar) (p : params RScalar) period now later g ang nothing ld n t0 is,
  eigen_inverse_ok eig -> pq_ok pq -> start p period now later (fb_init g tt) ang nothing = Ok (ld, n) ->
  p_two_d p = true -> full_configs p -> covariance_params p -> planar_params p -> steady_clock t0 is ->
  along (usable_level (ld_two_d ld) (ld_config ld) (ld_subs ld) (filter_after pq (ekf_vtbl eig) (ld_config ld)))
    pq (ekf_vtbl eig) (ld_config ld) n is ->
  let f := n_filter (fst (respond pq (ekf_vtbl eig) (ld_config ld) n is)) in
  (fb_initialized f = true -> planar_state (fb_state f)) /\ decoupled 15 vertical (fb_P f) /\
  Forall (fun o => published_planar o /\ published_psd o) (snd (respond pq (ekf_vtbl eig) (ld_config ld) n is)).
Proof. exact started_planar. Qed.
Print Assumptions C94_planar.

(** A diagonal covariance is not enough: with roll and pitch rates of unequal
    variances and a sensor turned about the vertical, forcing makes the queued
    covariance indefinite. *)
Theorem C94_unequal_refuted : exists (p : params RScalar) ld n (e : penv RScalar) s (t : twist_msg RScalar) m,
  start p 0 0 0 (@fb_init RScalar unit (fun _ => 0%R) tt) ex_ang86 vzero = Ok (ld, n) /\ p_two_d p = true /\ full_configs p /\
  In s (ld_subs ld) /\ e_two_d e = true /\ level_buffer (e_buffer e) /\
  psd 6 (as_matrix 6 (tw_cov t)) /\ diagonal 6 (as_matrix 6 (tw_cov t)) /\
  In m (queued (snd (respond (list_pq RScalar) (ekf_vtbl ideal_eigen) (ld_config ld) n [Message e s (MsgTwist t)]))) /\ ~ psd 15 (m_cov m).
Proof. exact unequal_ex. Qed.
Print Assumptions C94_unequal_refuted.

(** Commands are not forced: one of the vertical velocity leaves the plane. *)
Theorem C94_control_refuted : exists ops,
  forall eig g, let s := fb_run (ekf_vtbl eig) (@fb_init RScalar unit g tt) ops in
    planar_state (fb_state s) /\ decoupled 15 vertical (fb_P s) /\ fb_state (ekf_predict s 0 1) 14%nat <> 0%R.
Proof. exact vertical_control_ex. Qed.
Print Assumptions C94_control_refuted.

(** Forward at 1 m/s and up at 5 m/s: the former is published. *)
Example C94_case : exists ld n is, started lv_par = Some (ld, n) /\ p_two_d lv_par = true /\ full_configs lv_par /\
  covariance_params lv_par /\ planar_params lv_par /\ steady_clock 0 is /\
  along (usable_level (ld_two_d ld) (ld_config ld) (ld_subs ld) (filter_after (list_pq RScalar) (ekf_vtbl ideal_eigen) (ld_config ld)))
    (list_pq RScalar) (ekf_vtbl ideal_eigen) (ld_config ld) n is /\
  exists m, In (OutOdom m) (snd (respond (list_pq RScalar) (ekf_vtbl ideal_eigen) (ld_config ld) n is)) /\ X (o_linear m) = 1%R.
Proof.
  destruct lv_runs as (ld & n & H1 & H2 & (d & H3 & _) & H4 & _).
  exists ld, n, (lv_ins ld). destruct (lv_usable ld n d H2 H3) as (U1 & U2). destruct lv_params as (Q1 & Q2 & Q3).
  split; [exact H1|]. split; [reflexivity|]. split; [exact Q1|]. split; [exact Q2|]. split; [exact Q3|]. split; [exact U2|].
  split; [exact U1|exact H4].
Qed.
(** A message in two_d_mode is an input of [C94_forced]. *)
Example C94_forced_case : forall s, match (Message (lv_env no_motion) s (MsgTwist (lv_msg lv_even)) : input (E := unit)) with
  | Message e _ _ => e_two_d e = true | Event _ => False end.
Proof. reflexivity. Qed.
