(** * Properties of what a started EKF node publishes (C93) *)

From Coq Require Import Reals Lra ZArith List Bool String Arith Lia.
From Verif Require Import Scalar Mat FilterBase Ekf StrMap RosFilter RosConfig RosPrepare
  SpecConfig SpecNode SpecLin SpecFilter SpecPrepare SpecStart SpecAccess SpecPublished
  EigenExist NodeMore NodeCarry PublishedFacts PublishedCase PropsConfig PropsStart.
Import ListNotations.

(** An execution over messages is an execution over events, with a few
    measurement events for each message. *)
Theorem C93_messages : forall (K : Scalar) E (pq : pqueue K) (vt : vtbl K E) c is n,
  exists ess, Forall2 expands is ess /\ respond pq vt c n is = node_run pq vt c n (List.concat ess).
Proof. exact (@respond_expands). Qed.
Print Assumptions C93_messages.

(** From start-up on, every published covariance is positive semi-definite. *)
Theorem C93_published : forall eig (pq : pqueue RScalar) (p : params RScalar) period now later g ang nothing ld n t0 is,
  pq_ok pq -> start p period now later (fb_init g tt) ang nothing = Ok (ld, n) -> full_configs p -> covariance_params p ->
  steady_clock t0 is ->
  along (usable (ld_config ld) (ld_subs ld) (filter_after pq (ekf_vtbl eig) (ld_config ld))) pq (ekf_vtbl eig) (ld_config ld) n is ->
  psd 15 (fb_P (n_filter (fst (respond pq (ekf_vtbl eig) (ld_config ld) n is)))) /\
  Forall published_psd (snd (respond pq (ekf_vtbl eig) (ld_config ld) n is)).
Proof. exact started_published. Qed.
Print Assumptions C93_published.

(** Not so when the initial covariance correlates variables: the first
    measurement replaces only the entries of the variables it measures. *)
Theorem C93_correlated_refuted : exists (p : params RScalar) (v : list R) ld n is,
  start p 0 0 0 (@fb_init RScalar unit (fun _ => 0%R) tt) ex_ang86 vzero = Ok (ld, n) /\ full_configs p /\
  p_P p = Some v /\ (forall M, taken_as (K:=RScalar) (Some v) mzero M -> psd 15 M) /\ p_Q p = None /\ steady_clock 0 is /\
  along (usable (ld_config ld) (ld_subs ld) (filter_after (list_pq RScalar) (ekf_vtbl ideal_eigen) (ld_config ld)))
    (list_pq RScalar) (ekf_vtbl ideal_eigen) (ld_config ld) n is /\
  exists m, In (OutOdom m) (snd (respond (list_pq RScalar) (ekf_vtbl ideal_eigen) (ld_config ld) n is)) /\
    ~ psd 6 (as_matrix 6 (o_twist_cov m)).
Proof. exact correlated_ex. Qed.
Print Assumptions C93_correlated_refuted.

(** A velocity and a cycle, with the default initial covariance. *)
Example C93_case : exists ld n is, started (tw_par None) = Some (ld, n) /\ full_configs (tw_par None) /\
  covariance_params (tw_par None) /\ steady_clock 0 is /\
  along (usable (ld_config ld) (ld_subs ld) (filter_after (list_pq RScalar) (ekf_vtbl ideal_eigen) (ld_config ld)))
    (list_pq RScalar) (ekf_vtbl ideal_eigen) (ld_config ld) n is /\
  exists m, In (OutOdom m) (snd (respond (list_pq RScalar) (ekf_vtbl ideal_eigen) (ld_config ld) n is)) /\ o_twist_cov m 0%nat = (1 / 4)%R.
Proof.
  destruct (tw_shown _ _ _ tw_default) as (ld & n & d & m & H1 & H2 & _ & _ & H3 & H4 & _).
  exists ld, n, (tw_ins ld). destruct (tw_usable None ld n d H2) as (U1 & U2 & U3).
  split; [exact H1|]. split; [exact U3|]. split; [split; intros v M H; discriminate H|]. split; [exact U2|]. split; [exact U1|].
  exists m. split; [exact H3|exact H4].
Qed.
