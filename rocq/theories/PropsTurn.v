(** * The choice of the heading (C98) *)

From Coq Require Import Reals ZArith List Bool Lra.
From Verif Require Import Scalar FilterBase FilterOps Ekf SpecLin SpecFilter SpecTurn EigenExist TurnFilter TurnCase.
Import ListNotations.
Local Open Scope R_scope.

(** Two EKFs are constructed alike and see the same history, one of them in a
    world frame turned about the vertical by [a].  Then their estimates differ
    by that turn only: x, y and yaw, and the rows and columns of x and y in
    the covariance.  Both accept and reject the same measurements. *)
Theorem C98_heading : forall a eig dyn g os os', eigen_inverse_ok eig ->
  run_ok dyn (ekf_vtbl eig) (fb_init g tt) os ->
  turned_ops a (ekf_vtbl eig) (fb_init g tt) os os' ->
  turned_filter a (fb_run (ekf_vtbl eig) (fb_init g tt) os) (fb_run (ekf_vtbl eig) (fb_init g tt) os').
Proof. exact init_run_turned. Qed.
Print Assumptions C98_heading.

(** It matters that the process noise treats x and y alike. *)
Theorem C98_noise_refuted : exists (f f' : ekf RScalar), turned_filter (PI / 2) f f' /\ fb_initialized f = true /\
  f' = set_state f (fb_state f') /\ psd 15 (fb_Q f) /\
  ~ turned_filter (PI / 2) (ekf_predict f 0 1000000000) (ekf_predict f' 0 1000000000).
Proof. exact tc_noise. Qed.
Print Assumptions C98_noise_refuted.

(** A start, a correction with different variances of x and y, and a
    prediction; the second frame's x axis points to the first one's -y. *)
Example C98_case : exists g, run_ok False (ekf_vtbl ideal_eigen) (fb_init g tt) tc_ops /\
  turned_ops (PI / 2) (ekf_vtbl ideal_eigen) (fb_init g tt) tc_ops tc_ops' /\
  let f := fb_run (ekf_vtbl ideal_eigen) (fb_init g tt) tc_ops in
  let f' := fb_run (ekf_vtbl ideal_eigen) (fb_init g tt) tc_ops' in
  fb_state f' 0%nat = - fb_state f 1%nat /\ fb_state f' 1%nat = fb_state f 0%nat /\
  fb_P f' 0%nat 0%nat = fb_P f 1%nat 1%nat /\ fb_P f' 1%nat 1%nat = fb_P f 0%nat 0%nat.
Proof. exact tc_result. Qed.
