(** * The filter in a mirror (C106) *)

From Coq Require Import Reals ZArith List Bool.
From Verif Require Import Scalar Mat FilterBase FilterOps Ekf SpecLin SpecFilter SpecTurn SpecMirror EigenExist MirrorFilter MirrorCase.
Import ListNotations.
Local Open Scope R_scope.

(** Two EKFs see the same history, one of them in a mirror that exchanges
    front and back, left and right, or up and down.  Then their estimates are
    mirror images of each other, and both accept and reject the same
    measurements. *)
Theorem C106_mirror : forall p eig dyn (g : vec RScalar) os os', eigen_inverse_ok eig ->
  run_ok dyn (ekf_vtbl eig) (fb_init g tt) os ->
  mirrored_ops p (ekf_vtbl eig) (fb_init g tt) os os' ->
  mirrored_filter p (fb_run (ekf_vtbl eig) (fb_init g tt) os)
                    (fb_run (ekf_vtbl eig) (@fb_init RScalar unit (mirror_vec p g) tt) os').
Proof. exact init_run_mirrored. Qed.
Print Assumptions C106_mirror.

(** A measured angle opposite to the expected one is an exception: filter and
    measurement are their own mirror images, the corrected filter is not. *)
Theorem C106_tie_refuted : exists (f : ekf RScalar) m, mirrored_filter Left_right f f /\ mirrored_meas Left_right m m /\
  psd 15 (fb_P f) /\ good_meas m /\ noisy m /\
  (forall eig, eigen_inverse_ok eig -> ~ mirrored_filter Left_right (ekf_correct eig f m) (ekf_correct eig f m)).
Proof. exact mc_tie_broken. Qed.
Print Assumptions C106_tie_refuted.

(** So are negative acceleration limits, which nothing rejects: they push a
    robot that stands still and is told to do so to one side. *)
Theorem C106_limit_refuted : exists (f : ekf RScalar), mirrored_filter Left_right f f /\ (forall i, fb_control f i = 0) /\
  (forall k, fb_state f k = 0) /\
  ~ mirrored_filter Left_right (ekf_predict f 0 1000000000) (ekf_predict f 0 1000000000).
Proof. exact mc_limit. Qed.
Print Assumptions C106_limit_refuted.

(** Two sightings, a command to turn left (in the mirror: right), and a
    prediction. *)
Example C106_case : run_ok False (ekf_vtbl ideal_eigen) (@fb_init RScalar unit (fun _ => 0) tt) (mc_ops 1) /\
  mirrored_ops Left_right (ekf_vtbl ideal_eigen) (@fb_init RScalar unit (fun _ => 0) tt) (mc_ops 1) (mc_ops (-1)) /\
  let f := fb_run (ekf_vtbl ideal_eigen) (@fb_init RScalar unit (fun _ => 0) tt) (mc_ops 1) in
  let f' := fb_run (ekf_vtbl ideal_eigen) (@fb_init RScalar unit (fun _ => 0) tt) (mc_ops (-1)) in
  fb_state f' 0%nat = fb_state f 0%nat /\ fb_state f' 1%nat = - fb_state f 1%nat /\ fb_state f' 11%nat = - fb_state f 11%nat /\
  same_angle (fb_state f' 5%nat) (- fb_state f 5%nat) /\ fb_P f' 0%nat 5%nat = - fb_P f 0%nat 5%nat.
Proof. exact mc_result. Qed.
