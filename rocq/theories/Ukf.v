(** * Unscented Kalman filter: src/ukf.cpp *)

From Coq Require Import ZArith Bool List Arith.
From Verif Require Import Scalar Mat FilterBase.
Import ListNotations.

Section Ukf.
Context {K : Scalar} (eig : Eigen K).
Local Open Scope sc_scope.

Notation SIGMA_COUNT := 31%nat (only parsing).   (* ukf.cpp 50: (15 << 1) + 1 *)

(** ukf.hpp 110-145 *)
Record ukf_ext : Type := mkUkfExt {
  u_sigma : nat -> vec K;        (* sigma_points_ *)
  u_sqrt : mat K;                (* weighted_covar_sqrt_ *)
  u_sw : vec K;                  (* state_weights_ *)
  u_cw : vec K;                  (* covar_weights_ *)
  u_lambda : K;                  (* lambda_ *)
  u_uncorrected : bool           (* uncorrected_ *)
}.

Definition ukf : Type := fb K ukf_ext.

Definition ext_set_sigma (e : ukf_ext) (sg : nat -> vec K) (sq : mat K) : ukf_ext :=
  mkUkfExt sg sq (u_sw e) (u_cw e) (u_lambda e) (u_uncorrected e).
Definition ext_set_uncorrected (e : ukf_ext) (b : bool) : ukf_ext :=
  mkUkfExt (u_sigma e) (u_sqrt e) (u_sw e) (u_cw e) (u_lambda e) b.

(** ukf.cpp 46-54: the weights are zero-initialised by resize; sigma points,
    lambda_ and the square root are uninitialised ([garbage_*]). *)
Definition ukf_init (garbage : vec K) (garbage_sigma : nat -> vec K)
    (garbage_sqrt : mat K) (garbage_lambda : K) : ukf :=
  fb_init garbage (mkUkfExt garbage_sigma garbage_sqrt vzero vzero garbage_lambda true).

(** ukf.cpp 58-72 *)
Definition ukf_lambda (alpha kappa : K) : K :=
  alpha * alpha * (s_ofZ 15 + kappa) - s_ofZ 15.
Definition ukf_sw (lambda : K) : vec K :=
  fun i => if Nat.eqb i 0 then lambda / (s_ofZ 15 + lambda)
           else 1 / (2 * (s_ofZ 15 + lambda)).
Definition ukf_cw (alpha beta lambda : K) : vec K :=
  fun i => if Nat.eqb i 0 then ukf_sw lambda 0%nat + (1 - alpha * alpha + beta)
           else ukf_sw lambda i.
Definition setConstants (s : ukf) (alpha kappa beta : K) : ukf :=
  let lambda := ukf_lambda alpha kappa in
  set_ext s (mkUkfExt (fun _ => vzero) (u_sqrt (fb_ext s))
    (ukf_sw lambda) (ukf_cw alpha beta lambda) lambda (u_uncorrected (fb_ext s))).

(** ukf.cpp 387-405: sigma point 0 is the state, 1..15 state + column,
    16..30 state - column. *)
Definition sigma_points_of (x : vec K) (L : mat K) : nat -> vec K :=
  fun i k =>
    if Nat.eqb i 0 then x k
    else if Nat.leb i STATE_SIZE then x k + L k (i - 1)%nat
    else x k - L k (i - 1 - STATE_SIZE)%nat.

Definition generateSigmaPoints (s : ukf) : ukf :=
  let L := e_llt eig STATE_SIZE (mscale (s_ofZ 15 + u_lambda (fb_ext s)) (fb_P s)) in
  set_ext s (ext_set_sigma (fb_ext s) (sigma_points_of (fb_state s) L) L).

(** ukf.cpp 411-482: entries of the transfer function, assigned on top of the persistent
    matrix [F]; entries that read back a value just written use that value. *)
Definition ukf_transfer (F : mat K) (x : vec K) (dt : K) : mat K :=
  let roll := x StateMemberRoll in
  let pitch := x StateMemberPitch in
  let yaw := x StateMemberYaw in
  let sp := s_sin pitch in
  let cp := s_cos pitch in
  let cpi := 1 / cp in
  let tp := sp * cpi in
  let sr := s_sin roll in
  let cr := s_cos roll in
  let sy := s_sin yaw in
  let cy := s_cos yaw in
  let half := lit 5 1 in
  let x_vx := cy * cp * dt in
  let x_vy := (cy * sp * sr - sy * cr) * dt in
  let x_vz := (cy * sp * cr + sy * sr) * dt in
  let y_vx := sy * cp * dt in
  let y_vy := (sy * sp * sr + cy * cr) * dt in
  let y_vz := (sy * sp * cr - cy * sr) * dt in
  let z_vx := - sp * dt in
  let z_vy := cp * sr * dt in
  let z_vz := cp * cr * dt in
  let F := mset F StateMemberX StateMemberVx x_vx in
  let F := mset F StateMemberX StateMemberVy x_vy in
  let F := mset F StateMemberX StateMemberVz x_vz in
  let F := mset F StateMemberX StateMemberAx (half * x_vx * dt) in
  let F := mset F StateMemberX StateMemberAy (half * x_vy * dt) in
  let F := mset F StateMemberX StateMemberAz (half * x_vz * dt) in
  let F := mset F StateMemberY StateMemberVx y_vx in
  let F := mset F StateMemberY StateMemberVy y_vy in
  let F := mset F StateMemberY StateMemberVz y_vz in
  let F := mset F StateMemberY StateMemberAx (half * y_vx * dt) in
  let F := mset F StateMemberY StateMemberAy (half * y_vy * dt) in
  let F := mset F StateMemberY StateMemberAz (half * y_vz * dt) in
  let F := mset F StateMemberZ StateMemberVx z_vx in
  let F := mset F StateMemberZ StateMemberVy z_vy in
  let F := mset F StateMemberZ StateMemberVz z_vz in
  let F := mset F StateMemberZ StateMemberAx (half * z_vx * dt) in
  let F := mset F StateMemberZ StateMemberAy (half * z_vy * dt) in
  let F := mset F StateMemberZ StateMemberAz (half * z_vz * dt) in
  let F := mset F StateMemberRoll StateMemberVroll dt in
  let F := mset F StateMemberRoll StateMemberVpitch (sr * tp * dt) in
  let F := mset F StateMemberRoll StateMemberVyaw (cr * tp * dt) in
  let F := mset F StateMemberPitch StateMemberVpitch (cr * dt) in
  let F := mset F StateMemberPitch StateMemberVyaw (- sr * dt) in
  let F := mset F StateMemberYaw StateMemberVpitch (sr * cpi * dt) in
  let F := mset F StateMemberYaw StateMemberVyaw (cr * cpi * dt) in
  let F := mset F StateMemberVx StateMemberAx dt in
  let F := mset F StateMemberVy StateMemberAy dt in
  let F := mset F StateMemberVz StateMemberAz dt in
  F.

(** ukf.cpp 407-485; also returns the updated persistent matrix. *)
Definition projectSigmaPoint (F : mat K) (pt : vec K) (delta : Z) : mat K * vec K :=
  let F1 := ukf_transfer F pt (dur_seconds delta) in
  (F1, mvmul STATE_SIZE F1 pt).

(** ukf.cpp 331-333: projection of the sigma points in order, threading the
    persistent transfer function matrix. *)
Fixpoint project_all (n : nat) (F : mat K) (sg : nat -> vec K) (delta : Z)
    : mat K * (nat -> vec K) :=
  match n with
  | O => (F, sg)
  | S k =>
      let (F1, sg1) := project_all k F sg delta in
      let (F2, pt) := projectSigmaPoint F1 (sg1 k) delta in
      (F2, fun i => if Nat.eqb i k then pt else sg1 i)
  end.

(** Weighted sums over sigma points (ukf.cpp 206-236, 331-343).  The code
    overwrites the running angle average in every iteration; the value after
    the loop is the one of the complete sums. *)
Definition wsum (w : vec K) (f : nat -> K) : K := sumn SIGMA_COUNT (fun i => w i * f i).
Definition angle_avg (w : vec K) (f : nat -> K) : K :=
  s_atan2 (wsum w (fun i => s_sin (f i))) (wsum w (fun i => s_cos (f i))).

(** ukf.cpp 330-348 *)
Definition sigma_mean (w : vec K) (sg : nat -> vec K) : vec K :=
  fun k => if is_angle k then angle_avg w (fun i => sg i k) else wsum w (fun i => sg i k).

(** ukf.cpp 353-362 *)
Definition sigma_diff_full (sg : nat -> vec K) (x : vec K) (i : nat) : vec K :=
  wrap_angles (vsub (sg i) x).
Definition sigma_cov (cw : vec K) (sg : nat -> vec K) (x : vec K) : mat K :=
  fun a b => sumn SIGMA_COUNT (fun i => cw i * outer (sigma_diff_full sg x i) (sigma_diff_full sg x i) a b).

(** ukf.cpp 310-385 *)
Definition ukf_predict (s : ukf) (reference_time delta : Z) : ukf :=
  let s := prepareControl s reference_time in
  let s := generateSigmaPoints s in
  let e := fb_ext s in
  let (F, sg) := project_all SIGMA_COUNT (fb_F s) (u_sigma e) delta in
  let x := sigma_mean (u_sw e) sg in
  let P := sigma_cov (u_cw e) sg x in
  let s := set_F (set_ext (set_state s x) (ext_set_sigma e sg (u_sqrt e))) F in
  let s := if fb_use_dyn s then computeDynamicProcessNoiseCovariance s (fb_state s) else s in
  let Q := if fb_use_dyn s then fb_dynQ s else fb_Q s in
  let s := wrapStateAngles (set_P s (madd P (mscale (dur_seconds delta) Q))) in
  set_ext s (ext_set_uncorrected (fb_ext s) true).

(** ukf.cpp 74-308: correct *)
Record ukf_update : Type := mkUkfUpdate {
  uu_n : nat;
  uu_R : mat K;           (* measurement_covariance_subset *)
  uu_zhat : vec K;        (* predicted_measurement *)
  uu_Pzz : mat K;         (* predicted_meas_covar *)
  uu_Pxz : mat K;         (* cross_covar *)
  uu_inv : mat K;         (* inv_innov_cov *)
  uu_K : mat K;           (* kalman_gain_subset *)
  uu_innov : vec K        (* innovation_subset *)
}.

(** ukf.cpp 206-208 *)
Definition sigma_meas (idx : list nat) (sg : nat -> vec K) : nat -> vec K :=
  fun i => mvmul STATE_SIZE (state_to_meas idx) (sg i).

(** ukf.cpp 209-235 *)
Definition predicted_meas (w : vec K) (idx : list nat) (zs : nat -> vec K) : vec K :=
  fun a => if is_angle (nth a idx 0%nat) then angle_avg w (fun i => zs i a)
           else wsum w (fun i => zs i a).

(** ukf.cpp 243-253: the state difference; the loop wraps entry [i] of the
    state difference for every subset position [i] that holds an angle. *)
Definition sigma_state_diff (idx : list nat) (pt x : vec K) : vec K :=
  fun k => if (Nat.ltb k (length idx) && is_angle (nth k idx 0%nat))%bool
           then normalize_angle (pt k - x k) else pt k - x k.

(** ukf.cpp 92-279 *)
Definition ukf_compute_update (e : ukf_ext) (x : vec K) (m : meas K) : ukf_update :=
  let idx := update_indices m in
  let n := length idx in
  let R := cov_subset idx m in
  let zs := sigma_meas idx (u_sigma e) in
  let zhat := predicted_meas (u_sw e) idx zs in
  let zd := fun i => wrap_subset idx (vsub (zs i) zhat) in
  let xd := fun i => sigma_state_diff idx (u_sigma e i) x in
  let Pzz := fun a b => sumn SIGMA_COUNT (fun i => u_cw e i * outer (zd i) (zd i) a b) in
  let Pxz := fun a b => sumn SIGMA_COUNT (fun i => u_cw e i * outer (xd i) (zd i) a b) in
  let inv := e_inv eig n (madd Pzz R) in
  let G := mmul n Pxz inv in
  let innov := wrap_subset idx (vsub (meas_subset idx m) zhat) in
  mkUkfUpdate n R zhat Pzz Pxz inv G innov.

(** ukf.cpp 74-308 *)
Definition ukf_correct (s : ukf) (m : meas K) : ukf :=
  let s := if u_uncorrected (fb_ext s) then s else generateSigmaPoints s in
  let u := ukf_compute_update (fb_ext s) (fb_state s) m in
  if checkMahalanobisThreshold (uu_n u) (uu_innov u) (uu_inv u) (m_thresh m) then
    let x1 := vadd (fb_state s) (mvmul (uu_n u) (uu_K u) (uu_innov u)) in
    let P1 := msub (fb_P s) (mmul (uu_n u) (mmul (uu_n u) (uu_K u) (uu_Pzz u)) (mT (uu_K u))) in
    let s := wrapStateAngles (set_P (set_state s x1) P1) in
    set_ext s (ext_set_uncorrected (fb_ext s) false)
  else s.

Definition ukf_vtbl : vtbl K ukf_ext := mkVtbl ukf_predict ukf_correct.

End Ukf.
Arguments ukf K : clear implicits.
Arguments ukf_ext K : clear implicits.
Notation SIGMA_COUNT := 31%nat (only parsing).
