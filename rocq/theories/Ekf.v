(** * Extended Kalman filter: src/ekf.cpp *)

From Coq Require Import ZArith Bool List Arith.
From Verif Require Import Scalar Mat FilterBase.
Import ListNotations.

Section Ekf.
Context {K : Scalar} (eig : Eigen K).
Local Open Scope sc_scope.

(** ekf.cpp 48-50: no members of its own. *)
Definition ekf : Type := fb K unit.

(** ekf.cpp 54-220: correct.  Intermediate values of the correction. *)
Record ekf_update : Type := mkEkfUpdate {
  u_n : nat;             (* update_size *)
  u_H : mat K;           (* state_to_measurement_subset *)
  u_R : mat K;           (* measurement_covariance_subset *)
  u_Sinv : mat K;        (* hphr_inverse *)
  u_K : mat K;           (* kalman_gain_subset *)
  u_innov : vec K        (* innovation_subset, angles wrapped *)
}.

(** ekf.cpp 77-188 *)
Definition ekf_compute_update (x : vec K) (P : mat K) (m : meas K) : ekf_update :=
  let idx := update_indices m in
  let n := length idx in
  let H := state_to_meas idx in
  let R := cov_subset idx m in
  let pht := mmul STATE_SIZE P (mT H) in
  let Sinv := e_inv eig n (madd (mmul STATE_SIZE H pht) R) in
  let G := mmul n pht Sinv in
  let innov := wrap_subset idx (vsub (meas_subset idx m) (state_subset idx x)) in
  mkEkfUpdate n H R Sinv G innov.

(** ekf.cpp 199-207: Joseph form *)
Definition joseph (n : nat) (G H R P : mat K) : mat K :=
  let gain_residual := msub meye (mmul n G H) in
  madd (mmul STATE_SIZE (mmul STATE_SIZE gain_residual P) (mT gain_residual))
       (mmul n (mmul n G R) (mT G)).

(** ekf.cpp 54-220 *)
Definition ekf_correct (s : ekf) (m : meas K) : ekf :=
  let u := ekf_compute_update (fb_state s) (fb_P s) m in
  if checkMahalanobisThreshold (u_n u) (u_innov u) (u_Sinv u) (m_thresh m) then
    let x1 := vadd (fb_state s) (mvmul (u_n u) (u_K u) (u_innov u)) in
    let P1 := joseph (u_n u) (u_K u) (u_H u) (u_R u) (fb_P s) in
    wrapStateAngles (set_P (set_state s x1) P1)
  else s.

(** ekf.cpp 233-300: entries of the transfer function, assigned on top of the persistent
    matrix [F]; entries that read back a value just written use that value. *)
Definition ekf_transfer (F : mat K) (x : vec K) (dt : K) : mat K :=
  let roll := x StateMemberRoll in
  let pitch := x StateMemberPitch in
  let yaw := x StateMemberYaw in
  let sp := s_sin pitch in
  let cp := s_cos pitch in
  let cpi := 1 / cp in
  let tp := sp * cpi in
  let sr := s_sin roll in
  let cr := s_cos roll in
  let sy := s_sin yaw in
  let cy := s_cos yaw in
  let half := lit 5 1 in
  let x_vx := cy * cp * dt in
  let x_vy := (cy * sp * sr - sy * cr) * dt in
  let x_vz := (cy * sp * cr + sy * sr) * dt in
  let y_vx := sy * cp * dt in
  let y_vy := (sy * sp * sr + cy * cr) * dt in
  let y_vz := (sy * sp * cr - cy * sr) * dt in
  let z_vx := - sp * dt in
  let z_vy := cp * sr * dt in
  let z_vz := cp * cr * dt in
  let F := mset F StateMemberX StateMemberVx x_vx in
  let F := mset F StateMemberX StateMemberVy x_vy in
  let F := mset F StateMemberX StateMemberVz x_vz in
  let F := mset F StateMemberX StateMemberAx (half * x_vx * dt) in
  let F := mset F StateMemberX StateMemberAy (half * x_vy * dt) in
  let F := mset F StateMemberX StateMemberAz (half * x_vz * dt) in
  let F := mset F StateMemberY StateMemberVx y_vx in
  let F := mset F StateMemberY StateMemberVy y_vy in
  let F := mset F StateMemberY StateMemberVz y_vz in
  let F := mset F StateMemberY StateMemberAx (half * y_vx * dt) in
  let F := mset F StateMemberY StateMemberAy (half * y_vy * dt) in
  let F := mset F StateMemberY StateMemberAz (half * y_vz * dt) in
  let F := mset F StateMemberZ StateMemberVx z_vx in
  let F := mset F StateMemberZ StateMemberVy z_vy in
  let F := mset F StateMemberZ StateMemberVz z_vz in
  let F := mset F StateMemberZ StateMemberAx (half * z_vx * dt) in
  let F := mset F StateMemberZ StateMemberAy (half * z_vy * dt) in
  let F := mset F StateMemberZ StateMemberAz (half * z_vz * dt) in
  let F := mset F StateMemberRoll StateMemberVroll dt in
  let F := mset F StateMemberRoll StateMemberVpitch (sr * tp * dt) in
  let F := mset F StateMemberRoll StateMemberVyaw (cr * tp * dt) in
  let F := mset F StateMemberPitch StateMemberVpitch (cr * dt) in
  let F := mset F StateMemberPitch StateMemberVyaw (- sr * dt) in
  let F := mset F StateMemberYaw StateMemberVpitch (sr * cpi * dt) in
  let F := mset F StateMemberYaw StateMemberVyaw (cr * cpi * dt) in
  let F := mset F StateMemberVx StateMemberAx dt in
  let F := mset F StateMemberVy StateMemberAy dt in
  let F := mset F StateMemberVz StateMemberAz dt in
  F.

(** ekf.cpp 302-386: Jacobian, a copy of the transfer function with thirteen
    entries replaced. *)
Definition ekf_jacobian (F : mat K) (x : vec K) (dt : K) : mat K :=
  let roll := x StateMemberRoll in
  let pitch := x StateMemberPitch in
  let yaw := x StateMemberYaw in
  let x_vel := x StateMemberVx in
  let y_vel := x StateMemberVy in
  let z_vel := x StateMemberVz in
  let pitch_vel := x StateMemberVpitch in
  let yaw_vel := x StateMemberVyaw in
  let x_acc := x StateMemberAx in
  let y_acc := x StateMemberAy in
  let z_acc := x StateMemberAz in
  let sp := s_sin pitch in
  let cp := s_cos pitch in
  let cpi := 1 / cp in
  let tp := sp * cpi in
  let sr := s_sin roll in
  let cr := s_cos roll in
  let sy := s_sin yaw in
  let cy := s_cos yaw in
  let half := lit 5 1 in
  let one_half_at_squared := half * dt * dt in
  let y_coeff := cy * sp * cr + sy * sr in
  let z_coeff := - cy * sp * sr + sy * cr in
  let dFx_dR := (y_coeff * y_vel + z_coeff * z_vel) * dt +
    (y_coeff * y_acc + z_coeff * z_acc) * one_half_at_squared in
  let dFR_dR := 1 + (cr * tp * pitch_vel - sr * tp * yaw_vel) * dt in
  let x_coeff := - cy * sp in
  let y_coeff := cy * cp * sr in
  let z_coeff := cy * cp * cr in
  let dFx_dP := (x_coeff * x_vel + y_coeff * y_vel + z_coeff * z_vel) * dt +
    (x_coeff * x_acc + y_coeff * y_acc + z_coeff * z_acc) * one_half_at_squared in
  let dFR_dP := (cpi * cpi * sr * pitch_vel + cpi * cpi * cr * yaw_vel) * dt in
  let x_coeff := - sy * cp in
  let y_coeff := - sy * sp * sr - cy * cr in
  let z_coeff := - sy * sp * cr + cy * sr in
  let dFx_dY := (x_coeff * x_vel + y_coeff * y_vel + z_coeff * z_vel) * dt +
    (x_coeff * x_acc + y_coeff * y_acc + z_coeff * z_acc) * one_half_at_squared in
  let y_coeff := sy * sp * cr - cy * sr in
  let z_coeff := - sy * sp * sr - cy * cr in
  let dFy_dR := (y_coeff * y_vel + z_coeff * z_vel) * dt +
    (y_coeff * y_acc + z_coeff * z_acc) * one_half_at_squared in
  let dFP_dR := (- sr * pitch_vel - cr * yaw_vel) * dt in
  let x_coeff := - sy * sp in
  let y_coeff := sy * cp * sr in
  let z_coeff := sy * cp * cr in
  let dFy_dP := (x_coeff * x_vel + y_coeff * y_vel + z_coeff * z_vel) * dt +
    (x_coeff * x_acc + y_coeff * y_acc + z_coeff * z_acc) * one_half_at_squared in
  let x_coeff := cy * cp in
  let y_coeff := cy * sp * sr - sy * cr in
  let z_coeff := cy * sp * cr + sy * sr in
  let dFy_dY := (x_coeff * x_vel + y_coeff * y_vel + z_coeff * z_vel) * dt +
    (x_coeff * x_acc + y_coeff * y_acc + z_coeff * z_acc) * one_half_at_squared in
  let y_coeff := cp * cr in
  let z_coeff := - cp * sr in
  let dFz_dR := (y_coeff * y_vel + z_coeff * z_vel) * dt +
    (y_coeff * y_acc + z_coeff * z_acc) * one_half_at_squared in
  let dFY_dR := (cr * cpi * pitch_vel - sr * cpi * yaw_vel) * dt in
  let x_coeff := - cp in
  let y_coeff := - sp * sr in
  let z_coeff := - sp * cr in
  let dFz_dP := (x_coeff * x_vel + y_coeff * y_vel + z_coeff * z_vel) * dt +
    (x_coeff * x_acc + y_coeff * y_acc + z_coeff * z_acc) * one_half_at_squared in
  let dFY_dP := (sr * tp * cpi * pitch_vel + cr * tp * cpi * yaw_vel) * dt in
  let J := F in
  let J := mset J StateMemberX StateMemberRoll dFx_dR in
  let J := mset J StateMemberX StateMemberPitch dFx_dP in
  let J := mset J StateMemberX StateMemberYaw dFx_dY in
  let J := mset J StateMemberY StateMemberRoll dFy_dR in
  let J := mset J StateMemberY StateMemberPitch dFy_dP in
  let J := mset J StateMemberY StateMemberYaw dFy_dY in
  let J := mset J StateMemberZ StateMemberRoll dFz_dR in
  let J := mset J StateMemberZ StateMemberPitch dFz_dP in
  let J := mset J StateMemberRoll StateMemberRoll dFR_dR in
  let J := mset J StateMemberRoll StateMemberPitch dFR_dP in
  let J := mset J StateMemberPitch StateMemberRoll dFP_dR in
  let J := mset J StateMemberYaw StateMemberRoll dFY_dR in
  let J := mset J StateMemberYaw StateMemberPitch dFY_dP in
  J.

(** ekf.cpp 402-418: control terms *)
Definition apply_control (upd : list bool) (acc : vec K) (x : vec K) (dt : K) : vec K :=
  let x := vset x StateMemberVroll (x StateMemberVroll + acc ControlMemberVroll * dt) in
  let x := vset x StateMemberVpitch (x StateMemberVpitch + acc ControlMemberVpitch * dt) in
  let x := vset x StateMemberVyaw (x StateMemberVyaw + acc ControlMemberVyaw * dt) in
  let x := vset x StateMemberAx
    (if flag upd ControlMemberVx then acc ControlMemberVx else x StateMemberAx) in
  let x := vset x StateMemberAy
    (if flag upd ControlMemberVy then acc ControlMemberVy else x StateMemberAy) in
  vset x StateMemberAz
    (if flag upd ControlMemberVz then acc ControlMemberVz else x StateMemberAz).

(** ekf.cpp 222-442 *)
Definition ekf_predict (s : ekf) (reference_time delta : Z) : ekf :=
  let dt := toSec delta in
  let x := fb_state s in
  let s := prepareControl s reference_time in
  let F := ekf_transfer (fb_F s) x dt in
  let J := ekf_jacobian F x dt in
  let s := set_J (set_F s F) J in
  let s := if fb_use_dyn s then computeDynamicProcessNoiseCovariance s (fb_state s) else s in
  let Q := if fb_use_dyn s then fb_dynQ s else fb_Q s in
  let x1 := apply_control (fb_control_upd s) (fb_control_acc s) (fb_state s) dt in
  let s := wrapStateAngles (set_state s (mvmul STATE_SIZE F x1)) in
  set_P s (madd (mmul STATE_SIZE (mmul STATE_SIZE J (fb_P s)) (mT J)) (mscale dt Q)).

Definition ekf_vtbl : vtbl K unit := mkVtbl ekf_predict ekf_correct.

End Ekf.
Arguments ekf K : clear implicits.
