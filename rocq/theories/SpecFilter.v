(** * Specification vocabulary for the filters (real arithmetic)

    Independent of the model's definitions except for the data records. *)

From Coq Require Import Reals ZArith List Bool Arith.
From Verif Require Import Scalar Mat FilterBase FilterOps SpecLin.
Import ListNotations.
Local Open Scope R_scope.

(** [b] is the angle [a] brought into (-pi, pi] by whole turns. *)
Definition wrapped (a b : R) : Prop :=
  - PI < b <= PI /\ exists k : Z, b = a + IZR k * (2 * PI).

(** The three Euler angles (entries 3, 4, 5) of a state lie in (-pi, pi]. *)
Definition angles_normalised (x : nat -> R) : Prop :=
  - PI < x 3%nat <= PI /\ - PI < x 4%nat <= PI /\ - PI < x 5%nat <= PI.

(** No cross terms between the index sets [A] and its complement, dimension n. *)
Definition decoupled (n : nat) (A : nat -> bool) (M : rmat) : Prop :=
  forall i j, (i < n)%nat -> (j < n)%nat -> A i <> A j -> M i j = 0.

(** The pose variables x, y, z, roll, pitch, yaw. *)
Definition pose_index (i : nat) : bool := Nat.ltb i 6.

(** A measurement with 15 flags and a symmetric PSD covariance. *)
Definition good_meas (m : meas RScalar) : Prop :=
  length (m_upd m) = 15%nat /\ psd 15 (m_cov m).

(** Preconditions under which an API call is expected to keep the estimate
    covariance PSD.  [dyn] says whether dynamic process noise may be used; if
    so the process noise must not correlate pose with other variables. *)
Definition noise_ok (dyn : Prop) (Q : rmat) : Prop :=
  psd 15 Q /\ (dyn -> decoupled 15 pose_index Q).

Definition op_ok {E} (dyn : Prop) (s : fb RScalar E) (o : fb_op RScalar) : Prop :=
  match o with
  | OpPredict _ d => (0 <= d)%Z
  | OpCorrect m => good_meas m
  | OpProcess m => good_meas m /\
      (* the first measurement overwrites the selected block only *)
      (fb_initialized s = false -> decoupled 15 (fun i => nth i (m_upd m) false) (fb_P s))
  | OpSetUseDyn b => b = true -> dyn
  | OpSetP P => psd 15 P
  | OpSetQ Q => noise_ok dyn Q
  | _ => True
  end.

Fixpoint run_ok {E} (dyn : Prop) (vt : vtbl RScalar E) (s : fb RScalar E)
    (ops : list (fb_op RScalar)) : Prop :=
  match ops with
  | [] => True
  | o :: r => op_ok dyn s o /\ run_ok dyn vt (fb_exec vt s o) r
  end.

(** Eigen's inverse() is an inverse whenever one exists. *)
Definition invertible (n : nat) (A : rmat) : Prop := exists B, is_inverse n A B.
Definition eigen_inverse_ok (eig : Eigen RScalar) : Prop :=
  forall n A, invertible n A -> is_inverse n A (e_inv eig n A).

(** The state variables a measurement updates, in increasing order. *)
Definition selected (m : meas RScalar) : list nat :=
  filter (fun i => nth i (m_upd m) false) (seq 0 15).

(** Roll, pitch and yaw are the angular state variables. *)
Definition angular (i : nat) : Prop := (i = 3 \/ i = 4 \/ i = 5)%nat.

(** [nu] is the innovation of [m] against the state [x]: per selected variable
    the difference, brought into (-pi, pi] for angles. *)
Definition innovation_of (x : rvec) (m : meas RScalar) (nu : rvec) : Prop :=
  forall a, (a < length (selected m))%nat ->
    let i := nth a (selected m) 0%nat in
    (angular i -> wrapped (m_value m i - x i) (nu a)) /\
    (~ angular i -> nu a = m_value m i - x i).

(** Measurement covariance after the repair of bad variances. *)
Definition repaired_cov (m : meas RScalar) (i j : nat) : R :=
  if Nat.eqb i j then Rmax (Rabs (m_cov m i i)) (/ 1000000000) else m_cov m i j.

(** Innovation covariance S = H P H' + R for the selected variables. *)
Definition innovation_cov (P : rmat) (m : meas RScalar) : rmat :=
  fun a b => let i := nth a (selected m) 0%nat in let j := nth b (selected m) 0%nat in
    P i j + repaired_cov m i j.

(** [x'] is the state after adding the Kalman correction given by the solution
    [w] of S w = innovation, and normalising angles. *)
Definition corrected_state (x : rvec) (P : rmat) (m : meas RScalar) (w x' : rvec) : Prop :=
  forall k, (k < 15)%nat ->
    let raw := x k + rsum (length (selected m)) (fun a => P k (nth a (selected m) 0%nat) * w a) in
    (angular k -> wrapped raw (x' k)) /\ (~ angular k -> x' k = raw).

(** [P'] is P - P H' S^-1 H P: column [j] uses the solution [y] of
    S y = (H P) column j. *)
Definition corrected_cov (P : rmat) (m : meas RScalar) (P' : rmat) : Prop :=
  forall j y, (j < 15)%nat ->
    veq (length (selected m)) (rmv (length (selected m)) (innovation_cov P m) y)
        (fun a => P (nth a (selected m) 0%nat) j) ->
    forall k, (k < 15)%nat ->
      P' k j = P k j - rsum (length (selected m)) (fun a => P k (nth a (selected m) 0%nat) * y a).

(** Eigen's llt() returns a lower factor whose square is the (positive
    definite) argument. *)
Definition eigen_llt_ok (eig : Eigen RScalar) : Prop :=
  forall n A, pdef n A -> meq n n (rmul n (e_llt eig n A) (rT (e_llt eig n A))) A.

(** [G] is the Kalman gain for covariance [P] and measurement [m]: G S = P H'. *)
Definition is_gain (P : rmat) (m : meas RScalar) (G : rmat) : Prop :=
  forall k a, (k < 15)%nat -> (a < length (selected m))%nat ->
    rsum (length (selected m)) (fun b => G k b * innovation_cov P m b a) = P k (nth a (selected m) 0%nat).

(** No orientation variable is selected. *)
Definition no_angle_selected (m : meas RScalar) : Prop :=
  forall a, (a < length (selected m))%nat -> ~ angular (nth a (selected m) 0%nat).

(** [v] is the difference [d] of two values of state variable [k], as an angle
    in (-pi, pi] for the angular variables. *)
Definition var_diff (k : nat) (d v : R) : Prop :=
  (angular k -> wrapped d v) /\ (~ angular k -> v = d).

(** Out-of-plane variables: z, roll, pitch, vz, vroll, vpitch, az. *)
Definition vertical (i : nat) : bool :=
  match i with 2%nat | 3%nat | 4%nat | 8%nat | 9%nat | 10%nat | 14%nat => true | _ => false end.
Definition planar_state (x : nat -> R) : Prop := forall i, vertical i = true -> x i = 0.

(** A planar measurement: out-of-plane variables are measured as zero and not
    correlated with the planar ones; the selected noise is positive definite. *)
Definition planar_meas (m : meas RScalar) : Prop :=
  length (m_upd m) = 15%nat /\
  (forall i, vertical i = true -> m_value m i = 0) /\
  decoupled 15 vertical (m_cov m) /\
  pdef (length (selected m))
    (fun a b => repaired_cov m (nth a (selected m) 0%nat) (nth b (selected m) 0%nat)).

Definition op_planar (o : fb_op RScalar) : Prop :=
  match o with
  | OpCorrect m | OpProcess m => planar_meas m
  | OpSetP P => decoupled 15 vertical P
  | OpSetQ Q => decoupled 15 vertical Q
  | OpSetState x => planar_state x
  | OpSetControlParams u _ _ _ _ _ =>
      (* no control of vz, vroll, vpitch *)
      nth 2 u false = false /\ nth 3 u false = false /\ nth 4 u false = false
  | _ => True
  end.

(** The same measurement with another Mahalanobis threshold. *)
Definition with_threshold {K} (m : meas K) (t : K) : meas K :=
  mkMeas (m_topic m) (m_time m) (m_value m) (m_cov m) (m_upd m) t (m_control m) (m_control_time m).
