(** * Field-by-field description of the EKF operations (any scalar type) *)

From Coq Require Import ZArith Bool List Arith.
From Verif Require Import Scalar Mat FilterBase Ekf.
Import ListNotations.

Section Facts.
Context {K : Scalar}.

Definition noise_used (s : ekf K) : mat K :=
  if fb_use_dyn s then fb_dynQ (computeDynamicProcessNoiseCovariance s (fb_state s)) else fb_Q s.
Definition predict_F (s : ekf K) (d : Z) : mat K := ekf_transfer (fb_F s) (fb_state s) (toSec d).
Definition predict_J (s : ekf K) (d : Z) : mat K :=
  ekf_jacobian (predict_F s d) (fb_state s) (toSec d).
Definition predict_acc (s : ekf K) (r : Z) : vec K := fb_control_acc (prepareControl s r).

Lemma predict_P (s : ekf K) r d :
  fb_P (ekf_predict s r d) =
  madd (mmul 15 (mmul 15 (predict_J s d) (fb_P s)) (mT (predict_J s d)))
       (mscale (toSec d) (noise_used s)).
Proof.
  unfold noise_used. destruct s as [i u dy a b c e f g h k l m n o p q r' s t v w].
  destruct dy; reflexivity.
Qed.

Lemma predict_state (s : ekf K) r d :
  fb_state (ekf_predict s r d) =
  wrap_angles (mvmul 15 (predict_F s d)
    (apply_control (fb_control_upd s) (predict_acc s r) (fb_state s) (toSec d))).
Proof.
  destruct s as [i u dy a b c e f g h k l m n o p q r' s t v w]. destruct dy; reflexivity.
Qed.

Lemma predict_dynQ (s : ekf K) r d :
  fb_dynQ (ekf_predict s r d) =
  if fb_use_dyn s then fb_dynQ (computeDynamicProcessNoiseCovariance s (fb_state s)) else fb_dynQ s.
Proof.
  destruct s as [i u dy a b c e f g h k l m n o p q r' s t v w]. destruct dy; reflexivity.
Qed.

Lemma predict_other (s : ekf K) r d :
  let s' := ekf_predict s r d in
  fb_initialized s' = fb_initialized s /\ fb_use_control s' = fb_use_control s /\
  fb_use_dyn s' = fb_use_dyn s /\ fb_control_timeout s' = fb_control_timeout s /\
  fb_last_time s' = fb_last_time s /\ fb_control_time s' = fb_control_time s /\
  fb_sensor_timeout s' = fb_sensor_timeout s /\ fb_acc_gains s' = fb_acc_gains s /\
  fb_acc_limits s' = fb_acc_limits s /\ fb_dec_gains s' = fb_dec_gains s /\
  fb_dec_limits s' = fb_dec_limits s /\ fb_control_upd s' = fb_control_upd s /\
  fb_control s' = fb_control s /\ fb_Q s' = fb_Q s /\ fb_predicted s' = fb_predicted s /\
  fb_control_acc s' = predict_acc s r /\
  fb_F s' = predict_F s d /\ fb_J s' = predict_J s d.
Proof.
  destruct s as [i u dy a b c e f g h k l m n o p q r' s t v w]. destruct dy; repeat split.
Qed.

Lemma correct_other (eig : Eigen K) (s : ekf K) m :
  let s' := ekf_correct eig s m in
  fb_initialized s' = fb_initialized s /\ fb_use_control s' = fb_use_control s /\
  fb_use_dyn s' = fb_use_dyn s /\ fb_control_timeout s' = fb_control_timeout s /\
  fb_last_time s' = fb_last_time s /\ fb_control_time s' = fb_control_time s /\
  fb_sensor_timeout s' = fb_sensor_timeout s /\ fb_acc_gains s' = fb_acc_gains s /\
  fb_acc_limits s' = fb_acc_limits s /\ fb_dec_gains s' = fb_dec_gains s /\
  fb_dec_limits s' = fb_dec_limits s /\ fb_control_upd s' = fb_control_upd s /\
  fb_control s' = fb_control s /\ fb_Q s' = fb_Q s /\ fb_predicted s' = fb_predicted s /\
  fb_dynQ s' = fb_dynQ s /\ fb_control_acc s' = fb_control_acc s /\
  fb_F s' = fb_F s /\ fb_J s' = fb_J s.
Proof.
  intros s'. unfold s', ekf_correct.
  destruct (checkMahalanobisThreshold _ _ _ _); repeat split.
Qed.

End Facts.
