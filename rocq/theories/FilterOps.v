(** * Histories of FilterBase API calls

    Every public mutating member function of FilterBase (filter_base.hpp 62-261)
    as an operation, and their sequential execution. *)

From Coq Require Import ZArith Bool List.
From Verif Require Import Scalar Mat FilterBase.
Import ListNotations.

Section Ops.
Context {K : Scalar} {E : Type}.

Inductive fb_op : Type :=
| OpPredict (reference_time delta : Z)          (* predict, filter_base.hpp 160 *)
| OpCorrect (m : meas K)                        (* correct, 78 *)
| OpProcess (m : meas K)                        (* processMeasurement, 168 *)
| OpSetControl (c : vec K) (t : Z)              (* setControl, 176 *)
| OpSetControlParams (upd : list bool) (timeout : Z)
    (acc_limits acc_gains dec_limits dec_gains : list K)   (* 194 *)
| OpSetUseDyn (b : bool)                        (* setUseDynamicProcessNoiseCovariance, 220 *)
| OpSetP (P : mat K)                            (* setEstimateErrorCovariance, 228 *)
| OpSetLastTime (t : Z)                         (* setLastMeasurementTime, 235 *)
| OpSetQ (Q : mat K)                            (* setProcessNoiseCovariance, 246 *)
| OpSetTimeout (d : Z)                          (* setSensorTimeout, 254 *)
| OpSetState (x : vec K)                        (* setState, 261 *)
| OpReset.                                      (* reset, 62 *)

Definition fb_exec (vt : vtbl K E) (s : fb K E) (o : fb_op) : fb K E :=
  match o with
  | OpPredict r d => v_predict vt s r d
  | OpCorrect m => v_correct vt s m
  | OpProcess m => processMeasurement vt s m
  | OpSetControl c t => setControl s c t
  | OpSetControlParams u t al ag dl dg => setControlParams s u t al ag dl dg
  | OpSetUseDyn b => setUseDynamicProcessNoiseCovariance s b
  | OpSetP P => setEstimateErrorCovariance s P
  | OpSetLastTime t => setLastMeasurementTime s t
  | OpSetQ Q => setProcessNoiseCovariance s Q
  | OpSetTimeout d => setSensorTimeout s d
  | OpSetState x => setState s x
  | OpReset => fb_reset s
  end.

Definition fb_run (vt : vtbl K E) (s : fb K E) (ops : list fb_op) : fb K E :=
  fold_left (fb_exec vt) ops s.

End Ops.
Arguments fb_op K : clear implicits.
