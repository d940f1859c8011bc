(** * Vocabulary for the published messages and the diagnostics (C42-C44) *)

From Coq Require Import ZArith List Bool String Arith Reals.
From Verif Require Import Scalar Mat Tf FilterBase StrMap Diagnostics RosFilter SpecTf.
Import ListNotations.

Section SpecOutput.
Context {K : Scalar} {E : Type}.

Fixpoint reports (os : list (output K E)) : list diag_report :=
  match os with
  | [] => []
  | OutReport r :: l => r :: reports l
  | _ :: l => reports l
  end.

(** The odometry message carries the numbers of the filter [f].  Variables are
    numbered 0-14: position, angles, velocities, angular velocities,
    accelerations. *)
Definition shows (c : config K) (f : fb K E) (m : odom_msg K) : Prop :=
  let s := fb_state f in
  fb_initialized f = true /\
  o_stamp m = fb_last_time f /\ o_frame m = c_world c /\ o_child m = c_base_out c /\
  o_position m = mkV3 (s 0%nat) (s 1%nat) (s 2%nat) /\
  o_linear m = mkV3 (s 6%nat) (s 7%nat) (s 8%nat) /\
  o_angular m = mkV3 (s 9%nat) (s 10%nat) (s 11%nat) /\
  forall i j, (i < 6)%nat -> (j < 6)%nat ->
    o_pose_cov m (6 * i + j) = fb_P f i j /\ o_twist_cov m (6 * i + j) = fb_P f (6 + i)%nat (6 + j)%nat.

(** The acceleration message. *)
Definition shows_accel (c : config K) (n : node K E) (a : accel_msg K) : Prop :=
  let f := n_filter n in let s := fb_state f in
  fb_initialized f = true /\
  ac_stamp a = fb_last_time f /\ ac_frame a = c_base_out c /\
  ac_linear a = mkV3 (s 12%nat) (s 13%nat) (s 14%nat) /\ ac_angular a = a_acc (n_ang n) /\
  (forall i j, (i < 3)%nat -> (j < 3)%nat ->
     ac_cov a (6 * i + j)%nat = fb_P f (12 + i)%nat (12 + j)%nat /\
     ac_cov a (6 * (3 + i) + (3 + j))%nat = a_cov (n_ang n) i j /\
     ac_cov a (6 * i + (3 + j))%nat = s_ofZ 0 /\ ac_cov a (6 * (3 + i) + j)%nat = s_ofZ 0).

End SpecOutput.

(** The orientation of the message is the rotation by the state's angles. *)
Definition shows_angles {E : Type} (f : fb RScalar E) (m : odom_msg RScalar) : Prop :=
  unit_quat (o_orientation m) /\
  forall v : V3, spin (o_orientation m) v = oriented (fb_state f 3%nat) (fb_state f 4%nat) (fb_state f 5%nat) v.

(** ** Diagnostics: the history of calls and reports, oldest first *)
Inductive dop : Type := Raise (c : diag_call) | Report.

Fixpoint diag_trace (d : diag) (ops : list dop) : diag * list diag_report :=
  match ops with
  | [] => (d, [])
  | Raise c :: r => diag_trace (addDiagnostic d c) r
  | Report :: r =>
      let '(rep, d1) := aggregateDiagnostics d in
      let '(d2, reps) := diag_trace d1 r in (d2, rep :: reps)
  end.

(** static calls of a history, and dynamic ones since its last report *)
Fixpoint lasting (h : list dop) : list diag_call :=
  match h with
  | [] => []
  | Raise c :: r => if dc_static c then c :: lasting r else lasting r
  | Report :: r => lasting r
  end.
Fixpoint reported (h : list dop) : bool :=
  match h with [] => false | Report :: _ => true | Raise _ :: r => reported r end.
Fixpoint recent (h : list dop) : list diag_call :=
  match h with
  | [] => []
  | Raise c :: r => if (dc_static c || reported r)%bool then recent r else c :: recent r
  | Report :: r => recent r
  end.

(** [z] is the worst level of the calls, OK if there are none. *)
Definition worst (l : list diag_call) (z : Z) : Prop :=
  (0 <= z /\ (forall c, In c l -> dc_level c <= z) /\ (z = 0 \/ exists c, In c l /\ dc_level c = z))%Z.

(** the text of the latest call about [k] *)
Fixpoint latest (l : list diag_call) (k : string) : option string :=
  match l with
  | [] => None
  | c :: r => match latest r k with
              | Some t => Some t
              | None => if String.eqb (dc_key c) k then Some (dc_text c) else None
              end
  end.

(** [es] lists, once per key, the latest texts of the calls. *)
Definition lists_latest (l : list diag_call) (es : list (string * string)) : Prop :=
  NoDup (map fst es) /\ forall k t, In (k, t) es <-> latest l k = Some t.

(** What a report says of the worst level. *)
Definition verdict (level : Z) : option string :=
  match level with
  | 0%Z => Some "The robot_localization state estimation node appears to be functioning properly."%string
  | 1%Z => Some "Potentially erroneous data or settings detected for a robot_localization state estimation this->"%string
  | 2%Z => Some "Erroneous data or settings detected for a robot_localization state estimation this->"%string
  | 3%Z => Some "The state of the robot_localization state estimation node is stale."%string
  | _ => None
  end.
