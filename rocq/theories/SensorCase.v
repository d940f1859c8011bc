(** * Cases for sensors that tell the truth (C107) *)

From Coq Require Import Reals ZArith List Bool Lia Lra String Arith.
From Verif Require Import Scalar Mat FilterBase FilterOps Ekf StrMap Tf Diagnostics RosFilter RosConfig RosPrepare
  SpecConfig SpecNode SpecTf SpecLin SpecFilter SpecPrepare SpecStart SpecMotion SpecTurn SpecPublished SpecTruth SpecSensor
  RBridge RLin EigenExist NodeProofs NodeMore Trig TfReal TfRot PrepareProofs PrepareReal PrepareSeq PrepareThm PrepareWit StartFacts
  TruthFacts TruthNode TruthCase ShiftCase SensorFacts SensorNode PropsConfig PropsStart.
Import ListNotations.
Local Open Scope R_scope.
Local Open Scope list_scope.

(** ** A sensor one metre in front of the robot's centre *)
Definition in_front : T4 := @mkTrans RScalar (@m3eye RScalar) (v3 1 0 0).
Lemma front_rigid : rigid in_front.
Proof. exact (@no_motion_rigid). Qed.
Definition front_env : penv RScalar := plain_env false 9.81 [] (fun _ _ _ => Some in_front).
Lemma front_answer a b s t : answer (e_buffer front_env) a b s (Some t) -> t = in_front.
Proof. intros H. inversion H as [t' H1|t' H1 H2|H1 H2 H3|]; subst; try discriminate H1. injection H1 as <-. reflexivity. Qed.
Lemma front_answered a b s : answer (e_buffer front_env) a b s (Some in_front).
Proof. apply at_time. reflexivity. Qed.
Lemma eye_reached u o i : (i < 3)%nat -> reached (@m3eye RScalar) u o i -> nth (o + i) u false = true.
Proof.
  intros Hi (j & Hj & Hu & Hn). rewrite turn_eye in Hn. destruct (Nat.eq_dec j i) as [->|N]; [exact Hu|]. exfalso. apply Hn.
  do 3 (destruct j as [|j]; [do 3 (destruct i as [|i]; [try reflexivity; lia|]); lia|]). lia.
Qed.

Lemma front_flags o u : rotated_flags2 (t_basis in_front) o u = u.
Proof. exact (no_motion_flags o u). Qed.
Lemma front_flags1 o u : rotated_flags (t_basis in_front) o u = u.
Proof. exact (no_motion_flags1 o u). Qed.

(** It reports the speed to the left. *)
Definition se_twist : callback_data RScalar := @mkCb RScalar "/wheel" (flags [7]%nat) 1 false false false 5.
Definition se_turning (w : R) : rvec := fun k => if Nat.eqb k 11 then w else 0.
Definition se_says (w : R) : twist_msg RScalar := @mkTwist RScalar 5 "wheel" (v3 0 w 0) (v3 0 0 w) (fun _ => 0).
Lemma twist_true c w : true_message c front_env (SubTwist se_twist) (MsgTwist (se_says w)) (v3 0 0 0) (se_turning w).
Proof.
  cbn [true_message]. split.
  { split; [apply plain_clock|]. split; [reflexivity|]. split; [|discriminate].
    intros k Hk. apply flags_true in Hk. destruct Hk as [<-|[]]. lia. }
  split; [unfold stamp_range; cbn; lia|]. intros t Ht. apply front_answer in Ht. subst t. split; [exact front_rigid|].
  change (t_basis in_front) with (@m3eye RScalar). rewrite !turn_eye. split; intros i Hi Hr; apply eye_reached in Hr; try exact Hi;
    apply flags_true in Hr; destruct Hr as [Hr|[]]; [|lia]. replace i with 1%nat by lia. apply plain_value.
  unfold at3, minus3, cross3, part, se_turning, in_front, se_says, X, Y, Z3, v3. cbn. toR. change (sc RScalar) with R. lra.
Qed.
Lemma turning_wrong {E} (pq : pqueue RScalar) c (n : node RScalar E) (w : R) : fresh n "/wheel"%string 5 -> angular_velocity n = v3 0 0 0 ->
  exists e s m y, true_message c e s m (v3 0 0 0) y /\ exists q, queued (snd (receive pq e c s m n)) = [q] /\
    nth 7%nat (m_upd q) false = true /\ m_value q 7%nat = w /\ y 7%nat = 0.
Proof.
  intros HF HA. exists front_env, (SubTwist se_twist), (MsgTwist (se_says w)), (se_turning w). split; [apply twist_true|].
  destruct (twist_transformed pq front_env c se_twist (se_says w) n in_front (plain_clock _ _ _ _) ltac:(unfold stamp_range; cbn; lia) HF (front_answered _ _ _) front_rigid)
    as (q & Q & _ & _ & _ & M & _ & FL & _). exists q. split; [exact Q|]. split; [|split; [|reflexivity]].
  - rewrite FL by (left; reflexivity). rewrite front_flags. reflexivity.
  - destruct M as (_ & M & _). cbn [Nat.add] in M. rewrite M by (left; reflexivity). rewrite HA. change (t_basis in_front) with (@m3eye RScalar). rewrite turn_eye.
    unfold plus3, cross3, in_front, se_says, X, Y, Z3, v3. cbn. change (sc RScalar) with R. toR. lra.
Qed.

(** ** An accelerometer there, before the node has set its angular acceleration *)
Definition se_none : callback_data RScalar := @mkCb RScalar "/imu" (flags []) 0 false false false 5.
Definition se_acc : callback_data RScalar := @mkCb RScalar "/imu" (flags [13]%nat) 1 false false false 5.
Definition se_imu : imu_msg RScalar := @mkImu RScalar 5 "imu" (@mkQuat RScalar 0 0 0 1) (v3 0 0 0) (v3 0 0 0) (fun _ => 0) (fun _ => 0) (fun _ => 0).
Lemma absent_zero : @declared_absent RScalar (fun _ => 0) = false.
Proof. unfold declared_absent. apply Rltb_false. rewrite lit_1_9. toR. rewrite Rplus_0_l, Rabs_R1. lra. Qed.
Lemma imu_true c : true_message c front_env (SubImu "/imu" se_none se_none se_acc) (MsgImu se_imu) (v3 0 0 0) (fun _ => 0).
Proof.
  cbn [true_message]. split; [cbn; lia|]. split; [cbn; lia|]. intros _ _. split.
  { split; [apply plain_clock|]. split; [reflexivity|]. split; [|discriminate].
    intros k Hk. apply flags_true in Hk. destruct Hk as [<-|[]]. lia. }
  split; [unfold stamp_range; cbn; lia|]. intros t Ht. apply front_answer in Ht. subst t. split; [exact front_rigid|].
  cbn [sm_find e_remove front_env plain_env find cd_topic se_acc].
  change (t_basis in_front) with (@m3eye RScalar). rewrite !turn_eye. intros i Hi Hr; apply eye_reached in Hr; try exact Hi;
    apply flags_true in Hr; destruct Hr as [Hr|[]]. replace i with 1%nat by lia. apply plain_value.
  unfold at3, minus3, plus3, cross3, part, in_front, se_imu, X, Y, Z3, v3. cbn. toR. change (sc RScalar) with R. lra.
Qed.
Lemma left_over_wrong {E} (pq : pqueue RScalar) c (n : node RScalar E) (a : R) : fresh n "/imu"%string 5 -> angular_velocity n = v3 0 0 0 ->
  a_acc (n_ang n) = v3 0 0 a ->
  exists e s m y, true_message c e s m (v3 0 0 0) y /\ exists q, queued (snd (receive pq e c s m n)) = [q] /\
    nth 13%nat (m_upd q) false = true /\ m_value q 13%nat = - a /\ y 13%nat = 0.
Proof.
  intros HF HA HL. exists front_env, (SubImu "/imu" se_none se_none se_acc), (MsgImu se_imu), (fun _ => 0). split; [apply imu_true|].
  destruct (acceleration_transformed pq front_env c se_acc se_imu n in_front (plain_clock _ _ _ _) ltac:(unfold stamp_range; cbn; lia) HF (front_answered _ _ _) front_rigid)
    as (q & Q & _ & _ & _ & M & FL & _). exists q. split; [|split; [|split; [|reflexivity]]].
  - cbn [receive]. unfold imuCallback. cbn [im_stamp se_imu]. assert (G : (Z.geb (n_set_pose n) 5) = false).
    { rewrite Z.geb_leb. apply Z.leb_gt. exact (proj1 HF). }
    rewrite G. cbn [cd_sum se_none se_acc Z.gtb Z.compare andb im_acc_cov]. 
    assert (AZ : @absent RScalar (fun _ => 0) = false) by exact absent_zero. change (im_acc_cov se_imu) with (fun _ : nat => 0).
    rewrite AZ. cbn [negb]. unfold andthen, skip_callback. cbv beta iota.
    destruct (accelerationCallback pq front_env c se_acc se_imu (c_base c) n) as [n2 o2]. exact Q.
  - rewrite FL by (left; reflexivity). rewrite front_flags1. reflexivity.
  - destruct M as (_ & M & _). cbn [Nat.add] in M. rewrite M by (left; reflexivity). rewrite HA, HL. change (t_basis in_front) with (@m3eye RScalar).
    cbn [sm_find e_remove front_env plain_env find cd_topic se_acc]. rewrite turn_eye.
    unfold minus3, plus3, cross3, in_front, se_imu, X, Y, Z3, v3. cbn. change (sc RScalar) with R. toR. lra.
Qed.

(** ** A node told the place of a moving robot *)
Definition se_env : penv RScalar := plain_env false 9.81 [] (fun _ _ _ => Some (@no_motion RScalar)).
Definition se_in {E} (ld : loaded RScalar E) (v : vec3 RScalar) : list (input (K := RScalar) (E := E)) :=
  map (fun s => Message se_env s (MsgPose (sh_msg v))) (ld_subs ld) ++ [Event (EvCycle 6 6 None)].
Lemma told_in_order {E} tr (o : output RScalar E) : told_output tr o -> in_order tr o.
Proof.
  destruct o as [m|m|m|x|b| |m|f m|a b]; try exact (fun H => H). intros (_ & A & B). split; [|exact B].
  intros I. destruct (A I) as [S|(_ & L)]; [left; exact S|right; exact L].
Qed.
Lemma se_same {E} pq (vt : vtbl RScalar E) c d v (n : node RScalar E) :
  deliver pq vt c n (Message se_env (SubPose d) (MsgPose (sh_msg v))) = deliver pq vt c n (Message sh_env (SubPose d) (MsgPose (sh_msg v))).
Proof. reflexivity. Qed.
Lemma se_message c d v : cd_upd d = flags [0; 1]%nat -> cd_differential d = false -> cd_relative d = false -> c_world c = "odom"%string ->
  true_message c se_env (SubPose d) (MsgPose (sh_msg v)) (v3 0 0 0) (truth (tr_course v) 5).
Proof.
  intros H2 H3 H4 H5. cbn [true_message]. unfold true_pose. cbv zeta. split.
  { split; [apply plain_clock|]. rewrite H2. split; [reflexivity|]. split; [|discriminate].
    intros k Hk. apply flags_true in Hk. destruct Hk as [<-|[<-|[]]]; lia. }
  split; [unfold stamp_range; cbn; lia|]. split; [rewrite H5; discriminate|]. split; [exact H3|]. split; [exact H4|].
  intros t Ht. assert (t = no_motion) as ->.
  { inversion Ht as [t' E1|t' E1 E2|E1 E2 E3|]; subst; try discriminate E1. injection E1 as <-. reflexivity. }
  split; [apply no_motion_rigid|]. exists no_motion. split; [apply on_base; reflexivity|]. rewrite H2.
  assert (N : ~ any_of (flags [0; 1]%nat) 3).
  { intros (j & Hj & Hn). apply flags_true in Hn. destruct Hn as [Hn|[Hn|[]]]; lia. }
  split; [intros [A|A]; [contradiction|congruence]|]. split; [|intros A; contradiction].
  change (t_basis no_motion) with (@m3eye RScalar). intros i Hi Hr. apply eye_reached in Hr; [|exact Hi]. apply flags_true in Hr.
  apply plain_value. cbn [Nat.add] in *. unfold tr_course. rewrite ahead_at by lia.
  destruct v as [x y z]. unfold at3, move, plus3, spin, times3, cross3, turn, inner, X, Y, Z3, v3.
  destruct Hr as [<-|[<-|[]]]; cbn; change (sc RScalar) with R in *; toR; lra.
Qed.
Lemma se_runs v : exists ld n, start tr_par 0 0 0 ex_new ex_ang86 vzero = Ok (ld, n) /\
  part (fb_state (n_filter n)) 9 = v3 0 0 0 /\
  along (true_input (tr_course v) (ld_config ld) (list_pq RScalar) (ekf_vtbl ideal_eigen)) (list_pq RScalar) (ekf_vtbl ideal_eigen) (ld_config ld) n (se_in ld v) /\
  let r := snd (respond (list_pq RScalar) (ekf_vtbl ideal_eigen) (ld_config ld) n (se_in ld v)) in
  Forall (in_order (tr_course v)) r /\ exists m, In (OutOdom m) r /\ X (o_position m) = X v.
Proof.
  destruct (tr_runs v) as (ld & n & H1 & _ & H3). exists ld, n. split; [exact H1|].
  pose proof tr_start as T. rewrite H1 in T. destruct T as (d & D1 & D2 & D3 & D4 & D5 & _).
  assert (ES : part (K := RScalar) (fb_state (n_filter n)) 9 = v3 0 0 0 /\ a_acc (n_ang n) = v3 0 0 0 /\ a_last_time (n_ang n) = 0).
  { clear - H1. assert (G : match start tr_par 0 0 0 ex_new ex_ang86 vzero with Ok (_, n) =>
        part (K := RScalar) (fb_state (n_filter n)) 9 = v3 0 0 0 /\ a_acc (n_ang n) = v3 0 0 0 /\ a_last_time (n_ang n) = 0 | Undefined => False end).
    { match goal with |- match ?x with _ => _ end => let y := eval hnf in x in change x with y end.
      cbv beta iota. split; [|split]; lazy; reflexivity. }
    rewrite H1 in G. exact G. }
  destruct ES as (E1 & E2 & E3). split; [exact E1|].
  assert (RR : respond (list_pq RScalar) (ekf_vtbl ideal_eigen) (ld_config ld) n (se_in ld v) =
    respond (list_pq RScalar) (ekf_vtbl ideal_eigen) (ld_config ld) n (sh_in ld v)).
  { unfold se_in, sh_in. rewrite D1. cbn [map List.app].
    rewrite !(proj2 (PrepareSeq.respond_cons _ _ _ EmptyString _ _)). rewrite se_same. reflexivity. }
  rewrite RR. clear RR. cbv zeta in *. destruct H3 as (H3 & H4). split.
  - unfold se_in. rewrite D1. cbn [map List.app]. pose proof (se_message (ld_config ld) d v D2 D3 D4 D5) as SM.
    split; [exact SM|]. split; [|exact I]. cbn [true_input].
    assert (ST : stands (truth (tr_course v) 5) (v3 0 0 0) n).
    { split; [|exact E2]. unfold angular_velocity. unfold tr_course. rewrite truth_part by reflexivity. exact E1. }
    destruct (receive_reports (list_pq RScalar) (ld_config ld) se_env _ _ _ _ (list_pq_ok RScalar) SM n ST) as ((_ & _ & _ & _ & S5) & _).
    cbn [deliver]. rewrite S5, E3. lra.
  - split; [|exact H4]. eapply Forall_impl; [|exact H3]. intros o. apply told_in_order.
Qed.

(** ** A node that knows the turning *)
Lemma message_tells E (pq : pqueue RScalar) (c : config RScalar) (e : penv RScalar) s m (n : node RScalar E) y :
  pq_ok pq -> true_message c e s m (a_acc (n_ang n)) y -> angular_velocity n = part (K := RScalar) y 9 ->
  Forall (fun q => m_time q = stamp_of m /\ truthful q y) (queued (snd (receive pq e c s m n))).
Proof.
  intros Hq HM HW. destruct (receive_reports pq c e s m _ y Hq HM n (conj HW eq_refl)) as (_ & _ & _ & H). exact H.
Qed.
Definition knowing : node RScalar unit :=
  node_init (setState (@fb_init RScalar unit vzero tt) (se_turning 1)) ex_ang86 vzero false 0.
Lemma turning_known : exists c e s m (n : node RScalar unit) y,
  true_message c e s m (a_acc (n_ang n)) y /\ angular_velocity n = part (K := RScalar) y 9 /\ y 11%nat = 1 /\
  exists q, queued (snd (receive (list_pq RScalar) e c s m n)) = [q] /\ m_value q 7%nat = 0.
Proof.
  exists prep_cfg, front_env, (SubTwist se_twist), (MsgTwist (se_says 1)), knowing, (se_turning 1).
  split; [apply twist_true|]. split; [reflexivity|]. split; [reflexivity|].
  assert (HF : fresh knowing (cd_topic se_twist) (tw_stamp (se_says 1))) by (split; [reflexivity|discriminate]).
  destruct (twist_transformed (list_pq RScalar) front_env prep_cfg se_twist (se_says 1) knowing in_front (plain_clock _ _ _ _) ltac:(unfold stamp_range; cbn; lia) HF (front_answered _ _ _) front_rigid)
    as (q & Q & _ & _ & _ & M & _). exists q. split; [exact Q|].
  destruct M as (_ & M & _). cbn [Nat.add] in M. rewrite M by (left; reflexivity). change (t_basis in_front) with (@m3eye RScalar). rewrite turn_eye.
  change (angular_velocity knowing) with (v3 0 0 1).
  unfold plus3, cross3, in_front, se_says, X, Y, Z3, v3. cbn. change (sc RScalar) with R. toR. lra.
Qed.
