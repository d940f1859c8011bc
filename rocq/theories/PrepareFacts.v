(** * Measurements made from messages *)

From Coq Require Import Reals ZArith List Bool Lia Lra String Arith.
From Verif Require Import Scalar Mat FilterBase StrMap Tf Diagnostics RosFilter RosConfig ForceTwoD RosPrepare
  SpecNode SpecTf SpecLin SpecPrepare OutputProofs Trig TfReal TfRot TfQuat RBridge RLin PrepareProofs PrepareReal.
Import ListNotations.
Local Open Scope R_scope.

Lemma measures_set two_d (v : vec RScalar) (v' : nat -> R) o x :
  (forall i, kept two_d i -> v' i = @set_vec3 RScalar v o x i) -> measures two_d v' o x.
Proof.
  intros H. destruct (@set_vec3_at RScalar v o x) as (A & B & C & _).
  repeat split; intros Hk; rewrite H by exact Hk; assumption.
Qed.
Lemma measures_ext two_d (v : vec RScalar) (v' : nat -> R) o x o2 x2 : (o + 3 <= o2 \/ o2 + 3 <= o)%nat ->
  (forall i, kept two_d i -> v' i = @set_vec3 RScalar (@set_vec3 RScalar v o x) o2 x2 i) ->
  measures two_d v' o x /\ measures two_d v' o2 x2.
Proof.
  intros Ho H. split; [|apply measures_set with (1 := H)].
  destruct (@set_vec3_at RScalar v o x) as (A & B & C & _).
  destruct (@set_vec3_at RScalar (@set_vec3 RScalar v o x) o2 x2) as (_ & _ & _ & D).
  repeat split; intros Hk; rewrite H by exact Hk; rewrite D by lia; assumption.
Qed.

Lemma block_measured two_d (A : rmat) o n (C : rmat) :
  (forall i j, kept two_d i \/ i <> j -> A i j = @set_block RScalar mzero o n C i j) -> measures_cov two_d A o n C.
Proof.
  intros H i j Hi Hj Hk. rewrite H; [apply (@set_block_in RScalar); assumption|].
  destruct Hk as [Hk|Hk]; [left; exact Hk|right; lia].
Qed.
Lemma block_only two_d (v : nat -> R) (A : rmat) o n (C : rmat) :
  (forall i, kept two_d i -> (i < o \/ o + n <= i)%nat -> v i = 0) ->
  (forall i j, kept two_d i \/ i <> j -> A i j = @set_block RScalar mzero o n C i j) -> only two_d v A o n.
Proof.
  intros Hv H i j Hi. split; [intros Hk; apply Hv; assumption|].
  intros Hk. split; (rewrite H; [apply (@set_block_out RScalar); lia|]).
  - exact Hk.
  - destruct Hk as [Hk|Hk]; [|right; intros ->; apply Hk; reflexivity].
    destruct (Nat.eq_dec i j) as [<-|N]; [left; exact Hk|right; lia].
Qed.

Section Facts.
Context {E : Type} (pq : pqueue RScalar) (e : penv RScalar) (c : config RScalar).

Definition at_asked (target source : string) (time : Z) (t : option T4) : Prop :=
  answer (e_buffer e) target source (e_from_sec e (IZR time / 1000000000)) t.

Lemma lookup_asked target source time t : at_asked target source time t ->
  lookupTransformSafe e target source time = t.
Proof. intros H. apply lookup_is. rewrite toSec_R. exact H. Qed.

Lemma eye_no_motion : @no_motion RScalar = @t_identity RScalar.
Proof. reflexivity. Qed.

(** ** Twist, for any rigid mounting *)
Lemma twist_measured cd msg (n : node RScalar E) t :
  fresh n (cd_topic cd) (tw_stamp msg) ->
  at_asked (c_base c) (frame_or (tw_frame msg) (c_base c)) (tw_stamp msg) (Some t) -> rigid t ->
  exists m, queued (snd (twistCallback pq e c cd msg (c_base c) n)) = [m] /\
    m_topic m = cd_topic cd /\ m_time m = tw_stamp msg /\ m_thresh m = cd_thresh cd /\
    measures (e_two_d e) (m_value m) 6
      (plus3 (turn (t_basis t) (tw_linear msg)) (cross3 (t_origin t) (angular_velocity n))) /\
    measures (e_two_d e) (m_value m) 9 (turn (t_basis t) (tw_angular msg)) /\
    same_flags (e_two_d e) (m_upd m) (rotated_flags2 (t_basis t) 6 (cd_upd cd)) /\
    measures_cov (e_two_d e) (m_cov m) 6 6
      (@rotateCov RScalar 6 (@rot6 RScalar (t_basis t)) (as_matrix 6 (tw_cov msg))) /\
    only (e_two_d e) (m_value m) (m_cov m) 6 6 /\
    (e_two_d e = false -> psd 6 (as_matrix 6 (tw_cov msg)) -> psd 15 (m_cov m)).
Proof.
  intros HF HA HR. apply lookup_asked in HA.
  destruct (sensor_fresh pq true (cd_topic cd) (tw_stamp msg) (cd_upd cd) (cd_thresh cd)
    (prepareTwist e c msg (cd_topic cd) (c_base c)) n HF) as (HO & _).
  destruct (seen_fields n (cd_topic cd) (tw_stamp msg)) as (F1 & _).
  destruct (twist_ready e c msg (cd_topic cd) (c_base c) (seen n (cd_topic cd) (tw_stamp msg)) (cd_upd cd)
    vzero mzero t HA HR) as (R1 & _ & R3 & R4).
  unfold twistCallback. rewrite HO, R1. cbn [queued].
  set (r := prepareTwist _ _ _ _ _ _ _ _ _) in *.
  eexists. split; [reflexivity|]. cbn [m_topic m_time m_thresh m_value m_upd m_cov].
  split; [reflexivity|]. split; [reflexivity|]. split; [reflexivity|].
  assert (W : angular_velocity (seen n (cd_topic cd) (tw_stamp msg)) = angular_velocity n).
  { unfold angular_velocity. rewrite F1. reflexivity. }
  rewrite W in R3. clearbody r.
  match type of R3 with forall i, _ -> pr_val r i = set_vec3 (set_vec3 _ _ ?a) _ ?b i /\ _ =>
    destruct (measures_ext (e_two_d e) vzero (pr_val r) 6 a 9 b) as [M1 M2]; [lia|intros i Hi; apply R3; exact Hi|] end.
  split; [exact M1|]. split; [exact M2|]. split; [intros i Hi; apply R3; exact Hi|].
  split; [apply block_measured; exact R4|]. split.
  - eapply block_only; [|exact R4]. intros i Hi Ho. destruct (R3 i Hi) as [-> _].
    rewrite (proj2 (proj2 (proj2 (@set_vec3_at RScalar _ 9 _)))) by lia.
    rewrite (proj2 (proj2 (proj2 (@set_vec3_at RScalar _ 6 _)))) by lia. reflexivity.
  - intros H2 HP. eapply psd_ext; [intros i j Hi Hj; symmetry; apply R4; left; rewrite H2; apply kept_false|].
    apply set_block_psd; [lia|]. apply rotate_psd. exact HP.
Qed.

Lemma acceleration_measured cd msg (n : node RScalar E) t :
  fresh n (cd_topic cd) (im_stamp msg) ->
  at_asked (c_base c) (frame_or (im_frame msg) (c_base c)) (im_stamp msg) (Some t) -> rigid t ->
  let w := angular_velocity n in
  let felt := minus3 (plus3 (turn (t_basis t) (im_linear msg)) (cross3 (t_origin t) (a_acc (n_ang n))))
                     (cross3 (cross3 (t_origin t) w) w) in
  let fused := match sm_find (e_remove e) (cd_topic cd) with
               | Some true => minus3 felt (gravity_vector e n msg (cd_relative cd) (t_basis t))
               | _ => felt
               end in
  exists m, queued (snd (accelerationCallback pq e c cd msg (c_base c) n)) = [m] /\
    m_topic m = cd_topic cd /\ m_time m = im_stamp msg /\ m_thresh m = cd_thresh cd /\
    measures (e_two_d e) (m_value m) 12 fused /\
    same_flags (e_two_d e) (m_upd m) (rotated_flags (t_basis t) 12 (cd_upd cd)) /\
    measures_cov (e_two_d e) (m_cov m) 12 3
      (@rotateCov RScalar 3 (@rot3 RScalar (t_basis t)) (as_matrix 3 (im_acc_cov msg))) /\
    only (e_two_d e) (m_value m) (m_cov m) 12 3 /\
    (e_two_d e = false -> psd 3 (as_matrix 3 (im_acc_cov msg)) -> psd 15 (m_cov m)).
Proof.
  intros HF HA HR w felt fused. apply lookup_asked in HA.
  destruct (sensor_fresh pq false (cd_topic cd) (im_stamp msg) (cd_upd cd) (cd_thresh cd)
    (prepareAcceleration e c msg (cd_topic cd) (c_base c) (cd_relative cd)) n HF) as (HO & _).
  destruct (seen_fields n (cd_topic cd) (im_stamp msg)) as (F1 & F2 & _).
  pose proof (acceleration_ready e c msg (cd_topic cd) (c_base c) (cd_relative cd)
    (seen n (cd_topic cd) (im_stamp msg)) (cd_upd cd) vzero mzero t HA HR) as RR. cbv zeta in RR.
  assert (W : angular_velocity (seen n (cd_topic cd) (im_stamp msg)) = angular_velocity n).
  { unfold angular_velocity. rewrite F1. reflexivity. }
  assert (G : gravity_vector e (seen n (cd_topic cd) (im_stamp msg)) msg (cd_relative cd) (t_basis t) =
              gravity_vector e n msg (cd_relative cd) (t_basis t)).
  { unfold gravity_vector. rewrite F1. reflexivity. }
  rewrite W, G, F2 in RR. fold w in RR. fold felt in RR. fold fused in RR.
  destruct RR as (R1 & _ & R3 & R4).
  unfold accelerationCallback. rewrite HO, R1. cbn [queued].
  set (r := prepareAcceleration _ _ _ _ _ _ _ _ _ _) in *. clearbody r.
  eexists. split; [reflexivity|]. cbn [m_topic m_time m_thresh m_value m_upd m_cov].
  split; [reflexivity|]. split; [reflexivity|]. split; [reflexivity|].
  split; [apply measures_set with (v := vzero); intros i Hi; apply R3; exact Hi|].
  split; [intros i Hi; apply R3; exact Hi|].
  split; [apply block_measured; exact R4|]. split.
  - eapply block_only; [|exact R4]. intros i Hi Ho. destruct (R3 i Hi) as [-> _].
    rewrite (proj2 (proj2 (proj2 (@set_vec3_at RScalar _ 12 _)))) by lia. reflexivity.
  - intros H2 HP. eapply psd_ext; [intros i j Hi Hj; symmetry; apply R4; left; rewrite H2; apply kept_false|].
    apply set_block_psd; [lia|]. apply rotate_psd. exact HP.
Qed.

(** ** Pose *)
Definition source_turn (src : option T4) : M3 := match src with Some s => t_basis s | None => m3eye end.

Lemma pose_measured cd msg target source (imu : bool) (n : node RScalar E) t ft pf :
  fresh n (cd_topic cd) (ps_stamp msg) -> cd_differential cd = false ->
  pose_frames c (ps_frame msg) target false imu = (ft, pf) ->
  lookupTransformSafe e ft pf (pose_lookup_time e (ps_stamp msg)) = Some t -> rigid t ->
  let src := source_of e c source (pose_lookup_time e (ps_stamp msg)) in
  (forall s, src = Some s -> rigid s) ->
  let p2 := to_base src (base_pose t imu msg) in
  let st := n_streams n in
  let p3 := if cd_relative cd
            then t_inverseTimes (match sm_find (st_initial st) (cd_topic cd) with Some i => i | None => p2 end) p2
            else p2 in
  let p4 := t_mult (if imu then t_identity else t) p3 in
  rigid p4 ->
  let x := poseCallback pq e c cd msg target source imu n in
  exists m, queued (snd x) = [m] /\
    m_topic m = cd_topic cd /\ m_time m = ps_stamp msg /\ m_thresh m = cd_thresh cd /\
    measures (e_two_d e) (m_value m) 0 (t_origin p4) /\
    measures (e_two_d e) (m_value m) 3 (rpy_of (t_basis p4)) /\
    same_flags (e_two_d e) (m_upd m) (rotated_flags2 (mask_turn t imu) 0 (cd_upd cd)) /\
    measures_cov (e_two_d e) (m_cov m) 0 6
       (@rotateCov RScalar 6 (@rot6 RScalar (mask_turn t imu)) (source_cov src (as_matrix 6 (ps_cov msg)))) /\
    only (e_two_d e) (m_value m) (m_cov m) 0 6 /\
    (e_two_d e = false -> psd 6 (as_matrix 6 (ps_cov msg)) -> psd 15 (m_cov m)) /\
    n_streams (fst x) = (if cd_relative cd
      then match sm_find (st_initial st) (cd_topic cd) with
           | Some _ => st
           | None => mkStreams (sm_set (st_initial st) (cd_topic cd) p2) (st_previous st) (st_prev_cov st)
           end
      else st).
Proof.
  intros HF HD HFr HL HR src HS p2 st p3 p4 H4 x.
  destruct (sensor_fresh pq true (cd_topic cd) (ps_stamp msg) (cd_upd cd) (cd_thresh cd)
    (preparePose e c msg (cd_topic cd) target source (cd_differential cd) (cd_relative cd) imu) n HF) as (HO & HST & _).
  destruct (seen_fields n (cd_topic cd) (ps_stamp msg)) as (_ & _ & F3 & _).
  unfold x, poseCallback. rewrite HO, HST. clear HO HST x. rewrite HD.
  pose proof (pose_ready e c msg (cd_topic cd) target source (cd_relative cd) imu
    (seen n (cd_topic cd) (ps_stamp msg)) (cd_upd cd) vzero mzero t ft pf HFr HL HR) as RR.
  cbv zeta in RR. rewrite F3 in RR. fold src in RR. fold p2 in RR. fold st in RR. fold p3 in RR. fold p4 in RR.
  destruct (RR HS H4) as (R1 & R2 & R3 & R4). clear RR.
  set (r := preparePose _ _ _ _ _ _ _ _ _ _ _ _ _) in *. clearbody r.
  rewrite R1, R2. cbn [queued].
  eexists. split; [reflexivity|]. cbn [m_topic m_time m_thresh m_value m_upd m_cov].
  split; [reflexivity|]. split; [reflexivity|]. split; [reflexivity|].
  destruct (measures_ext (e_two_d e) vzero (pr_val r) 0 (t_origin p4) 3 (rpy_of (t_basis p4))) as [M1 M2];
    [lia|intros i Hi; apply R3; exact Hi|].
  split; [exact M1|]. split; [exact M2|]. split; [intros i Hi; apply R3; exact Hi|].
  split; [apply block_measured; exact R4|]. split.
  - eapply block_only; [|exact R4]. intros i Hi Ho. destruct (R3 i Hi) as [-> _].
    rewrite (proj2 (proj2 (proj2 (@set_vec3_at RScalar _ 3 _)))) by lia.
    rewrite (proj2 (proj2 (proj2 (@set_vec3_at RScalar _ 0 _)))) by lia. reflexivity.
  - split; [|reflexivity]. intros H2 HP. eapply psd_ext; [intros i j Hi Hj; symmetry; apply R4; left; rewrite H2; apply kept_false|].
    apply set_block_psd; [lia|]. apply rotate_psd. unfold source_cov. destruct src; [apply rotate_psd|]; exact HP.
Qed.

End Facts.
