(** * IMU parts, lookups, lever arms, gravity and set_pose (C41, C49, C53-C57) *)

From Coq Require Import Reals ZArith List Bool Lia Lra String Arith.
From Verif Require Import Scalar Mat FilterBase StrMap Tf Diagnostics RosFilter RosConfig ForceTwoD RosPrepare
  SpecConfig SpecNode SpecTf SpecLin SpecPrepare NodeProofs NodeFacts OutputProofs Trig TfReal TfRot TfQuat RBridge RLin Angles
  PrepareProofs PrepareReal PrepareFacts PrepareSeq PrepareThm PrepareMotion.
Import ListNotations.

(** ** IMU messages (C49) *)
Section Imu.
Context {K : Scalar} {E : Type}.
Variable pq : pqueue K.
Variable c : config K.

Definition same_basis (n n' : node K E) : Prop :=
  n_filter n = n_filter n' /\ n_ang n = n_ang n' /\ n_ctl n = n_ctl n' /\ n_ctl_time n = n_ctl_time n'.
Definition alike (k : string) (n n' : node K E) : Prop := memory k n = memory k n' /\ same_basis n n'.
Definition respects (topic : string) (prep : prepfun K E) : Prop :=
  forall n n' upd v cv, alike topic n n' ->
    let r := prep n upd v cv in let r' := prep n' upd v cv in
    pr_ok r = pr_ok r' /\ pr_upd r = pr_upd r' /\ pr_val r = pr_val r' /\ pr_cov r = pr_cov r' /\
    remembered topic (pr_streams r) = remembered topic (pr_streams r').

Lemma respects_twist e msg topic target : respects topic (prepareTwist e c msg topic target).
Proof.
  intros n n' upd v cv (M & F & A & _). unfold prepareTwist, state_angular. rewrite F. cbv zeta.
  unfold memory in M. injection M as M1 M2 M3 M4 M5.
  assert (R : remembered topic (n_streams n) = remembered topic (n_streams n')) by (unfold remembered; congruence).
  destruct (lookupTransformSafe _ _ _ _); [|repeat split; exact R].
  destruct (finish _ _ _ _) as [[? ?] ?]. repeat split; exact R.
Qed.
Lemma respects_acceleration e msg topic target relative :
  respects topic (prepareAcceleration e c msg topic target relative).
Proof.
  intros n n' upd v cv (M & F & A & _). unfold prepareAcceleration, state_angular, gravity_vector. rewrite F, A. cbv zeta.
  unfold memory in M. injection M as M1 M2 M3 M4 M5.
  assert (R : remembered topic (n_streams n) = remembered topic (n_streams n')) by (unfold remembered; congruence).
  destruct (lookupTransformSafe _ _ _ _); [|repeat split; exact R].
  destruct (finish _ _ _ _) as [[? ?] ?]. repeat split; exact R.
Qed.
Lemma respects_pose e msg topic target source differential relative imu :
  respects topic (preparePose e c msg topic target source differential relative imu).
Proof.
  intros n n' upd v cv HA. pose proof HA as (M & F & A & _).
  unfold memory in M. injection M as M1 M2 M3 M4 M5.
  assert (R : remembered topic (n_streams n) = remembered topic (n_streams n')) by (unfold remembered; congruence).
  unfold preparePose. destruct (pose_frames _ _ _ _ _) as [ft pf]. cbv zeta.
  destruct (lookupTransformSafe e ft pf _) as [t|]; [|repeat split; exact R].
  destruct differential.
  - rewrite M2, M3, M4.
    destruct (sm_find (st_previous (n_streams n')) topic) as [prev|];
      [destruct (sm_find (st_prev_cov (n_streams n')) topic) as [pcov|]|].
    + destruct (quatToRPY _) as [[? ?] ?]. cbn [pr_ok pr_upd pr_val pr_cov pr_streams].
      assert (HT : forall k a x z f, let r := prepareTwist a c x k z n f v cv in let r' := prepareTwist a c x k z n' f v cv in
        pr_ok r = pr_ok r' /\ pr_upd r = pr_upd r' /\ pr_val r = pr_val r' /\ pr_cov r = pr_cov r').
      { intros k a x z f. clear - F. unfold prepareTwist, state_angular. rewrite F. cbv zeta.
        destruct (lookupTransformSafe _ _ _ _); [|repeat split]. destruct (finish _ _ _ _) as [[? ?] ?]. repeat split. }
      match goal with |- context [prepareTwist ?a ?b ?x ?y ?z n ?f v cv] => destruct (HT y a x z f) as (T1 & T2 & T3 & T4) end.
      rewrite T1, T2, T3, T4. repeat split. unfold remembered. cbn [st_initial st_previous st_prev_cov].
      rewrite !sm_find_set. congruence.
    + cbn. repeat split. unfold remembered. cbn [st_initial st_previous st_prev_cov]. rewrite !sm_find_set. congruence.
    + cbn. repeat split. unfold remembered. cbn [st_initial st_previous st_prev_cov]. rewrite !sm_find_set. congruence.
  - destruct relative.
    + rewrite M1. destruct (sm_find (st_initial (n_streams n')) topic) as [i|] eqn:Hi.
      * rewrite M1, Hi. destruct (quatToRPY _) as [[? ?] ?]. destruct (finish _ _ _ _) as [[? ?] ?]. repeat split. exact R.
      * cbn [st_initial]. rewrite !sm_find_set. destruct (quatToRPY _) as [[? ?] ?]. destruct (finish _ _ _ _) as [[? ?] ?].
        cbn [pr_ok pr_upd pr_val pr_cov pr_streams]. repeat split. unfold remembered. cbn [st_initial st_previous st_prev_cov].
        rewrite !sm_find_set. congruence.
    + destruct (quatToRPY _) as [[? ?] ?]. destruct (finish _ _ _ _) as [[? ?] ?]. repeat split. exact R.
Qed.

Lemma sensor_basis warn topic stamp upd thresh (prep : prepfun K E) (n : node K E) :
  let x := sensorCallback pq warn topic stamp upd thresh prep n in
  same_basis (fst x) n /\ n_set_pose (fst x) = n_set_pose n.
Proof.
  intros x. unfold x, sensorCallback. clear x. destruct (_ >=? _)%Z; [destruct warn; repeat split|].
  fold (seen n topic stamp). cbv zeta.
  destruct (seen_fields n topic stamp) as (F1 & F2 & F3 & F4 & F5 & F6 & F7 & F8 & F9 & F10).
  set (n1 := seen n topic stamp) in *. clearbody n1. rewrite F9.
  destruct (Z.leb _ _); [|repeat split; assumption].
  destruct (pr_ok _); repeat split; assumption.
Qed.

Lemma sensor_alike warn topic stamp upd thresh (prep : prepfun K E) (n n' : node K E) :
  respects topic prep -> alike topic n n' ->
  let x := sensorCallback pq warn topic stamp upd thresh prep n in
  let x' := sensorCallback pq warn topic stamp upd thresh prep n' in
  snd x = snd x' /\ memory topic (fst x) = memory topic (fst x').
Proof.
  intros HP HA x x'. unfold x, x', sensorCallback. clear x x'.
  pose proof HA as (M & S1 & S2 & S3 & S4). pose proof M as M0. unfold memory in M. injection M as M1 M2 M3 M4 M5.
  rewrite M5. destruct (_ >=? _)%Z; [destruct warn; split; solve [reflexivity|exact M0]|].
  fold (seen n topic stamp). fold (seen n' topic stamp). cbv zeta.
  destruct (seen_fields n topic stamp) as (F1 & F2 & F3 & F4 & F5 & F6 & F7 & F8 & F9 & F10).
  destruct (seen_fields n' topic stamp) as (G1 & G2 & G3 & G4 & G5 & G6 & G7 & G8 & G9 & G10).
  assert (A1 : alike topic (seen n topic stamp) (seen n' topic stamp)).
  { split; [unfold memory; rewrite F3, F4, F9, G3, G4, G9, M4; unfold remembered; congruence|]. repeat split; congruence. }
  set (n1 := seen n topic stamp) in *. set (n1' := seen n' topic stamp) in *. clearbody n1 n1'.
  rewrite F9, G9, M4. destruct (Z.leb _ _).
  2:{ split; [reflexivity|]. exact (proj1 A1). }
  destruct (HP n1 n1' upd vzero mzero A1) as (P1 & P2 & P3 & P4 & P5).
  destruct (prep n1 upd vzero mzero) as [ok u v cv st ds]. destruct (prep n1' upd vzero mzero) as [ok' u' v' cv' st' ds'].
  cbn [pr_ok pr_upd pr_val pr_cov pr_streams pr_diag] in *. subst ok' u' v' cv'.
  destruct A1 as (AM & AF & AA & AC & AT).
  unfold memory in AM. injection AM as _ _ _ _ AM5. unfold remembered in P5. injection P5 as Q1 Q2 Q3.
  destruct ok; cbn [fst snd enqueueMeasurement].
  - split.
    + cbn. rewrite ?AC, ?AT. reflexivity.
    + unfold memory, remembered. cbn. rewrite !sm_find_set. congruence.
  - split; [reflexivity|]. unfold memory, remembered. cbn. rewrite !sm_find_set. congruence.
Qed.

Definition part_of (on : bool) (f : node K E -> node K E * list (output K E)) : node K E -> node K E * list (output K E) :=
  if on then f else skip_callback.

Lemma parts_run (topic : string) (pa pb pd : callback_data K) (e : penv K) (msg : imu_msg K) (n : node K E) :
  NoDup [cd_topic pa; cd_topic pb; cd_topic pd] -> (n_set_pose n < im_stamp msg)%Z ->
  let on cd cov := (Z.gtb (cd_sum cd) 0 && negb (declared_absent cov))%bool in
  let A := part_of (on pa (im_ori_cov msg)) (poseCallback pq e c pa (imu_pose msg) (c_base c) (c_base c) true) in
  let B := part_of (on pb (im_ang_cov msg)) (twistCallback pq e c pb (imu_twist msg) (c_base c)) in
  let D := part_of (on pd (im_acc_cov msg)) (accelerationCallback pq e c pd msg (c_base c)) in
  let r := imuCallback pq e c topic pa pb pd msg n in
  queued (snd r) = queued (snd (A n)) ++ queued (snd (B n)) ++ queued (snd (D n)) /\
  memory (cd_topic pa) (fst r) = memory (cd_topic pa) (fst (A n)) /\
  memory (cd_topic pb) (fst r) = memory (cd_topic pb) (fst (B n)) /\
  memory (cd_topic pd) (fst r) = memory (cd_topic pd) (fst (D n)).
Proof.
  intros ND HB on A B D r.
  assert (ER : r = andthen A (andthen B D) n).
  { unfold r, imuCallback. rewrite Z.geb_leb. destruct (Z.leb_spec (im_stamp msg) (n_set_pose n)); [lia|].
    change (@absent K) with (@declared_absent K). unfold A, B, D, part_of, on. reflexivity. }
  inversion ND as [|? ? NA ND1]; subst. inversion ND1 as [|? ? NB ND2]; subst. cbn [In] in NA, NB.
  assert (BA : forall m, same_basis (fst (A m)) m /\ n_set_pose (fst (A m)) = n_set_pose m).
  { intros m. unfold A, part_of. destruct (on pa _); [apply sensor_basis|repeat split]. }
  assert (BB : forall m, same_basis (fst (B m)) m /\ n_set_pose (fst (B m)) = n_set_pose m).
  { intros m. unfold B, part_of. destruct (on pb _); [apply sensor_basis|repeat split]. }
  assert (FA : forall m k, k <> cd_topic pa -> memory k (fst (A m)) = memory k m).
  { intros m k Hk. unfold A, part_of. destruct (on pa _); [apply pose_foreign; exact Hk|reflexivity]. }
  assert (FB : forall m k, k <> cd_topic pb -> memory k (fst (B m)) = memory k m).
  { intros m k Hk. unfold B, part_of. destruct (on pb _); [apply twist_foreign; exact Hk|reflexivity]. }
  assert (FD : forall m k, k <> cd_topic pd -> memory k (fst (D m)) = memory k m).
  { intros m k Hk. unfold D, part_of. destruct (on pd _); [apply acceleration_foreign; exact Hk|reflexivity]. }
  assert (RB : forall m m', alike (cd_topic pb) m m' -> snd (B m) = snd (B m') /\ memory (cd_topic pb) (fst (B m)) = memory (cd_topic pb) (fst (B m'))).
  { intros m m' Hm. unfold B, part_of. destruct (on pb _); [apply sensor_alike; [apply respects_twist|exact Hm]|split; [reflexivity|apply Hm]]. }
  assert (RD : forall m m', alike (cd_topic pd) m m' -> snd (D m) = snd (D m') /\ memory (cd_topic pd) (fst (D m)) = memory (cd_topic pd) (fst (D m'))).
  { intros m m' Hm. unfold D, part_of. destruct (on pd _); [apply sensor_alike; [apply respects_acceleration|exact Hm]|split; [reflexivity|apply Hm]]. }
  rewrite ER. unfold andthen. clearbody A B D. clear ER.
  destruct (BA n) as [BA1 _]. pose proof (FA n) as FAn.
  destruct (A n) as [n1 o1]. cbn [fst snd] in *.
  assert (AB : alike (cd_topic pb) n1 n) by (split; [apply FAn; intuition congruence|exact BA1]).
  destruct (RB _ _ AB) as [RB1 RB2]. destruct (BB n1) as [BB1 _]. pose proof (FB n1) as FBn.
  destruct (B n1) as [n2 o2]. cbn [fst snd] in *.
  assert (AD : alike (cd_topic pd) n2 n).
  { split; [rewrite FBn by (intuition congruence); apply FAn; intuition congruence|].
    destruct BB1 as (b1 & b2 & b3 & b4), BA1 as (a1 & a2 & a3 & a4). repeat split; congruence. }
  destruct (RD _ _ AD) as [RD1 RD2]. pose proof (FD n2) as FDn.
  destruct (D n2) as [n3 o3]. cbn [fst snd] in *.
  rewrite !queued_app, RB1, RD1. split; [reflexivity|].
  split; [rewrite FDn by (intuition congruence); apply FBn; intuition congruence|].
  split; [rewrite FDn by (intuition congruence); exact RB2|exact RD2].
Qed.

Lemma imu_barrier (topic : string) (pa pb pd : callback_data K) (e : penv K) (msg : imu_msg K) (n : node K E) :
  (im_stamp msg <= n_set_pose n)%Z ->
  let r := imuCallback pq e c topic pa pb pd msg n in
  snd r = [] /\ forall k, memory k (fst r) = memory k n.
Proof.
  intros H r. unfold r, imuCallback. rewrite Z.geb_leb. destruct (Z.leb_spec (im_stamp msg) (n_set_pose n)); [|lia].
  split; [reflexivity|]. intros k. reflexivity.
Qed.

(** ** Lookups that fail (C56) *)
Lemma no_twist (e : penv K) cd msg (n : node K E) :
  lookupTransformSafe e (c_base c) (frame_or (tw_frame msg) (c_base c)) (tw_stamp msg) = None ->
  queued (snd (receive pq e c (SubTwist cd) (MsgTwist msg) n)) = [].
Proof.
  intros L. cbn [receive]. unfold twistCallback, sensorCallback.
  destruct (_ >=? _)%Z; [reflexivity|]. cbv zeta. destruct (sm_find _ _); [|reflexivity]. destruct (_ <=? _)%Z; [|reflexivity].
  match goal with |- context [prepareTwist ?a ?b ?x ?y ?z ?w ?f ?v ?cv] =>
    assert (P : pr_ok (prepareTwist a b x y z w f v cv) = false) end.
  { unfold prepareTwist.
    replace (if String.eqb (tw_frame msg) "" then c_base c else tw_frame msg) with (frame_or (tw_frame msg) (c_base c))
      by (destruct (tw_frame msg); reflexivity). rewrite L. reflexivity. }
  rewrite P. reflexivity.
Qed.
Lemma no_acceleration (e : penv K) cd msg (n : node K E) :
  lookupTransformSafe e (c_base c) (frame_or (im_frame msg) (c_base c)) (im_stamp msg) = None ->
  queued (snd (accelerationCallback pq e c cd msg (c_base c) n)) = [].
Proof.
  intros L. unfold accelerationCallback, sensorCallback.
  destruct (_ >=? _)%Z; [reflexivity|]. cbv zeta. destruct (sm_find _ _); [|reflexivity]. destruct (_ <=? _)%Z; [|reflexivity].
  match goal with |- context [prepareAcceleration ?a ?b ?x ?y ?z ?w ?f ?v ?cv ?g] =>
    assert (P : pr_ok (prepareAcceleration a b x y z w f v cv g) = false) end.
  { unfold prepareAcceleration.
    replace (if String.eqb (im_frame msg) "" then c_base c else im_frame msg) with (frame_or (im_frame msg) (c_base c))
      by (destruct (im_frame msg); reflexivity). rewrite L. reflexivity. }
  rewrite P. reflexivity.
Qed.
Lemma no_pose (e : penv K) cd msg target source imu (n : node K E) ft pf :
  pose_frames c (ps_frame msg) target (cd_differential cd) imu = (ft, pf) ->
  lookupTransformSafe e ft pf (pose_lookup_time e (ps_stamp msg)) = None ->
  queued (snd (poseCallback pq e c cd msg target source imu n)) = [].
Proof.
  intros F L. unfold poseCallback, sensorCallback.
  destruct (_ >=? _)%Z; [reflexivity|]. cbv zeta. destruct (sm_find _ _); [|reflexivity]. destruct (_ <=? _)%Z; [|reflexivity].
  match goal with |- context [preparePose ?a ?b ?x ?y ?z ?w ?f ?v ?cv ?g ?h ?i ?j] =>
    assert (P : pr_ok (preparePose a b x y z w f v cv g h i j) = false) end.
  { unfold preparePose. rewrite F. cbv zeta. rewrite L. reflexivity. }
  rewrite P. reflexivity.
Qed.
End Imu.

Local Open Scope R_scope.

Section Goals.
Context {E : Type} (pq : pqueue RScalar) (c : config RScalar).

(** ** Which times are asked for (C57) *)
Definition same_settings (e e' : penv RScalar) : Prop :=
  e_two_d e' = e_two_d e /\ e_gravity e' = e_gravity e /\ e_remove e' = e_remove e /\
  e_from_sec e' = e_from_sec e /\ e_to_sec e' = e_to_sec e.

Lemma lookup_depends (e e' : penv RScalar) a b s : exact_clock e -> stamp_range s -> same_settings e e' ->
  (forall f g, e_buffer e' f g s = e_buffer e f g s /\ e_buffer e' f g 0%Z = e_buffer e f g 0%Z) ->
  lookupTransformSafe e' a b s = lookupTransformSafe e a b s.
Proof.
  intros HE HS (_ & _ & _ & F & _) HB. unfold lookupTransformSafe. cbv zeta. rewrite F.
  replace (e_from_sec e (@toSec RScalar s)) with s by (rewrite toSec_R; symmetry; apply HE, HS).
  destruct (HB a b) as [-> ->]. reflexivity.
Qed.

Lemma pose_depends (e e' : penv RScalar) cd msg target source imu (n : node RScalar E) :
  cd_differential cd = false -> exact_clock e -> stamp_range (ps_stamp msg) -> same_settings e e' ->
  (forall f g, e_buffer e' f g (ps_stamp msg / 1000000000)%Z = e_buffer e f g (ps_stamp msg / 1000000000)%Z /\
               e_buffer e' f g 0%Z = e_buffer e f g 0%Z) ->
  poseCallback pq e' c cd msg target source imu n = poseCallback pq e c cd msg target source imu n.
Proof.
  intros HD HE HS HSS HB. unfold poseCallback. rewrite HD.
  assert (HE' : exact_clock e').
  { destruct HSS as (_ & _ & _ & F & T). intros t Ht. rewrite F, T. apply HE, Ht. }
  assert (L : forall a b, lookupTransformSafe e' a b (pose_lookup_time e' (ps_stamp msg)) =
                          lookupTransformSafe e a b (pose_lookup_time e (ps_stamp msg))).
  { intros a b. rewrite !pose_time by assumption. apply lookup_depends; try assumption. apply range_seconds, HS. }
  destruct HSS as (T & _).
  assert (P : preparePose (E:=E) e' c msg (cd_topic cd) target source false (cd_relative cd) imu =
              preparePose e c msg (cd_topic cd) target source false (cd_relative cd) imu).
  { unfold preparePose. destruct (pose_frames _ _ _ _ _) as [ft pf].
    repeat (apply FunctionalExtensionality.functional_extensionality; intros). cbv zeta. rewrite !L, T. reflexivity. }
  rewrite P. reflexivity.
Qed.
Lemma twist_depends (e e' : penv RScalar) cd msg target (n : node RScalar E) :
  exact_clock e -> stamp_range (tw_stamp msg) -> same_settings e e' ->
  (forall f g, e_buffer e' f g (tw_stamp msg) = e_buffer e f g (tw_stamp msg) /\
               e_buffer e' f g 0%Z = e_buffer e f g 0%Z) ->
  twistCallback pq e' c cd msg target n = twistCallback pq e c cd msg target n.
Proof.
  intros HE HS HSS HB. unfold twistCallback.
  assert (P : prepareTwist (E:=E) e' c msg (cd_topic cd) target = prepareTwist e c msg (cd_topic cd) target).
  { unfold prepareTwist. repeat (apply FunctionalExtensionality.functional_extensionality; intros). cbv zeta.
    rewrite (lookup_depends e e') by assumption. destruct HSS as (-> & _). reflexivity. }
  rewrite P. reflexivity.
Qed.

(** ** Lever arms (C54) *)
Lemma lever_twist e cd msg (n : node RScalar E) t (Q : R -> M3) w x x' s' t0 :
  exact_clock e -> stamp_range (tw_stamp msg) -> fresh n (cd_topic cd) (tw_stamp msg) ->
  answer (e_buffer e) (c_base c) (frame_or (tw_frame msg) (c_base c)) (tw_stamp msg) (Some t) -> rigid t ->
  body_rates Q w -> derivative x x' -> derivative (fun z => plus3 (x z) (turn (Q z) (t_origin t))) s' ->
  angular_velocity n = w t0 ->
  turn (Q t0) (turn (t_basis t) (tw_linear msg)) = s' t0 ->
  exists m v, queued (snd (receive pq e c (SubTwist cd) (MsgTwist msg) n)) = [m] /\
    measures (e_two_d e) (m_value m) 6 v /\ turn (Q t0) v = x' t0 /\
    measures (e_two_d e) (m_value m) 9 (turn (t_basis t) (tw_angular msg)).
Proof.
  intros HE HS HF HA HR HQ Hx Hs Hw Hm.
  destruct (twist_transformed pq e c cd msg n t HE HS HF HA HR) as (m & Qm & _ & _ & _ & M6 & M9 & _).
  eexists m, _. split; [exact Qm|]. split; [exact M6|]. split; [|exact M9].
  pose proof (lever_velocity Q w x x' (t_origin t) s' t0 HQ Hx Hs) as L.
  rewrite turn_plus, Hm, L, Hw. set (a := x' t0). set (q := Q t0). set (o := t_origin t). set (b := w t0).
  clearbody a q o b. clear. tf_ring.
Qed.

Lemma lever_accel e cd msg (n : node RScalar E) t (Q : R -> M3) w al x x' x'' s' s'' t0 :
  exact_clock e -> stamp_range (im_stamp msg) -> fresh n (cd_topic cd) (im_stamp msg) ->
  sm_find (e_remove e) (cd_topic cd) <> Some true ->
  answer (e_buffer e) (c_base c) (frame_or (im_frame msg) (c_base c)) (im_stamp msg) (Some t) -> rigid t ->
  body_rates Q w -> derivative w al -> derivative x x' -> derivative x' x'' ->
  derivative (fun z => plus3 (x z) (turn (Q z) (t_origin t))) s' -> derivative s' s'' ->
  angular_velocity n = w t0 -> a_acc (n_ang n) = al t0 ->
  turn (Q t0) (turn (t_basis t) (im_linear msg)) = s'' t0 ->
  exists m v, queued (snd (accelerationCallback pq e c cd msg (c_base c) n)) = [m] /\
    measures (e_two_d e) (m_value m) 12 v /\ turn (Q t0) v = x'' t0.
Proof.
  intros HE HS HF HG HA HR HQ Hw Hx Hx' Hs Hs' Ew Eal Hm.
  destruct (acceleration_transformed pq e c cd msg n t HE HS HF HA HR) as (m & Qm & _ & _ & _ & M12 & _).
  cbv zeta in M12. eexists m, _. split; [exact Qm|]. split.
  { destruct (sm_find (e_remove e) (cd_topic cd)) as [[]|]; [contradiction|exact M12|exact M12]. }
  pose proof (lever_acceleration Q w al x x' x'' (t_origin t) s' s'' t0 HQ Hw Hx Hx' Hs Hs') as L.
  rewrite turn_minus, turn_plus, Hm, L, Ew, Eal. set (a := x'' t0). set (q := Q t0). set (o := t_origin t). set (b := w t0).
  set (d := al t0). clearbody a q o b d. clear. tf_ring.
Qed.

(** ** Gravity (C55) *)
Lemma gravity_general e cd msg (n : node RScalar E) t att sensor_up body_up :
  exact_clock e -> stamp_range (im_stamp msg) -> fresh n (cd_topic cd) (im_stamp msg) ->
  sm_find (e_remove e) (cd_topic cd) = Some true -> cd_relative cd = false ->
  answer (e_buffer e) (c_base c) (frame_or (im_frame msg) (c_base c)) (im_stamp msg) (Some t) -> rigid t ->
  at_rest n -> imu_attitude n msg (t_basis t) att ->
  att sensor_up = up (e_gravity e) -> im_linear msg = sensor_up -> body_up = turn (t_basis t) sensor_up ->
  exists m, queued (snd (accelerationCallback pq e c cd msg (c_base c) n)) = [m] /\
    measures (e_two_d e) (m_value m) 12 (minus3 body_up sensor_up).
Proof.
  intros HE HS HF HG HRl HA HR [R1 R2] HI HU Hm ->.
  destruct (acceleration_transformed pq e c cd msg n t HE HS HF HA HR) as (m & Qm & _ & _ & _ & M12 & _).
  cbv zeta in M12. rewrite HG, HRl in M12. rewrite (gravity_is e n msg (t_basis t) att sensor_up HR HI HU) in M12.
  rewrite R1, R2, Hm in M12. exists m. split; [exact Qm|].
  match type of M12 with measures _ _ _ ?v => replace (minus3 (turn (t_basis t) sensor_up) sensor_up) with v; [exact M12|] end.
  generalize (t_origin t). clear. intros o. tf_ring.
Qed.

Lemma gravity_removed e cd msg (n : node RScalar E) t att (Q : R -> M3) w al x x' x'' s' s'' t0 reaction :
  exact_clock e -> stamp_range (im_stamp msg) -> fresh n (cd_topic cd) (im_stamp msg) ->
  sm_find (e_remove e) (cd_topic cd) = Some true ->
  answer (e_buffer e) (c_base c) (frame_or (im_frame msg) (c_base c)) (im_stamp msg) (Some t) ->
  t_basis t = t_basis no_motion ->
  body_rates Q w -> derivative w al -> derivative x x' -> derivative x' x'' ->
  derivative (fun z => plus3 (x z) (turn (Q z) (t_origin t))) s' -> derivative s' s'' ->
  angular_velocity n = w t0 -> a_acc (n_ang n) = al t0 ->
  imu_attitude n msg (t_basis t) att -> (forall v, att v = turn (Q t0) v) ->
  turn (Q t0) reaction = up (e_gravity e) ->
  turn (Q t0) (im_linear msg) = plus3 (s'' t0) (up (e_gravity e)) ->
  exists m v, queued (snd (accelerationCallback pq e c cd msg (c_base c) n)) = [m] /\
    measures (e_two_d e) (m_value m) 12 v /\ turn (Q t0) v = x'' t0.
Proof.
  intros HE HS HF HG HA HT HQ Hw Hx Hx' Hs Hs' Ew Eal HI Hatt HU Hm.
  assert (HR : rigid t) by (unfold rigid; rewrite HT; apply rotation_eye).
  destruct (acceleration_transformed pq e c cd msg n t HE HS HF HA HR) as (m & Qm & _ & _ & _ & M12 & _).
  cbv zeta in M12. rewrite HG in M12. rewrite HT in M12, HI. rewrite no_motion_turn in M12.
  change (t_basis no_motion) with (@m3eye RScalar) in M12, HI.
  assert (GA : att reaction = up (e_gravity e)) by (rewrite Hatt; exact HU).
  rewrite (gravity_aligned e n msg (cd_relative cd) att reaction HI GA) in M12.
  eexists m, _. split; [exact Qm|]. split; [exact M12|].
  pose proof (lever_acceleration Q w al x x' x'' (t_origin t) s' s'' t0 HQ Hw Hx Hx' Hs Hs') as L.
  rewrite turn_minus, turn_minus, turn_plus, Hm, L, HU, Ew, Eal. set (a := x'' t0). set (q := Q t0). set (o := t_origin t). set (b := w t0).
  set (d := al t0). set (g := up _). clearbody a q o b d g. clear. tf_ring.
Qed.

(** ** set_pose (C41) *)
Lemma set_pose_sets e msg now (n : node RScalar E) t :
  c_world c <> ""%string -> exact_clock e -> stamp_range (ps_stamp msg) -> unit_quat (ps_orientation msg) ->
  answer (e_buffer e) (c_world c) (ps_frame msg) (ps_stamp msg / 1000000000)%Z (Some t) -> rigid t ->
  let n' := setPose e c msg now n in
  let s := fb_state (n_filter n') in let P := fb_P (n_filter n') in
  measures (e_two_d e) s 0 (move t (ps_position msg)) /\
  (exists a, measures (e_two_d e) s 3 a /\
     (not_vertical (turn (t_basis t) (spin (ps_orientation msg) (v3 1 0 0))) ->
      describes a (fun v => turn (t_basis t) (spin (ps_orientation msg) v)))) /\
  (forall i, (6 <= i < 15)%nat -> kept (e_two_d e) i -> s i = 0) /\
  (e_two_d e = false -> turned6 (t_basis t) (as_matrix 6 (ps_cov msg)) (block 0 P)) /\
  (forall i j, (6 <= i)%nat \/ (6 <= j)%nat -> kept (e_two_d e) i \/ i <> j ->
     P i j = if Nat.eqb i j then 1 / 1000000 else 0) /\
  n_queue n' = [] /\ n_state_hist n' = [] /\ n_meas_hist n' = [] /\ n_streams n' = no_streams /\
  n_set_pose n' = ps_stamp msg /\ fb_last_time (n_filter n') = now /\
  fb_initialized (n_filter n') = fb_initialized (n_filter n) /\ n_last_msg n' = n_last_msg n.
Proof.
  intros HW HE HS U HA HR n'.
  set (n0 := with_set_pose (with_state_hist (with_meas_hist (clearMeasurementQueue (with_streams n no_streams)) []) []) (ps_stamp msg)).
  set (r := preparePose e c msg "set_pose" (c_world c) (c_base c) false false false n0 (repeat true STATE_SIZE) vzero
              (mscale (lit 1 6) meye)).
  pose proof (pose_ready e c msg "set_pose" (c_world c) (c_base c) false false n0 (repeat true STATE_SIZE) vzero
    (mscale (lit 1 6) meye) t _ _ (frames_world c (ps_frame msg) false false HW) (pose_lookup e _ _ _ _ HE HS HA) HR) as PR.
  cbv zeta in PR. rewrite source_base in PR. cbn [to_base base_pose source_cov] in PR. fold r in PR.
  destruct PR as (P1 & P2 & P3 & P4).
  { intros s h. discriminate h. }
  { apply rigid_mult; [exact HR|apply pose_rigid]. }
  assert (EF : n_filter n' = setLastMeasurementTime (setEstimateErrorCovariance (setState (n_filter n) (pr_val r)) (pr_cov r)) now) by reflexivity.
  assert (ES : n_streams n' = pr_streams r) by reflexivity.
  assert (EO : n_queue n' = [] /\ n_state_hist n' = [] /\ n_meas_hist n' = [] /\ n_set_pose n' = ps_stamp msg /\ n_last_msg n' = n_last_msg n)
    by (repeat split).
  cbv zeta. rewrite EF, ES.
  assert (X1 : forall f v P z, fb_state (setLastMeasurementTime (setEstimateErrorCovariance (@setState RScalar E f v) P) z) = v) by reflexivity.
  assert (X2 : forall f v P z, fb_P (setLastMeasurementTime (setEstimateErrorCovariance (@setState RScalar E f v) P) z) = P) by reflexivity.
  rewrite X1, X2. clear X1 X2.
  destruct EO as (O1 & O2 & O3 & O4 & O5). clearbody n' r. clear EF ES.
  assert (B : forall v, turn (t_basis (t_mult t (pose_of msg))) v = turn (t_basis t) (spin (ps_orientation msg) v)).
  { intros v. change (t_basis (t_mult t (pose_of msg))) with (m3mul (t_basis t) (pose_attitude msg)).
    rewrite turn_mul, attitude_unit by exact U. reflexivity. }
  destruct (measures_ext (e_two_d e) vzero (pr_val r) 0 (t_origin (t_mult t (pose_of msg))) 3
    (rpy_of (t_basis (t_mult t (pose_of msg))))) as [M0 M3]; [lia|intros i Hi; apply P3; exact Hi|].
  split.
  { replace (move t (ps_position msg)) with (t_origin (t_mult t (pose_of msg))); [exact M0|].
    change (t_origin (t_mult t (pose_of msg))) with (t_apply t (ps_position msg)). apply t_apply_move. }
  split.
  { eexists. split; [exact M3|]. intros NV v. rewrite <- B. apply rpy_describes; [apply rigid_mult; [exact HR|apply pose_rigid]|].
    rewrite B. exact NV. }
  split.
  { intros i Hi Hk. destruct (P3 i Hk) as [-> _].
    rewrite (proj2 (proj2 (proj2 (@set_vec3_at RScalar _ 3 _)))) by lia.
    rewrite (proj2 (proj2 (proj2 (@set_vec3_at RScalar _ 0 _)))) by lia. reflexivity. }
  split.
  { intros H2. apply turned6_rotate; [exact HR|]. intros i j Hi Hj. unfold block. cbn [Nat.add].
    rewrite P4 by (left; left; exact H2). rewrite <- (Nat.add_0_l i), <- (Nat.add_0_l j) at 1.
    rewrite set_block_in by assumption. reflexivity. }
  split.
  { intros i j Hij Hk. rewrite P4 by exact Hk. rewrite set_block_out by lia.
    unfold mscale, meye, lit. toR. change (10 ^ 6)%Z with 1000000%Z. destruct (Nat.eqb i j); toR; lra. }
  rewrite P2. repeat (split; [assumption|]). split; [reflexivity|]. split; [assumption|]. split; [reflexivity|].
  split; [reflexivity|assumption].
Qed.

Lemma set_pose_fails e msg now (n : node RScalar E) :
  c_world c <> ""%string -> exact_clock e -> stamp_range (ps_stamp msg) ->
  answer (e_buffer e) (c_world c) (ps_frame msg) (ps_stamp msg / 1000000000)%Z None ->
  let n' := setPose e c msg now n in
  (forall i, fb_state (n_filter n') i = 0) /\
  (forall i j, fb_P (n_filter n') i j = if Nat.eqb i j then 1 / 1000000 else 0) /\
  n_queue n' = [] /\ n_set_pose n' = ps_stamp msg /\ fb_last_time (n_filter n') = now.
Proof.
  intros HW HE HS HA n'. pose proof (pose_lookup e _ _ _ _ HE HS HA) as L.
  set (n0 := with_set_pose (with_state_hist (with_meas_hist (clearMeasurementQueue (with_streams n no_streams)) []) []) (ps_stamp msg)).
  set (r := preparePose e c msg "set_pose" (c_world c) (c_base c) false false false n0 (repeat true STATE_SIZE) vzero
              (mscale (lit 1 6) meye)).
  assert (ER : pr_val r = vzero /\ pr_cov r = mscale (lit 1 6) meye).
  { unfold r, preparePose. rewrite frames_world by exact HW. cbv zeta. cbn [andb negb]. rewrite L. split; reflexivity. }
  destruct ER as [E1 E2].
  assert (EF : n_filter n' = setLastMeasurementTime (setEstimateErrorCovariance (setState (n_filter n) (pr_val r)) (pr_cov r)) now) by reflexivity.
  rewrite EF, E1, E2. split; [intros i; reflexivity|]. split; [|split; [reflexivity|split; reflexivity]].
  intros i j. change (@mscale RScalar (lit 1 6) meye i j = if Nat.eqb i j then 1 / 1000000 else 0).
  unfold mscale, meye, lit. toR. change (10 ^ 6)%Z with 1000000%Z. destruct (Nat.eqb i j); toR; lra.
Qed.
End Goals.
