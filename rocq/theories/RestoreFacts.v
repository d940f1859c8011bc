(** * Restoring a published pose with set_pose (C112) *)

From Coq Require Import Reals ZArith Bool List String Lra Lia Psatz.
From Verif Require Import Scalar Mat FilterBase StrMap Tf RosFilter RosConfig ForceTwoD RosPrepare SpecFilter
  SpecConfig SpecNode SpecTf SpecLin SpecPrepare SpecOutput Trig Angles TfReal TfRot TfQuat RBridge NodeProofs OutputProofs
  PrepareProofs PrepareReal PrepareFacts PrepareSeq PrepareThm PrepareMotion PreparePsd PrepareRun PrepareGoals PrepareWit VerticalFacts.
Import ListNotations.
Local Open Scope R_scope.

Lemma self_answer {K : Scalar} (e : penv K) f t : self_known e -> answer (e_buffer e) f f t (Some no_motion).
Proof.
  intros H. destruct (H f t) as [A|A]; [|apply at_time, A]. destruct (H f 0%Z) as [B|B]; [apply same_frame; auto|].
  apply latest_one; assumption.
Qed.

Lemma forward_down r p y : Z3 (oriented r p y (v3 1 0 0)) = - sin p.
Proof. unfold oriented, about_x, about_y, about_z, v3, X, Y, Z3. cbn. ring. Qed.
Lemma left_axis r p y : cos p = 0 -> (oriented r p y (v3 0 1 0) = v3 0 1 0 <-> cos (r - sin p * y) = 1).
Proof.
  intros C. pose proof (sin_cos1 p) as S. rewrite C in S.
  assert (Hs : sin p = 1 \/ sin p = -1) by (assert ((sin p - 1) * (sin p + 1) = 0) by lra; apply Rmult_integral in H; lra).
  assert (E : oriented r p y (v3 0 1 0) = v3 (sin p * sin r * cos y - cos r * sin y) (cos r * cos y + sin p * sin r * sin y) 0).
  { unfold oriented, about_x, about_y, about_z, v3, X, Y, Z3. cbn. rewrite C. apply v3_eq; unfold X, Y, Z3; cbn; ring. }
  assert (Hc : cos (r - sin p * y) = cos r * cos y + sin p * sin r * sin y /\
               sin (r - sin p * y) = sin p * (sin p * sin r * cos y - cos r * sin y)).
  { destruct Hs as [-> | ->].
    - rewrite Rmult_1_l, cos_minus, sin_minus. split; ring.
    - replace (r - -1 * y) with (r + y) by ring. rewrite cos_plus, sin_plus. split; ring. }
  destruct Hc as (Hc & Hsn). rewrite E, Hc. split.
  - intros H. apply (f_equal Y) in H. exact H.
  - intros H. pose proof (sin_cos1 (r - sin p * y)) as Q. rewrite Hc, Hsn, H in Q.
    assert (Z : sin p * sin r * cos y - cos r * sin y = 0).
    { assert (Z2 : (sin p * (sin p * sin r * cos y - cos r * sin y)) * (sin p * (sin p * sin r * cos y - cos r * sin y)) = 0) by lra.
      apply Rmult_integral in Z2. assert (sin p <> 0) by (destruct Hs; lra).
      destruct Z2 as [Z2|Z2]; apply Rmult_integral in Z2; destruct Z2; tauto. }
    rewrite H, Z. reflexivity.
Qed.
Lemma level_or_not r p y : not_vertical (oriented r p y (v3 1 0 0)) <-> cos p <> 0.
Proof.
  unfold not_vertical. rewrite forward_down. pose proof (sin_cos1 p) as S. split.
  - intros H C. rewrite C in S. nra.
  - intros C. assert (0 < cos p * cos p) by nra. nra.
Qed.

Section Restore.
Context {E : Type}.
Variable c : config RScalar.

(** set_pose with a pose in the world frame. *)
Lemma set_pose_here e msg now (n : node RScalar E) :
  c_world c <> ""%string -> exact_clock e -> self_known e -> stamp_range (ps_stamp msg) -> unit_quat (ps_orientation msg) ->
  ps_frame msg = c_world c -> e_two_d e = false ->
  let g := n_filter (setPose e c msg now n) in let s := fb_state g in
  v3 (s 0%nat) (s 1%nat) (s 2%nat) = ps_position msg /\
  (forall r p y, - PI < r <= PI -> - (PI / 2) < p < PI / 2 -> - PI < y <= PI ->
     (forall v, spin (ps_orientation msg) v = oriented r p y v) -> s 3%nat = r /\ s 4%nat = p /\ s 5%nat = y) /\
  ((forall v, oriented (s 3%nat) (s 4%nat) (s 5%nat) v = spin (ps_orientation msg) v) <->
     not_vertical (spin (ps_orientation msg) (v3 1 0 0)) \/ spin (ps_orientation msg) (v3 0 1 0) = v3 0 1 0) /\
  (forall i, (6 <= i < 15)%nat -> s i = 0) /\
  (forall i j, (i < 6)%nat -> (j < 6)%nat -> fb_P g i j = ps_cov msg (6 * i + j)%nat) /\
  (forall i j, (6 <= i)%nat \/ (6 <= j)%nat -> fb_P g i j = if Nat.eqb i j then 1 / 1000000 else 0).
Proof.
  intros HW HE HK HS U HF H2 g s.
  assert (HA : answer (e_buffer e) (c_world c) (ps_frame msg) (ps_stamp msg / 1000000000)%Z (Some no_motion))
    by (rewrite HF; apply self_answer, HK).
  assert (EY : forall v, turn (t_basis (@no_motion RScalar)) v = v).
  { intros v. change (t_basis no_motion) with (@m3eye RScalar). apply turn_eye. }
  pose proof (set_pose_sets c e msg now n no_motion HW HE HS U HA no_motion_rigid) as P. cbv zeta in P. fold g s in P.
  destruct P as (M0 & _ & Z & _ & PO & _).
  pose proof (set_pose_exactly c e msg now n no_motion HW HE HS U HA no_motion_rigid H2) as X1. cbv beta zeta in X1. fold g s in X1.
  assert (K0 : forall i, kept (e_two_d e) i) by (intros i; left; exact H2).
  split; [|split; [|split; [|split; [|split]]]].
  - destruct M0 as (A & B & D). change (0 + 1)%nat with 1%nat in *. change (0 + 2)%nat with 2%nat in *.
    rewrite A, B, D by apply K0. unfold move. rewrite EY.
    destruct (ps_position msg) as [x y z]. apply v3_eq; unfold plus3, v3, X, Y, Z3; cbn; ring.
  - intros r p y Hr Hp Hy HD.
    set (n0 := with_set_pose (with_state_hist (with_meas_hist (clearMeasurementQueue (with_streams n no_streams)) []) []) (ps_stamp msg)).
    set (q := preparePose e c msg "set_pose" (c_world c) (c_base c) false false false n0 (repeat true STATE_SIZE) vzero
                (mscale (lit 1 6) meye)).
    pose proof (pose_ready e c msg "set_pose" (c_world c) (c_base c) false false n0 (repeat true STATE_SIZE) vzero
      (mscale (lit 1 6) meye) no_motion _ _ (frames_world c (ps_frame msg) false false HW) (pose_lookup e _ _ _ _ HE HS HA) no_motion_rigid) as PR.
    cbv zeta in PR. rewrite source_base in PR. cbn [to_base base_pose source_cov] in PR. fold q in PR.
    assert (RM : rotation (t_basis (t_mult no_motion (pose_of msg)))) by (apply rigid_mult; [apply no_motion_rigid|apply pose_rigid]).
    destruct PR as (_ & _ & P3 & _); [intros s0 h; discriminate h|exact RM|].
    assert (G : rpy_of (t_basis (t_mult no_motion (pose_of msg))) = v3 r p y).
    { apply rpy_exact; try assumption. intros v. rewrite pose_turns by exact U. rewrite EY. apply HD. }
    destruct (measures_ext (e_two_d e) vzero (pr_val q) 0 (t_origin (t_mult no_motion (pose_of msg))) 3
      (rpy_of (t_basis (t_mult no_motion (pose_of msg))))) as [_ M3]; [lia|intros i Hi; apply P3; exact Hi|].
    rewrite G in M3. change (pr_val q) with s in M3. destruct M3 as (A & B & D). cbn [Nat.add] in *.
    rewrite A, B, D by apply K0. repeat split.
  - rewrite !EY in X1. rewrite <- X1. split; intros D v; [rewrite EY|rewrite <- (EY (spin _ v))]; apply D.
  - intros i Hi. apply Z; [exact Hi|apply K0].
  - intros i j Hi Hj.
    set (n0 := with_set_pose (with_state_hist (with_meas_hist (clearMeasurementQueue (with_streams n no_streams)) []) []) (ps_stamp msg)).
    set (q := preparePose e c msg "set_pose" (c_world c) (c_base c) false false false n0 (repeat true STATE_SIZE) vzero
                (mscale (lit 1 6) meye)).
    pose proof (pose_ready e c msg "set_pose" (c_world c) (c_base c) false false n0 (repeat true STATE_SIZE) vzero
      (mscale (lit 1 6) meye) no_motion _ _ (frames_world c (ps_frame msg) false false HW) (pose_lookup e _ _ _ _ HE HS HA) no_motion_rigid) as PR.
    cbv zeta in PR. rewrite source_base in PR. cbn [to_base base_pose source_cov] in PR. fold q in PR.
    assert (RM : rotation (t_basis (t_mult no_motion (pose_of msg)))) by (apply rigid_mult; [apply no_motion_rigid|apply pose_rigid]).
    destruct PR as (_ & _ & _ & P4); [intros s0 h; discriminate h|exact RM|].
    change (fb_P g i j) with (pr_cov q i j). rewrite P4 by (left; apply K0).
    rewrite <- (Nat.add_0_l i), <- (Nat.add_0_l j) at 1. rewrite set_block_in by assumption. apply no_motion_cov6; assumption.
  - intros i j Hij. apply PO; [exact Hij|left; apply K0].
Qed.
End Restore.

(** The odometry of any execution, restored in any node. *)
Lemma restored {E E' : Type} (pq : pqueue RScalar) (vt : vtbl RScalar E) c : pq_ok pq ->
  forall n es m, In (OutOdom m) (snd (node_run pq vt c n es)) ->
  exists before cur later lookup after, es = before ++ EvCycle cur later lookup :: after /\
    let f := n_filter (fst (node_run pq vt c n (before ++ [EvCycle cur later lookup]))) in let x := fb_state f in
    forall (e : penv RScalar) c' (msg : pose_msg RScalar) now (n' : node RScalar E'),
    c_world c' = c_world c -> c_world c <> ""%string -> exact_clock e -> self_known e -> stamp_range (ps_stamp msg) -> e_two_d e = false ->
    ps_frame msg = o_frame m -> ps_position msg = o_position m -> ps_orientation msg = o_orientation m -> ps_cov msg = o_pose_cov m ->
    let g := n_filter (setPose e c' msg now n') in let s := fb_state g in
    (forall i, (i < 3)%nat -> s i = x i) /\
    (- PI < x 3%nat <= PI -> - (PI / 2) < x 4%nat < PI / 2 -> - PI < x 5%nat <= PI -> forall i, (i < 6)%nat -> s i = x i) /\
    ((forall v, oriented (s 3%nat) (s 4%nat) (s 5%nat) v = oriented (x 3%nat) (x 4%nat) (x 5%nat) v) <->
       cos (x 4%nat) <> 0 \/ cos (x 3%nat - sin (x 4%nat) * x 5%nat) = 1) /\
    (forall i, (6 <= i < 15)%nat -> s i = 0) /\
    (forall i j, (i < 6)%nat -> (j < 6)%nat -> fb_P g i j = fb_P f i j) /\
    (forall i j, (6 <= i)%nat \/ (6 <= j)%nat -> fb_P g i j = if Nat.eqb i j then 1 / 1000000 else 0).
Proof.
  intros Hpq n es m H. destruct (orientation_of_run pq vt c Hpq n es m H) as (before & cur & later & lookup & after & He & HS & HA & _).
  exists before, cur, later, lookup, after. split; [exact He|]. cbv zeta in *.
  set (f := n_filter (fst (node_run pq vt c n (before ++ [EvCycle cur later lookup])))) in *.
  set (x := fb_state f) in *. intros e c' msg now n' HC HW HE HK HR H2 F1 F2 F3 F4.
  destruct HS as (_ & _ & S3 & _ & S5 & _ & _ & S8). destruct HA as (U & HA).
  assert (U' : unit_quat (ps_orientation msg)) by (rewrite F3; exact U).
  rewrite <- HC in HW, S3.
  pose proof (set_pose_here c' e msg now n' HW HE HK HR U' ltac:(congruence) H2) as P. cbv zeta in P.
  set (g := n_filter (setPose e c' msg now n')) in *. set (s := fb_state g) in *.
  destruct P as (P0 & P1 & P2 & P3 & P4 & P5). rewrite F2, S5 in P0. fold x in P0.
  injection P0 as Q0 Q1 Q2.
  assert (POS : forall i, (i < 3)%nat -> s i = x i).
  { intros [|[|[|i]]] Hi; [exact Q0|exact Q1|exact Q2|lia]. }
  split; [exact POS|]. split; [|split; [|split; [exact P3|split; [|exact P5]]]].
  - intros Hr Hp Hy. destruct (P1 _ _ _ Hr Hp Hy) as (A & B & D); [intros v; rewrite F3; apply HA|].
    intros i Hi. destruct (Nat.lt_ge_cases i 3) as [L|L]; [apply POS, L|].
    destruct i as [|[|[|[|[|[|i]]]]]]; try lia; assumption.
  - rewrite F3 in P2. rewrite !HA in P2. fold x in P2. rewrite level_or_not in P2.
    assert (L : (forall v, oriented (s 3%nat) (s 4%nat) (s 5%nat) v = oriented (x 3%nat) (x 4%nat) (x 5%nat) v) <->
                (forall v, oriented (s 3%nat) (s 4%nat) (s 5%nat) v = spin (o_orientation m) v)).
    { split; intros D v; [rewrite HA; apply D|rewrite D; apply HA]. }
    rewrite L, P2. destruct (Req_dec (cos (x 4%nat)) 0) as [C|C]; [|tauto]. rewrite (left_axis _ _ _ C). tauto.
  - intros i j Hi Hj. rewrite P4 by assumption. rewrite F4. apply S8; assumption.
Qed.
