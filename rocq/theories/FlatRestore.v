(** * Restoring a published pose in two_d_mode (C112) *)

From Coq Require Import Reals ZArith Bool List String Lra Lia Psatz.
From Verif Require Import Scalar Mat FilterBase StrMap Tf RosFilter RosConfig ForceTwoD RosPrepare SpecFilter
  SpecConfig SpecNode SpecTf SpecLin SpecPrepare SpecOutput Trig Angles TfReal TfRot TfQuat RBridge NodeProofs OutputProofs
  PrepareProofs PrepareReal PrepareFacts PrepareSeq PrepareThm PrepareMotion PreparePsd PrepareRun PrepareGoals PrepareWit VerticalFacts RestoreFacts.
Import ListNotations.
Local Open Scope R_scope.

Section Flat.
Context {E : Type}.
Variable c : config RScalar.

Lemma flat_pose e msg topic target source (n : node RScalar E) upd v0 c0 i :
  e_two_d e = true -> flattened i ->
  let q := preparePose e c msg topic target source false false false n upd v0 c0 in
  pr_ok q = true -> pr_val q i = 0 /\ pr_cov q i i = 1 / 1000000.
Proof.
  intros H2 Hi q. assert (Er : q = preparePose e c msg topic target source false false false n upd v0 c0) by reflexivity.
  clearbody q. unfold preparePose in Er. destruct (pose_frames _ _ _ _ _) as [ft pf]. cbv zeta in Er.
  destruct (lookupTransformSafe e ft pf _) as [t|]; [|rewrite Er; discriminate].
  destruct (quatToRPY _) as [[ro pi] ya].
  match type of Er with context [finish ?d ?v ?cv ?u] => set (vv := v) in Er; set (cc := cv) in Er; set (uu := u) in Er end.
  rewrite H2 in Er. unfold finish in Er. clearbody vv cc uu. intros _.
  rewrite Er. unfold forceTwoD, two_d_members. cbn [pr_val pr_cov fold_left].
  assert (L : @lit RScalar 1 6 = 1 / 1000000) by (unfold lit; toR; change (10 ^ 6)%Z with 1000000%Z; lra).
  unfold flattened in Hi. cbn in Hi.
  destruct Hi as [<-|[<-|[<-|[<-|[<-|[<-|[<-|[]]]]]]]]; unfold mset, vset; cbn [Nat.eqb andb]; (split; [reflexivity|exact L]).
Qed.

Lemma set_pose_flat e msg now (n : node RScalar E) :
  c_world c <> ""%string -> exact_clock e -> self_known e -> stamp_range (ps_stamp msg) -> unit_quat (ps_orientation msg) ->
  ps_frame msg = c_world c -> e_two_d e = true ->
  let g := n_filter (setPose e c msg now n) in let s := fb_state g in
  s 0%nat = X (ps_position msg) /\ s 1%nat = Y (ps_position msg) /\
  (forall r p y, - PI < r <= PI -> - (PI / 2) < p < PI / 2 -> - PI < y <= PI ->
     (forall v, spin (ps_orientation msg) v = oriented r p y v) -> s 5%nat = y) /\
  (forall i, (i < 15)%nat -> i <> 0%nat -> i <> 1%nat -> i <> 5%nat -> s i = 0) /\
  (forall i j, (i < 6)%nat -> (j < 6)%nat -> i <> j \/ i = 0%nat \/ i = 1%nat \/ i = 5%nat -> fb_P g i j = ps_cov msg (6 * i + j)%nat) /\
  (forall i, (2 <= i < 5)%nat -> fb_P g i i = 1 / 1000000) /\
  (forall i j, (6 <= i)%nat \/ (6 <= j)%nat -> fb_P g i j = if Nat.eqb i j then 1 / 1000000 else 0).
Proof.
  intros HW HE HK HS U HF H2 g s.
  assert (HA : answer (e_buffer e) (c_world c) (ps_frame msg) (ps_stamp msg / 1000000000)%Z (Some no_motion))
    by (rewrite HF; apply self_answer, HK).
  assert (EY : forall v, turn (t_basis (@no_motion RScalar)) v = v).
  { intros v. change (t_basis no_motion) with (@m3eye RScalar). apply turn_eye. }
  pose proof (set_pose_sets c e msg now n no_motion HW HE HS U HA no_motion_rigid) as P. cbv zeta in P. fold g s in P.
  destruct P as (M0 & _ & Z & _ & PO & _).
  set (n0 := with_set_pose (with_state_hist (with_meas_hist (clearMeasurementQueue (with_streams n no_streams)) []) []) (ps_stamp msg)).
  set (q := preparePose e c msg "set_pose" (c_world c) (c_base c) false false false n0 (repeat true STATE_SIZE) vzero
              (mscale (lit 1 6) meye)).
  pose proof (pose_ready e c msg "set_pose" (c_world c) (c_base c) false false n0 (repeat true STATE_SIZE) vzero
    (mscale (lit 1 6) meye) no_motion _ _ (frames_world c (ps_frame msg) false false HW) (pose_lookup e _ _ _ _ HE HS HA) no_motion_rigid) as PR.
  cbv zeta in PR. rewrite source_base in PR. cbn [to_base base_pose source_cov] in PR. fold q in PR.
  assert (RM : rotation (t_basis (t_mult no_motion (pose_of msg)))) by (apply rigid_mult; [apply no_motion_rigid|apply pose_rigid]).
  destruct PR as (OK & _ & P3 & P4); [intros s0 h; discriminate h|exact RM|].
  assert (FL : forall i, flattened i -> s i = 0 /\ fb_P g i i = 1 / 1000000).
  { intros i Hi. exact (flat_pose e msg "set_pose" (c_world c) (c_base c) n0 _ _ _ i H2 Hi OK). }
  assert (K0 : kept (e_two_d e) 0 /\ kept (e_two_d e) 1 /\ kept (e_two_d e) 5) by (repeat split; right; unfold flattened; cbn; lia).
  destruct K0 as (K0 & K1 & K5).
  assert (KF : forall i, kept (e_two_d e) i \/ flattened i).
  { intros i. destruct (in_dec Nat.eq_dec i [2; 3; 4; 8; 9; 10; 14]%nat) as [h|h]; [right; exact h|left; right; exact h]. }
  destruct M0 as (A & B & _). change (0 + 1)%nat with 1%nat in *.
  assert (MV : move no_motion (ps_position msg) = ps_position msg).
  { unfold move. rewrite EY. destruct (ps_position msg) as [x y z]. apply v3_eq; unfold plus3, v3, X, Y, Z3; cbn; ring. }
  rewrite MV in A, B.
  split; [exact (A K0)|]. split; [exact (B K1)|]. split; [|split; [|split; [|split]]].
  - intros r p y Hr Hp Hy HD.
    assert (G : rpy_of (t_basis (t_mult no_motion (pose_of msg))) = v3 r p y).
    { apply rpy_exact; try assumption. intros v. rewrite pose_turns by exact U. rewrite EY. apply HD. }
    destruct (measures_ext (e_two_d e) vzero (pr_val q) 0 (t_origin (t_mult no_motion (pose_of msg))) 3
      (rpy_of (t_basis (t_mult no_motion (pose_of msg))))) as [_ M3]; [lia|intros i Hi; apply P3; exact Hi|].
    rewrite G in M3. change (pr_val q) with s in M3. destruct M3 as (_ & _ & D). cbn [Nat.add] in *. exact (D K5).
  - intros i Hi N0 N1 N5. destruct (KF i) as [k|f]; [|apply FL, f].
    destruct (Nat.lt_ge_cases i 6) as [L|L]; [|apply Z; [lia|exact k]].
    destruct k as [k|k]; [congruence|]. exfalso. apply k. unfold flattened. cbn. lia.
  - intros i j Hi Hj Hk. change (fb_P g i j) with (pr_cov q i j).
    rewrite P4 by (destruct Hk as [k|k]; [right; exact k|left; right; unfold flattened; cbn; lia]).
    rewrite <- (Nat.add_0_l i), <- (Nat.add_0_l j) at 1. rewrite set_block_in by assumption. apply no_motion_cov6; assumption.
  - intros i Hi. apply FL. unfold flattened. cbn. lia.
  - intros i j Hij. destruct (Nat.eq_dec i j) as [<-|D]; [|apply PO; [exact Hij|right; exact D]].
    destruct (KF i) as [k|f]; [apply PO; [exact Hij|left; exact k]|]. rewrite Nat.eqb_refl. apply FL, f.
Qed.
End Flat.

(** The odometry of any execution, restored in any node in two_d_mode. *)
Lemma restored_flat {E E' : Type} (pq : pqueue RScalar) (vt : vtbl RScalar E) c : pq_ok pq ->
  forall n es m, In (OutOdom m) (snd (node_run pq vt c n es)) ->
  exists before cur later lookup after, es = before ++ EvCycle cur later lookup :: after /\
    let f := n_filter (fst (node_run pq vt c n (before ++ [EvCycle cur later lookup]))) in let x := fb_state f in
    forall (e : penv RScalar) c' (msg : pose_msg RScalar) now (n' : node RScalar E'),
    c_world c' = c_world c -> c_world c <> ""%string -> exact_clock e -> self_known e -> stamp_range (ps_stamp msg) -> e_two_d e = true ->
    ps_frame msg = o_frame m -> ps_position msg = o_position m -> ps_orientation msg = o_orientation m -> ps_cov msg = o_pose_cov m ->
    let g := n_filter (setPose e c' msg now n') in let s := fb_state g in
    s 0%nat = x 0%nat /\ s 1%nat = x 1%nat /\
    (- PI < x 3%nat <= PI -> - (PI / 2) < x 4%nat < PI / 2 -> - PI < x 5%nat <= PI -> s 5%nat = x 5%nat) /\
    (forall i, (i < 15)%nat -> i <> 0%nat -> i <> 1%nat -> i <> 5%nat -> s i = 0) /\
    (forall i j, (i < 6)%nat -> (j < 6)%nat -> i <> j \/ i = 0%nat \/ i = 1%nat \/ i = 5%nat -> fb_P g i j = fb_P f i j) /\
    (forall i, (2 <= i < 5)%nat -> fb_P g i i = 1 / 1000000) /\
    (forall i j, (6 <= i)%nat \/ (6 <= j)%nat -> fb_P g i j = if Nat.eqb i j then 1 / 1000000 else 0).
Proof.
  intros Hpq n es m H. destruct (orientation_of_run pq vt c Hpq n es m H) as (before & cur & later & lookup & after & He & HS & HA & _).
  exists before, cur, later, lookup, after. split; [exact He|]. cbv zeta in *.
  set (f := n_filter (fst (node_run pq vt c n (before ++ [EvCycle cur later lookup])))) in *.
  set (x := fb_state f) in *. intros e c' msg now n' HC HW HE HK HR H2 F1 F2 F3 F4.
  destruct HS as (_ & _ & S3 & _ & S5 & _ & _ & S8). destruct HA as (U & HA).
  assert (U' : unit_quat (ps_orientation msg)) by (rewrite F3; exact U).
  rewrite <- HC in HW, S3.
  pose proof (set_pose_flat c' e msg now n' HW HE HK HR U' ltac:(congruence) H2) as P. cbv zeta in P.
  set (g := n_filter (setPose e c' msg now n')) in *. set (s := fb_state g) in *.
  destruct P as (P0 & P1 & P2 & P3 & P4 & P5). rewrite F2, S5 in P0, P1. fold x in P0, P1.
  split; [exact P0|]. split; [exact P1|]. split; [|split; [exact P3|split; [|exact P5]]].
  - intros Hr Hp Hy. apply (P2 _ _ _ Hr Hp Hy). intros v. rewrite F3. apply HA.
  - intros i j Hi Hj Hk. rewrite P4 by assumption. rewrite F4. apply S8; assumption.
Qed.
