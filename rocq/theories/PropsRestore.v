(** * Restoring a published pose with set_pose (C112) *)

From Coq Require Import Reals ZArith Bool List String Lra Lia.
From Verif Require Import Scalar Mat FilterBase StrMap Tf Diagnostics RosFilter RosConfig RosPrepare
  SpecConfig SpecNode SpecTf SpecPrepare SpecOutput NodeMore NodeScenario Trig TfReal PrepareWit PropsOutput RestoreFacts FlatRestore.
Import ListNotations.
Local Open Scope R_scope.

(** ** C112: the pose of a published odometry message, sent to set_pose *)
(** The message was built from the filter [f] after some cycle.  Sent to any node
    with the same world frame it restores position, attitude and their
    covariance; the other variables become zero. *)
Theorem C112_restored : forall E E' (pq : pqueue RScalar) (vt : vtbl RScalar E) c, pq_ok pq ->
  forall n es m, In (OutOdom m) (snd (node_run pq vt c n es)) ->
  exists before cur later lookup after, es = before ++ EvCycle cur later lookup :: after /\
    let f := n_filter (fst (node_run pq vt c n (before ++ [EvCycle cur later lookup]))) in let x := fb_state f in
    forall (e : penv RScalar) c' (msg : pose_msg RScalar) now (n' : node RScalar E'),
    c_world c' = c_world c -> c_world c <> ""%string -> exact_clock e -> self_known e -> stamp_range (ps_stamp msg) -> e_two_d e = false ->
    ps_frame msg = o_frame m -> ps_position msg = o_position m -> ps_orientation msg = o_orientation m -> ps_cov msg = o_pose_cov m ->
    let g := n_filter (setPose e c' msg now n') in let s := fb_state g in
    (forall i, (i < 3)%nat -> s i = x i) /\
    (- PI < x 3%nat <= PI -> - (PI / 2) < x 4%nat < PI / 2 -> - PI < x 5%nat <= PI -> forall i, (i < 6)%nat -> s i = x i) /\
    ((forall v, oriented (s 3%nat) (s 4%nat) (s 5%nat) v = oriented (x 3%nat) (x 4%nat) (x 5%nat) v) <->
       cos (x 4%nat) <> 0 \/ cos (x 3%nat - sin (x 4%nat) * x 5%nat) = 1) /\
    (forall i, (6 <= i < 15)%nat -> s i = 0) /\
    (forall i j, (i < 6)%nat -> (j < 6)%nat -> fb_P g i j = fb_P f i j) /\
    (forall i j, (6 <= i)%nat \/ (6 <= j)%nat -> fb_P g i j = if Nat.eqb i j then 1 / 1000000 else 0).
Proof. exact (fun E E' pq vt c => @restored E E' pq vt c). Qed.
Print Assumptions C112_restored.

(** In two_d_mode only x, y and yaw are restored; of the covariance only the
    variances of z, roll and pitch are replaced. *)
Theorem C112_two_d : forall E E' (pq : pqueue RScalar) (vt : vtbl RScalar E) c, pq_ok pq ->
  forall n es m, In (OutOdom m) (snd (node_run pq vt c n es)) ->
  exists before cur later lookup after, es = before ++ EvCycle cur later lookup :: after /\
    let f := n_filter (fst (node_run pq vt c n (before ++ [EvCycle cur later lookup]))) in let x := fb_state f in
    forall (e : penv RScalar) c' (msg : pose_msg RScalar) now (n' : node RScalar E'),
    c_world c' = c_world c -> c_world c <> ""%string -> exact_clock e -> self_known e -> stamp_range (ps_stamp msg) -> e_two_d e = true ->
    ps_frame msg = o_frame m -> ps_position msg = o_position m -> ps_orientation msg = o_orientation m -> ps_cov msg = o_pose_cov m ->
    let g := n_filter (setPose e c' msg now n') in let s := fb_state g in
    s 0%nat = x 0%nat /\ s 1%nat = x 1%nat /\
    (- PI < x 3%nat <= PI -> - (PI / 2) < x 4%nat < PI / 2 -> - PI < x 5%nat <= PI -> s 5%nat = x 5%nat) /\
    (forall i, (i < 15)%nat -> i <> 0%nat -> i <> 1%nat -> i <> 5%nat -> s i = 0) /\
    (forall i j, (i < 6)%nat -> (j < 6)%nat -> i <> j \/ i = 0%nat \/ i = 1%nat \/ i = 5%nat -> fb_P g i j = fb_P f i j) /\
    (forall i, (2 <= i < 5)%nat -> fb_P g i i = 1 / 1000000) /\
    (forall i j, (6 <= i)%nat \/ (6 <= j)%nat -> fb_P g i j = if Nat.eqb i j then 1 / 1000000 else 0).
Proof. exact (fun E E' pq vt c => @restored_flat E E' pq vt c). Qed.
Print Assumptions C112_two_d.

(** ** Concrete executions: one pose fused, one cycle *)
Definition saved_vec (pitch yaw : R) : vec RScalar := fun i => match i with 0%nat => 2 | 1%nat => 1 | 4%nat => pitch | 5%nat => yaw | _ => 0 end.
Definition saved_events (pitch yaw : R) : list (event RScalar unit) :=
  [@message RScalar unit "pose" 5 [true; true; false; false; true; true] (saved_vec pitch yaw) meye 5; EvCycle 7 7 None].
Notation saved_run pitch yaw := (node_run (list_pq RScalar) out_still (out_cfg "odom") out_start (saved_events pitch yaw)).
Definition env112 : penv RScalar := plain_env false 0 [] no_buffer.
Definition flat112 : penv RScalar := plain_env true 0 [] no_buffer.
Lemma env112_known : self_known env112 /\ self_known flat112.
Proof. split; intros f t; left; reflexivity. Qed.

Lemma saved_frame pitch yaw : map o_frame (odoms (snd (saved_run pitch yaw))) = ["odom"%string].
Proof. reflexivity. Qed.
Lemma saved_angles pitch yaw : let x := fb_state (n_filter (fst (saved_run pitch yaw))) in x 3%nat = 0 /\ x 4%nat = pitch /\ x 5%nat = yaw.
Proof. split; [reflexivity|]. split; reflexivity. Qed.

Example C112_case : forall pitch yaw, exists m, odoms (snd (saved_run pitch yaw)) = [m] /\
  fb_state (n_filter (fst (saved_run pitch yaw))) 4%nat = pitch /\ fb_state (n_filter (fst (saved_run pitch yaw))) 5%nat = yaw /\
  o_frame m = "odom"%string /\ c_world (out_cfg "odom") <> ""%string /\ exact_clock env112 /\ self_known env112 /\ stamp_range 5000000000.
Proof.
  intros pitch yaw. pose proof (saved_frame pitch yaw) as F. destruct (saved_angles pitch yaw) as (_ & H4 & H5).
  destruct (odoms (snd (saved_run pitch yaw))) as [|m [|m' l]]; cbn [map] in F; try discriminate F.
  exists m. injection F as F. split; [reflexivity|]. split; [exact H4|]. split; [exact H5|]. split; [exact F|].
  split; [discriminate|]. split; [apply plain_clock|]. split; [apply (proj1 env112_known)|]. unfold stamp_range. lia.
Qed.

Example C112_two_d_case : e_two_d flat112 = true /\ exact_clock flat112 /\ self_known flat112.
Proof. split; [reflexivity|]. split; [apply plain_clock|apply (proj2 env112_known)]. Qed.

Lemma odoms_in {E : Type} (os : list (output RScalar E)) m l : odoms os = m :: l -> In (OutOdom m) os.
Proof.
  induction os as [|o os IH]; [discriminate|]. destruct o; cbn [odoms]; intros H; try (right; apply IH, H).
  injection H as -> _. left. reflexivity.
Qed.

Lemma on_its_nose (pq : pqueue RScalar) (vt : vtbl RScalar unit) c n es m e msg now (n' : node RScalar unit) :
  pq_ok pq -> odoms (snd (node_run pq vt c n es)) = [m] ->
  (forall before cur later lookup after, es = before ++ EvCycle cur later lookup :: after -> before ++ [EvCycle cur later lookup] = es) ->
  fb_state (n_filter (fst (node_run pq vt c n es))) 3%nat = 0 ->
  fb_state (n_filter (fst (node_run pq vt c n es))) 4%nat = PI / 2 ->
  fb_state (n_filter (fst (node_run pq vt c n es))) 5%nat = PI ->
  c_world c <> ""%string -> exact_clock e -> self_known e -> stamp_range (ps_stamp msg) -> e_two_d e = false ->
  ps_frame msg = o_frame m -> ps_position msg = o_position m -> ps_orientation msg = o_orientation m -> ps_cov msg = o_pose_cov m ->
  ~ forall v, oriented (fb_state (n_filter (setPose e c msg now n')) 3%nat) (fb_state (n_filter (setPose e c msg now n')) 4%nat)
      (fb_state (n_filter (setPose e c msg now n')) 5%nat) v =
    oriented (fb_state (n_filter (fst (node_run pq vt c n es))) 3%nat) (fb_state (n_filter (fst (node_run pq vt c n es))) 4%nat)
      (fb_state (n_filter (fst (node_run pq vt c n es))) 5%nat) v.
Proof.
  intros Hpq Hm Hs H3 H4 H5 HW HE HK HS H2 F1 F2 F3 F4 D.
  destruct (C112_restored unit unit pq vt c Hpq n es m (odoms_in _ _ _ Hm)) as (before & cur & later & lookup & after & He & P).
  rewrite (Hs _ _ _ _ _ He) in P. cbv zeta in P.
  specialize (P e c msg now n' eq_refl HW HE HK HS H2 F1 F2 F3 F4).
  destruct P as (_ & _ & P & _). apply (proj1 P) in D. rewrite H3, H4, H5 in D.
  rewrite cos_PI2, sin_PI2 in D. replace (0 - 1 * PI) with (- PI) in D by ring. rewrite cos_neg, cos_PI in D. lra.
Qed.

Lemma saved_last pitch yaw before cur later lookup after : saved_events pitch yaw = before ++ EvCycle cur later lookup :: after ->
  before ++ [EvCycle cur later lookup] = saved_events pitch yaw.
Proof.
  intros He. unfold saved_events in *. destruct before as [|b1 [|b2 before]]; cbn [app] in *.
  - discriminate He.
  - injection He as <- <- <- <- <-. reflexivity.
  - destruct before; discriminate He.
Qed.

(** A node that stands on its nose does not get its heading back. *)
Theorem C112_refuted : exists (e : penv RScalar) (c : config RScalar) n es m (msg : pose_msg RScalar) now (n' : node RScalar unit),
  let r := node_run (list_pq RScalar) out_still c n es in
  odoms (snd r) = [m] /\ pq_ok (list_pq RScalar) /\ c_world c <> ""%string /\ exact_clock e /\ self_known e /\ e_two_d e = false /\
  stamp_range (ps_stamp msg) /\
  ps_frame msg = o_frame m /\ ps_position msg = o_position m /\ ps_orientation msg = o_orientation m /\ ps_cov msg = o_pose_cov m /\
  let x := fb_state (n_filter (fst r)) in let s := fb_state (n_filter (setPose e c msg now n')) in
  ~ forall v, oriented (s 3%nat) (s 4%nat) (s 5%nat) v = oriented (x 3%nat) (x 4%nat) (x 5%nat) v.
Proof.
  destruct (C112_case (PI / 2) PI) as (m & Hm & H4 & H5 & _ & HW & HE & HK & HS).
  destruct (saved_angles (PI / 2) PI) as (H3 & _ & _).
  exists env112, (out_cfg "odom"), out_start, (saved_events (PI / 2) PI),
    m, (mkPose 5000000000 (o_frame m) (o_position m) (o_orientation m) (o_pose_cov m)), 7%Z, out_start.
  split; [exact Hm|]. split; [apply list_pq_ok|]. split; [exact HW|]. split; [exact HE|]. split; [exact HK|].
  split; [reflexivity|]. split; [exact HS|]. do 4 (split; [reflexivity|]).
  exact (on_its_nose (list_pq RScalar) out_still (out_cfg "odom") out_start (saved_events (PI / 2) PI) m env112
    (mkPose 5000000000 (o_frame m) (o_position m) (o_orientation m) (o_pose_cov m)) 7%Z out_start (list_pq_ok RScalar) Hm
    (saved_last (PI / 2) PI) H3 H4 H5 HW HE HK HS eq_refl eq_refl eq_refl eq_refl eq_refl).
Qed.
Print Assumptions C112_refuted.
