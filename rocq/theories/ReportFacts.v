(** * Which covariances are reported (C88) *)

From Coq Require Import ZArith List Bool String Arith Reals Lia Lra.
From Verif Require Import Scalar Mat FilterBase StrMap Tf Diagnostics RosFilter RosConfig ForceTwoD RosPrepare
  SpecConfig SpecNode SpecPrepare SpecReport RBridge NodeProofs ConfigFacts PrepareProofs.
Import ListNotations.

Lemma append_cancel a b c : (a ++ b = a ++ c)%string -> b = c.
Proof. induction a as [|x a IH]; cbn; [auto|]. intros H. injection H as H. auto. Qed.

Section Report.
Context {K : Scalar} {E : Type}.

Definition about (topic : string) (c : diag_call) : Prop :=
  dc_static c = false /\ dc_key c = (topic ++ "_covariance")%string.
Definition unrelated (topic : string) (c : diag_call) : Prop :=
  dc_static c = false /\ dc_key c <> (topic ++ "_covariance")%string.

Lemma fold_unrelated topic cs : Forall (unrelated topic) cs -> forall d,
  sm_find (d_dynamic (fold_left addDiagnostic cs d)) (topic ++ "_covariance") = sm_find (d_dynamic d) (topic ++ "_covariance").
Proof.
  intros H. induction H as [|c cs (Hs & Hk) _ IH]; intros d; cbn [fold_left]; [reflexivity|]. rewrite IH.
  unfold addDiagnostic. rewrite Hs. cbn [d_dynamic]. apply sm_find_set_other. auto.
Qed.
Lemma fold_about topic cs : Forall (about topic) cs -> cs <> [] -> forall d,
  exists text, sm_find (d_dynamic (fold_left addDiagnostic cs d)) (topic ++ "_covariance") = Some text.
Proof.
  intros H. induction H as [|c cs (Hs & Hk) H IH]; [congruence|]. intros _ d. cbn [fold_left].
  destruct cs as [|c' cs].
  - cbn [fold_left]. exists (dc_text c). unfold addDiagnostic. rewrite Hs. cbn [d_dynamic]. rewrite Hk. apply sm_find_set.
  - apply IH. discriminate.
Qed.

Lemma calls_about print arr topic upd offset dim : Forall (about topic) (covariance_calls (K:=K) print arr topic upd offset dim).
Proof.
  unfold covariance_calls. destruct print; [|constructor]. apply Forall_forall. intros c Hc.
  apply in_flat_map in Hc. destruct Hc as (i & _ & Hc). apply in_flat_map in Hc. destruct Hc as (j & _ & Hc). cbv zeta in Hc.
  destruct (_ && _)%bool in Hc; [destruct Hc as [<-|[]]; split; reflexivity|].
  destruct (_ && _)%bool in Hc; [destruct Hc as [<-|[]]; split; reflexivity|].
  destruct (_ && _)%bool in Hc; [destruct Hc as [<-|[]]; split; reflexivity|contradiction].
Qed.
Lemma orientation_unrelated topic (q : quat K) upd : Forall (unrelated topic) (orientation_calls topic q upd).
Proof.
  unfold orientation_calls. destruct (_ && _)%bool; [|constructor]. constructor; [|constructor].
  split; [reflexivity|]. cbn [dc_key]. intros H. apply append_cancel in H. discriminate H.
Qed.

(** Without flags among the first [dim] variables only large entries are reported. *)
Lemma calls_silent print arr topic upd offset dim : (forall i, (i < dim)%nat -> nth i upd false = false) ->
  ~ too_large arr upd offset dim -> covariance_calls (K:=K) print arr topic upd offset dim = [].
Proof.
  intros Hf Hl. unfold covariance_calls. destruct print; [|reflexivity].
  match goal with |- ?l = [] => destruct l as [|c l'] eqn:Hc end; [reflexivity|]. exfalso.
  assert (Hin : In c (c :: l')) by (left; reflexivity). rewrite <- Hc in Hin. clear Hc.
  apply in_flat_map in Hin. destruct Hin as (i & Hi & Hin). apply in_flat_map in Hin. destruct Hin as (j & Hj & Hin).
  apply in_seq in Hi. apply in_seq in Hj. cbv zeta in Hin. unfold flag in Hin. rewrite (Hf i) in Hin by lia.
  destruct (s_ltb _ (arr (dim * i + j)%nat)) eqn:Hx.
  - destruct (_ || _)%bool eqn:Hor in Hin; [|exact Hin]. apply Hl. exists i, j. apply orb_prop in Hor. repeat split; try lia; assumption.
  - exact Hin.
Qed.

Variable pq : pqueue K.

Lemma enqueue_diag n topic v cov upd thresh t : n_diag (fst (enqueueMeasurement (E:=E) pq n topic v cov upd thresh t)) = n_diag n.
Proof. reflexivity. Qed.
Lemma sensor_diag warn topic stamp upd thresh (prep : prepfun K E) n :
  reported (fst (sensorCallback pq warn topic stamp upd thresh prep n)) topic = reported n topic \/
  fresh n topic stamp /\
  exists n1, reported (fst (sensorCallback pq warn topic stamp upd thresh prep n)) topic =
    sm_find (d_dynamic (fold_left addDiagnostic (pr_diag (prep n1 upd vzero mzero)) (n_diag n))) (topic ++ "_covariance").
Proof.
  assert (St : forall (m : node K E) text, reported (add_diag m (stale_call topic text)) topic = reported m topic).
  { intros m text. unfold reported, add_diag, addDiagnostic, stale_call. cbn [dc_static n_diag with_diag d_dynamic dc_key dc_text].
    apply sm_find_set_other. intros H. apply append_cancel in H. discriminate H. }
  unfold sensorCallback. destruct (Z.geb (n_set_pose n) stamp) eqn:Hb.
  { left. destruct warn; [apply St|reflexivity]. }
  cbv zeta. set (n1 := if sm_mem (n_last_msg n) topic then n else _).
  assert (Hd : n_diag n1 = n_diag n) by (unfold n1; destruct (sm_mem _ _); reflexivity).
  assert (Hr : reported n1 topic = reported n topic) by (unfold reported; rewrite Hd; reflexivity).
  destruct (sm_find (n_last_msg n1) topic) as [last|] eqn:Hf; [|left; exact Hr].
  destruct (Z.leb last stamp) eqn:Hle.
  2:{ left. cbn [fst]. rewrite St. exact Hr. }
  right. split.
  - split; [rewrite Z.geb_leb in Hb; apply Z.leb_gt in Hb; exact Hb|].
    intros t Ht. apply Z.leb_le in Hle. unfold n1 in Hf. unfold sm_mem in Hf. rewrite Ht in Hf. rewrite Ht in Hf. injection Hf as <-. exact Hle.
  - exists n1. destruct (pr_ok (prep n1 upd vzero mzero)); unfold reported; cbn [fst n_diag with_last_msg];
      [|cbn; rewrite Hd; reflexivity].
    match goal with |- context [enqueueMeasurement ?a ?b ?cc ?d ?ee ?f ?g ?h] =>
      pose proof (enqueue_diag b cc d ee f g h) as He; destruct (enqueueMeasurement a b cc d ee f g h) as [n3 o3] end.
    cbn [fst] in *. cbn [n_diag with_last_msg]. rewrite He. cbn. rewrite Hd. reflexivity.
Qed.

Lemma twist_diag (e : penv K) c msg topic target (n : node K E) upd v0 c0 :
  pr_diag (prepareTwist e c msg topic target n upd v0 c0) = covariance_calls (c_print_diag c) (tw_cov msg) topic upd 6 6.
Proof.
  unfold prepareTwist. destruct (lookupTransformSafe _ _ _ _); [|reflexivity]. cbv zeta.
  destruct (finish _ _ _ _) as [[? ?] ?]. reflexivity.
Qed.
Lemma acceleration_diag (e : penv K) c msg topic target rel (n : node K E) upd v0 c0 :
  pr_diag (prepareAcceleration e c msg topic target rel n upd v0 c0) = covariance_calls (c_print_diag c) (im_acc_cov msg) topic upd 12 3.
Proof.
  unfold prepareAcceleration. destruct (lookupTransformSafe _ _ _ _); [|reflexivity]. cbv zeta.
  destruct (finish _ _ _ _) as [[? ?] ?]. reflexivity.
Qed.

Lemma loaded_velocity (p : params K) period now (f : fb K E) ld s d :
  loadParams p period now f = Ok ld -> In s (ld_subs ld) -> velocity_stream s d ->
  forall i, (i < 6)%nat -> nth i (cd_upd d) false = false.
Proof.
  intros HL Hs Hd i Hi.
  assert (W : within 0 6 i = true) by (unfold within; apply andb_true_intro; split; [reflexivity|apply Nat.ltb_lt; exact Hi]).
  assert (W' : (within 9 12 i || Nat.leb 15 i)%bool = false).
  { unfold within. destruct (Nat.leb_spec 9 i); [lia|]. destruct (Nat.leb_spec 15 i); [lia|]. reflexivity. }
  destruct (subs_from p period now f ld s HL Hs) as [H|[H|[H|H]]].
  - destruct H as (k & o & _ & a & b & -> & _ & (_ & M2) & _). cbn in Hd. subst d. rewrite M2, W. reflexivity.
  - destruct H as (k & o & _ & a & -> & _). contradiction.
  - destruct H as (k & o & _ & a & -> & (_ & M1) & _). cbn in Hd. subst d. rewrite M1, W. reflexivity.
  - destruct H as (k & o & _ & a & b & d' & -> & _ & (_ & M2) & _). cbn in Hd. subst d. rewrite M2, W'. reflexivity.
Qed.
Lemma loaded_acceleration (p : params K) period now (f : fb K E) ld s d :
  loadParams p period now f = Ok ld -> In s (ld_subs ld) -> acceleration_stream s d ->
  forall i, (i < 3)%nat -> nth i (cd_upd d) false = false.
Proof.
  intros HL Hs Hd i Hi.
  assert (W : Nat.leb 12 i = false) by (apply Nat.leb_gt; lia).
  destruct (subs_from p period now f ld s HL Hs) as [H|[H|[H|H]]].
  - destruct H as (k & o & _ & a & b & -> & _). contradiction.
  - destruct H as (k & o & _ & a & -> & _). contradiction.
  - destruct H as (k & o & _ & a & -> & _). contradiction.
  - destruct H as (k & o & _ & a & b & d' & -> & _ & _ & (_ & M3) & _). cbn in Hd. subst d. rewrite M3, W. reflexivity.
Qed.

Lemma velocity_silent (p : params K) period now (f : fb K E) ld s d :
  loadParams p period now f = Ok ld -> In s (ld_subs ld) -> velocity_stream s d ->
  forall e msg target (n : node K E), ~ too_large (tw_cov msg) (cd_upd d) 6 6 ->
  reported (fst (twistCallback pq e (ld_config ld) d msg target n)) (cd_topic d) = reported n (cd_topic d).
Proof.
  intros HL Hs Hd e msg target n Hl. unfold twistCallback.
  destruct (sensor_diag true (cd_topic d) (tw_stamp msg) (cd_upd d) (cd_thresh d) (prepareTwist e (ld_config ld) msg (cd_topic d) target) n)
    as [H|(_ & n1 & H)]; [exact H|]. rewrite H, twist_diag, calls_silent; [reflexivity| |exact Hl].
  exact (loaded_velocity p period now f ld s d HL Hs Hd).
Qed.
Lemma acceleration_silent (p : params K) period now (f : fb K E) ld s d :
  loadParams p period now f = Ok ld -> In s (ld_subs ld) -> acceleration_stream s d ->
  forall e msg target (n : node K E), ~ too_large (im_acc_cov msg) (cd_upd d) 12 3 ->
  reported (fst (accelerationCallback pq e (ld_config ld) d msg target n)) (cd_topic d) = reported n (cd_topic d).
Proof.
  intros HL Hs Hd e msg target n Hl. unfold accelerationCallback.
  destruct (sensor_diag false (cd_topic d) (im_stamp msg) (cd_upd d) (cd_thresh d)
    (prepareAcceleration e (ld_config ld) msg (cd_topic d) target (cd_relative d)) n)
    as [H|(_ & n1 & H)]; [exact H|]. rewrite H, acceleration_diag, calls_silent; [reflexivity| |exact Hl].
  exact (loaded_acceleration p period now f ld s d HL Hs Hd).
Qed.
End Report.

(** ** Pose streams over the reals *)
Lemma pose_calls_iff arr topic upd : covariance_calls (K:=RScalar) true arr topic upd 0 6 <> [] <->
  too_large (K:=RScalar) arr upd 0 6 \/ not_positive arr upd 0 6.
Proof.
  set (F := fun i j : nat => if (s_ltb (lit 1000 0) (arr (6 * i + j)%nat) && (flag upd (0 + i) || flag upd (0 + j)))%bool
      then [cov_call topic "the value is extremely large"]
      else if (flag upd i && Nat.eqb i j && s_eqb (s:=RScalar) (arr (6 * i + j)%nat) (s_ofZ 0))%bool then [cov_call topic "was zero"]
      else if (flag upd i && Nat.eqb i j && s_ltb (s:=RScalar) (arr (6 * i + j)%nat) (s_ofZ 0))%bool then [cov_call topic "was negative"]
      else []).
  change (covariance_calls (K:=RScalar) true arr topic upd 0 6) with (flat_map (fun i => flat_map (F i) (seq 0 6)) (seq 0 6)).
  assert (HF : forall i j, F i j <> [] <->
    (s_ltb (s:=RScalar) (lit 1000 0) (arr (6 * i + j)%nat) = true /\ (nth i upd false = true \/ nth j upd false = true)) \/
    (i = j /\ (arr (6 * i + j)%nat <= 0)%R /\ nth i upd false = true)).
  { intros i j. unfold F, flag. cbn [Nat.add]. destruct (s_ltb (s:=RScalar) (lit 1000 0) _) eqn:Hx; cbn [andb].
    - destruct (nth i upd false) eqn:Hi; cbn [orb andb].
      { split; [intros _; left; auto|discriminate]. }
      destruct (nth j upd false) eqn:Hj; [split; [intros _; left; auto|discriminate]|].
      split; [congruence|]. intros [(_ & [H|H])|(_ & _ & H)]; discriminate H.
    - destruct (nth i upd false); cbn [andb]; [|split; [congruence|]; intros [(H & _)|(_ & _ & H)]; discriminate H].
      destruct (Nat.eqb_spec i j) as [->|N]; cbn [andb].
      2:{ split; [congruence|]. intros [(H & _)|(H & _)]; [discriminate H|contradiction]. }
      destruct (s_eqb (s:=RScalar) _ _) eqn:He.
      { apply Reqb_true in He. split; [intros _; right; repeat split; pose proof (He : (arr (6 * j + j)%nat = 0)%R); lra|discriminate]. }
      destruct (s_ltb (s:=RScalar) _ (s_ofZ 0)) eqn:Hlt.
      { apply Rltb_true in Hlt. split; [intros _; right; repeat split; pose proof (Hlt : (arr (6 * j + j)%nat < 0)%R); lra|discriminate]. }
      split; [congruence|]. intros [(H & _)|(_ & H & _)]; [discriminate H|].
      apply Reqb_false in He. apply Rltb_false in Hlt. pose proof (He : (arr (6 * j + j)%nat <> 0)%R). pose proof (Hlt : (0 <= arr (6 * j + j)%nat)%R). lra. }
  split.
  - intros H. destruct (flat_map _ _) as [|c l] eqn:Hc in H; [congruence|].
    assert (Hin : In c (flat_map (fun i => flat_map (F i) (seq 0 6)) (seq 0 6))) by (rewrite Hc; left; reflexivity).
    apply in_flat_map in Hin. destruct Hin as (i & Hi & Hin). apply in_flat_map in Hin. destruct Hin as (j & Hj & Hin).
    apply in_seq in Hi. apply in_seq in Hj.
    assert (HN : F i j <> []) by (intros H0; rewrite H0 in Hin; contradiction).
    apply HF in HN. destruct HN as [(Hx & Hf)|(-> & Hx & Hf)].
    + left. exists i, j. repeat split; try lia; assumption.
    + right. exists j. repeat split; try lia; assumption.
  - intros H.
    assert (HN : exists i j, (i < 6)%nat /\ (j < 6)%nat /\ F i j <> []).
    { destruct H as [(i & j & Hi & Hj & Hx & Hf)|(i & Hi & Hx & Hf)].
      - exists i, j. repeat split; try assumption. apply HF. left. split; assumption.
      - exists i, i. repeat split; try assumption. apply HF. right. repeat split; assumption. }
    destruct HN as (i & j & Hi & Hj & HN). destruct (F i j) as [|c l] eqn:Hc; [congruence|]. intros H0.
    assert (Hin : In c (flat_map (fun i => flat_map (F i) (seq 0 6)) (seq 0 6))).
    { apply in_flat_map. exists i. split; [apply in_seq; lia|]. apply in_flat_map. exists j. split; [apply in_seq; lia|].
      rewrite Hc. left. reflexivity. }
    rewrite H0 in Hin. contradiction.
Qed.

Lemma pose_reports E (pq : pqueue RScalar) (e : penv RScalar) c d msg target source imu (n : node RScalar E) m :
  cd_differential d = false -> e_two_d e = false -> c_print_diag c = true ->
  let r := poseCallback pq e c d msg target source imu n in
  queued (snd r) = [m] ->
  (too_large (K:=RScalar) (ps_cov msg) (m_upd m) 0 6 \/ not_positive (ps_cov msg) (m_upd m) 0 6 ->
     exists text, reported (fst r) (cd_topic d) = Some text) /\
  (~ too_large (K:=RScalar) (ps_cov msg) (m_upd m) 0 6 -> ~ not_positive (ps_cov msg) (m_upd m) 0 6 ->
     reported (fst r) (cd_topic d) = reported n (cd_topic d)).
Proof.
  intros Hdiff H2 Hp r Hq. set (topic := cd_topic d) in *.
  (* the diagnostics of the preparation *)
  assert (HD : forall n1 : node RScalar E, pr_ok (preparePose e c msg topic target source false (cd_relative d) imu n1 (cd_upd d) vzero mzero) = true ->
    exists q : quat RScalar, pr_diag (preparePose e c msg topic target source false (cd_relative d) imu n1 (cd_upd d) vzero mzero) =
    orientation_calls topic q (cd_upd d) ++
    covariance_calls true (ps_cov msg) topic
      (pr_upd (preparePose e c msg topic target source false (cd_relative d) imu n1 (cd_upd d) vzero mzero)) 0 6).
  { intros n1. unfold preparePose. destruct (pose_frames _ _ _ _ _) as [ft pf]. rewrite Hp, H2.
    destruct (lookupTransformSafe e ft pf _); [|discriminate]. intros _. cbv zeta. exists (ps_orientation msg).
    destruct (cd_relative d); destruct (quatToRPY _) as [[? ?] ?]; unfold finish; reflexivity. }
  subst r. revert Hq. unfold poseCallback. fold topic. rewrite Hdiff. unfold sensorCallback.
  destruct (Z.geb (n_set_pose n) (ps_stamp msg)); [discriminate|]. cbv zeta. set (n1 := if sm_mem (n_last_msg n) topic then n else _).
  assert (Hn : n_diag n1 = n_diag n) by (unfold n1; destruct (sm_mem _ _); reflexivity).
  destruct (sm_find (n_last_msg n1) topic) as [last|]; [|discriminate]. destruct (Z.leb last _); [|discriminate].
  specialize (HD n1). set (pr := preparePose _ _ _ _ _ _ _ _ _ _ _ _ _) in *.
  destruct (pr_ok pr); [|discriminate]. destruct (HD eq_refl) as (q & Hdiag). clear HD.
  intros Hq. cbn in Hq. injection Hq as <-. cbn [m_upd].
  assert (HR : reported (fst (let '(n3, o) := enqueueMeasurement pq
        (with_diag (with_streams n1 (pr_streams pr)) (fold_left addDiagnostic (pr_diag pr) (n_diag n1))) topic
        (pr_val pr) (pr_cov pr) (pr_upd pr) (cd_thresh d) (ps_stamp msg) in
        (with_last_msg n3 (sm_set (n_last_msg n3) topic (ps_stamp msg)), o))) topic =
     sm_find (d_dynamic (fold_left addDiagnostic (covariance_calls true (ps_cov msg) topic (pr_upd pr) 0 6)
        (fold_left addDiagnostic (orientation_calls topic q (cd_upd d)) (n_diag n)))) (topic ++ "_covariance")).
  { unfold reported. cbn. rewrite Hdiag, fold_left_app, Hn. reflexivity. }
  rewrite HR. pose proof (pose_calls_iff (ps_cov msg) topic (pr_upd pr)) as HC.
  split.
  - intros H. apply HC in H. apply fold_about; [apply calls_about|exact H].
  - intros HL HP.
    destruct (covariance_calls true (ps_cov msg) topic (pr_upd pr) 0 6) as [|c0 l].
    + cbn [fold_left]. rewrite fold_unrelated by apply orientation_unrelated. reflexivity.
    + exfalso. destruct (proj1 HC ltac:(discriminate)); auto.
Qed.

(** A first pose message of its stream, later than the last pose set, is queued
    when all transforms are known. *)
Lemma pose_is_queued (K : Scalar) E (pq : pqueue K) (e : penv K) c d msg target source imu (n : node K E) :
  cd_differential d = false -> (n_set_pose n < ps_stamp msg)%Z -> n_last_msg n = [] ->
  (forall a b t, exists x, e_buffer e a b t = Some x) ->
  exists m, queued (snd (poseCallback pq e c d msg target source imu n)) = [m].
Proof.
  intros Hd Ht Hl Hb. unfold poseCallback, sensorCallback.
  destruct (Z.geb_spec (n_set_pose n) (ps_stamp msg)) as [H|_]; [lia|]. rewrite Hl. cbn [sm_mem sm_find n_last_msg with_last_msg sm_set].
  assert (HP : forall n1, pr_ok (preparePose (E:=E) e c msg (cd_topic d) target source (cd_differential d) (cd_relative d) imu n1 (cd_upd d) vzero mzero) = true).
  { intros n1. rewrite Hd. unfold preparePose. destruct (pose_frames _ _ _ _ _) as [ft pf].
    unfold lookupTransformSafe. cbv zeta. destruct (Hb ft pf (e_from_sec e (toSec (pose_lookup_time e (ps_stamp msg))))) as (x & ->).
    destruct (cd_relative d); destruct (quatToRPY _) as [[? ?] ?]; destruct (finish _ _ _ _) as [[? ?] ?]; reflexivity. }
  cbn. rewrite String.eqb_refl. cbv zeta. rewrite Z.leb_refl, HP. cbn. eexists. reflexivity.
Qed.
