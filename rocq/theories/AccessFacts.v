(** * Memory safety of measurement processing (C87) *)

From Coq Require Import ZArith List Bool String Arith Lia Permutation.
From Verif Require Import Scalar Mat FilterBase StrMap Tf Diagnostics RosFilter RosConfig ForceTwoD RosPrepare Access
  SpecConfig SpecNode SpecPrepare SpecStart SpecAccess NodeProofs NodeInv NodeFacts ConfigFacts StartFacts PrepareProofs PrepareSeq.
Import ListNotations.

Section Access.
Context {K : Scalar} {E : Type}.

(** ** Indices *)
Definition below (b : nat) (l : list nat) : Prop := forall i, In i l -> (i < b)%nat.
Lemma below_app b l l' : below b l -> below b l' -> below b (l ++ l').
Proof. intros H H' i Hi. apply in_app_or in Hi. destruct Hi; auto. Qed.
Lemma below_nil b : below b [].
Proof. intros i []. Qed.
Lemma below_seq b a n : (a + n <= b)%nat -> below b (seq a n).
Proof. intros H i Hi. apply in_seq in Hi. lia. Qed.
Lemma below_two_d two_d : below 15 (two_d_accesses two_d).
Proof. destruct two_d; [|apply below_nil]. intros i. cbn. lia. Qed.
Lemma below_cov print offset dimension : (offset + dimension <= 15)%nat -> below 15 (covariance_accesses print offset dimension).
Proof.
  intros H. unfold covariance_accesses. destruct print; [|apply below_nil]. intros i Hi. apply in_flat_map in Hi.
  destruct Hi as (x & Hx & Hi). apply in_seq in Hx. cbn in Hi. lia.
Qed.
Lemma below_acceleration (e : penv K) c msg target : below 15 (acceleration_accesses e c msg target).
Proof.
  unfold acceleration_accesses. apply below_app; [apply below_seq; lia|]. apply below_app; [apply below_cov; lia|].
  destruct (lookupTransformSafe _ _ _ _); [|apply below_nil]. apply below_app; [apply below_seq; lia|apply below_two_d].
Qed.
Lemma below_twist (e : penv K) c frame stamp target : below 15 (twist_accesses e c frame stamp target).
Proof.
  unfold twist_accesses. apply below_app; [apply below_seq; lia|]. apply below_app; [apply below_cov; lia|].
  destruct (lookupTransformSafe _ _ _ _); [|apply below_nil]. apply below_app; [apply below_seq; lia|apply below_two_d].
Qed.
Lemma below_pose (e : penv K) c msg topic target source d imu (n : node K E) :
  below 15 (pose_accesses e c msg topic target source d imu n).
Proof.
  unfold pose_accesses. destruct (pose_frames _ _ _ _ _) as (a, b).
  apply below_app; [destruct (zero_quat _); [apply below_seq; lia|apply below_nil]|].
  destruct (lookupTransformSafe _ _ _ _); [|apply below_nil]. apply below_app; [apply below_seq; lia|].
  apply below_app; [apply below_cov; lia|]. destruct d; [|apply below_two_d].
  destruct (sm_find _ topic); [|apply below_nil]. destruct (sm_find _ topic); [|apply below_nil].
  apply below_app; [apply below_seq; lia|]. apply below_app; [apply below_seq; lia|apply below_twist].
Qed.

Definition parts_of (s : subscription K) : list (callback_data K) :=
  match s with
  | SubOdom _ a b => [a; b] | SubPose a => [a] | SubTwist a => [a] | SubImu _ a b d => [a; b; d]
  end.
Definition full (s : subscription K) : Prop := forall d, In d (parts_of s) -> List.length (cd_upd d) = 15%nat.

Lemma part_inside (n : node K E) used cd stamp idx x : List.length (cd_upd cd) = 15%nat -> below 15 idx ->
  In x (message_part n used cd stamp idx) -> inside x.
Proof.
  intros Hl Hb. unfold message_part. destruct (_ && _)%bool; [|intros []]. intros [<-|[]]. intros i Hi. cbn in *.
  rewrite Hl. apply Hb, Hi.
Qed.
Lemma message_inside (e : penv K) c s m (n : node K E) : full s -> Forall inside (message_accesses e c s m n).
Proof.
  intros Hs. apply Forall_forall. intros x. destruct s as [t a b|a|a|t a b d], m as [y|y|y|y]; cbn [message_accesses]; try (intros []; fail).
  - rewrite in_app_iff. intros [H|H].
    + eapply part_inside; [apply Hs; left; reflexivity|apply below_pose|exact H].
    + eapply part_inside; [apply Hs; right; left; reflexivity|apply below_twist|exact H].
  - intros H. eapply part_inside; [apply Hs; left; reflexivity|apply below_pose|exact H].
  - intros H. eapply part_inside; [apply Hs; left; reflexivity|apply below_twist|exact H].
  - rewrite !in_app_iff. intros [H|[H|H]].
    + eapply part_inside; [apply Hs; left; reflexivity|apply below_pose|exact H].
    + eapply part_inside; [apply Hs; right; left; reflexivity|apply below_twist|exact H].
    + eapply part_inside; [apply Hs; right; right; left; reflexivity|apply below_acceleration|exact H].
Qed.
Lemma set_pose_inside (e : penv K) c msg (n : node K E) : Forall inside (set_pose_accesses e c msg n).
Proof. constructor; [|constructor]. intros i Hi. cbn in *. apply below_pose in Hi. exact Hi. Qed.

(** ** Loaded vectors *)
Lemma loaded_full (p : params K) period now (f : fb K E) ld s :
  loadParams p period now f = Ok ld -> full_configs p -> In s (ld_subs ld) -> full s.
Proof.
  intros HL (Fo & Fp & Ft & Fi) Hs d Hd. rewrite Forall_forall in Fo, Fp, Ft, Fi.
  destruct (subs_from p period now f ld s HL Hs) as [H|[H|[H|H]]].
  - destruct H as (i & o & Hi & a & b & -> & (M1 & _) & (M2 & _) & _). apply nth_error_In in Hi. specialize (Fo _ Hi).
    destruct Hd as [<-|[<-|[]]]; congruence.
  - destruct H as (i & o & Hi & a & -> & (M1 & _) & _). apply nth_error_In in Hi. specialize (Fp _ Hi).
    destruct Hd as [<-|[]]; congruence.
  - destruct H as (i & o & Hi & a & -> & (M1 & _) & _). apply nth_error_In in Hi. specialize (Ft _ Hi).
    destruct Hd as [<-|[]]; congruence.
  - destruct H as (i & o & Hi & a & b & d' & -> & (M1 & _) & (M2 & _) & (M3 & _) & _). apply nth_error_In in Hi. specialize (Fi _ Hi).
    destruct Hd as [<-|[<-|[<-|[]]]]; congruence.
Qed.

(** ** Preparation keeps the length *)
Lemma set_flag_len u i b : List.length (set_flag u i b) = List.length u.
Proof. revert i. induction u as [|x u IH]; intros [|i]; cbn; auto. Qed.
Lemma unmask_len (m : mat3 K) o u : List.length (unmask m o u) = List.length u.
Proof. unfold unmask. rewrite !set_flag_len. reflexivity. Qed.
Lemma finish_len two_d v c u : List.length (snd (finish (K:=K) two_d v c u)) = List.length u.
Proof. unfold finish. destruct two_d; [|reflexivity]. unfold forceTwoD. cbn. rewrite !set_flag_len. reflexivity. Qed.
Lemma differential_len u : List.length u = 15%nat -> List.length (differential_flags u) = 15%nat.
Proof.
  intros H. unfold differential_flags. rewrite !app_length, !repeat_length, firstn_length, skipn_length, H. reflexivity.
Qed.
Lemma acceleration_len (e : penv K) c msg topic target rel (n : node K E) u v0 c0 :
  List.length (pr_upd (prepareAcceleration e c msg topic target rel n u v0 c0)) = List.length u.
Proof.
  unfold prepareAcceleration. destruct (lookupTransformSafe _ _ _ _) as [t|]; [|reflexivity]. cbv zeta.
  match goal with |- context [finish ?a ?b ?d ?w] => pose proof (finish_len a b d w) as H; destruct (finish a b d w) as [[x y] z] end.
  cbn [snd pr_upd] in *. rewrite H, unmask_len. reflexivity.
Qed.
Lemma twist_len (e : penv K) c msg topic target (n : node K E) u v0 c0 :
  List.length (pr_upd (prepareTwist e c msg topic target n u v0 c0)) = List.length u.
Proof.
  unfold prepareTwist. destruct (lookupTransformSafe _ _ _ _) as [t|]; [|reflexivity]. cbv zeta.
  match goal with |- context [finish ?a ?b ?d ?w] => pose proof (finish_len a b d w) as H; destruct (finish a b d w) as [[x y] z] end.
  cbn [snd pr_upd] in *. rewrite H, !unmask_len. reflexivity.
Qed.
Lemma pose_len (e : penv K) c msg topic target source d rel imu (n : node K E) u v0 c0 : List.length u = 15%nat ->
  List.length (pr_upd (preparePose e c msg topic target source d rel imu n u v0 c0)) = 15%nat.
Proof.
  intros Hu. unfold preparePose. destruct (pose_frames _ _ _ _ _) as [ft pf].
  destruct (lookupTransformSafe e ft pf _) as [t|]; [|exact Hu]. cbv zeta. destruct d.
  - destruct (sm_find (st_previous (n_streams n)) topic) as [prev|]; [|cbn; rewrite !unmask_len; exact Hu].
    destruct (sm_find (st_prev_cov (n_streams n)) topic) as [pc|]; [|cbn; rewrite !unmask_len; exact Hu].
    destruct (quatToRPY _) as [[r pt] y]. cbn [pr_upd]. rewrite twist_len. apply differential_len. rewrite !unmask_len. exact Hu.
  - destruct rel.
    + destruct (quatToRPY _) as [[r pt] y].
      match goal with |- context [finish ?a ?b ?g ?w] => pose proof (finish_len a b g w) as H; destruct (finish a b g w) as [[x z] w'] end.
      cbn [snd pr_upd] in *. rewrite H, !unmask_len. exact Hu.
    + destruct (quatToRPY _) as [[r pt] y].
      match goal with |- context [finish ?a ?b ?g ?w] => pose proof (finish_len a b g w) as H; destruct (finish a b g w) as [[x z] w'] end.
      cbn [snd pr_upd] in *. rewrite H, !unmask_len. exact Hu.
Qed.

(** ** Executions *)
Definition full_meas (m : meas K) : Prop := List.length (m_upd m) = 15%nat.
Definition stores (n : node K E) : Prop := Forall full_meas (n_queue n) /\ Forall full_meas (n_meas_hist n).
Definition holds (f : node K E -> node K E * list (output K E)) : Prop :=
  forall n, stores n -> stores (fst (f n)) /\ Forall full_meas (fused (snd (f n))).

Variable pq : pqueue K.
Hypothesis Hpq : pq_ok pq.

Lemma sensor_holds warn topic stamp upd thresh (prep : prepfun K E) :
  (forall n v c0, List.length (pr_upd (prep n upd v c0)) = 15%nat) ->
  holds (sensorCallback pq warn topic stamp upd thresh prep).
Proof.
  intros HL n (Hq & Hm).
  destruct (sensor_queue pq Hpq warn topic stamp upd thresh prep n) as (Q1 & Q2 & _).
  destruct (sensor_fields pq warn topic stamp upd thresh prep n) as (_ & F2 & _). cbv zeta in *.
  rewrite Q2. split; [|constructor]. split; [|rewrite F2; exact Hm].
  eapply Permutation_Forall; [apply Permutation_sym, Q1|]. apply Forall_app. split; [exact Hq|].
  unfold sensorCallback. destruct (Z.geb (n_set_pose n) stamp); [constructor|]. cbv zeta.
  set (n1 := if sm_mem (n_last_msg n) topic then n else _). specialize (HL n1).
  destruct (sm_find (n_last_msg n1) topic); [|constructor]. destruct (Z.leb _ stamp); [|constructor].
  destruct (pr_ok (prep n1 upd vzero mzero)); [|constructor]. cbn. constructor; [|constructor]. apply HL.
Qed.
Lemma holds_skip : holds skip_callback.
Proof. intros n Hn. split; [exact Hn|constructor]. Qed.
Lemma holds_then a b : holds a -> holds b -> holds (andthen a b).
Proof.
  intros Ha Hb n Hn. unfold andthen. destruct (Ha n Hn) as (A1 & A2). destruct (a n) as [n1 o1]. cbn [fst snd] in *.
  destruct (Hb n1 A1) as (B1 & B2). destruct (b n1) as [n2 o2]. cbn [fst snd] in *. split; [exact B1|].
  rewrite fused_app. apply Forall_app. split; assumption.
Qed.
Lemma receive_holds (e : penv K) c s m : full s -> holds (receive pq e c s m).
Proof.
  intros Hs.
  assert (HP : forall a x t so i, In a (parts_of s) -> holds (poseCallback pq e c a x t so i)).
  { intros a x t so i Ha. apply sensor_holds. intros n v c0. apply pose_len, Hs, Ha. }
  assert (HT : forall a x t, In a (parts_of s) -> holds (twistCallback pq e c a x t)).
  { intros a x t Ha. apply sensor_holds. intros n v c0. rewrite twist_len. apply Hs, Ha. }
  assert (HA : forall a x t, In a (parts_of s) -> holds (accelerationCallback pq e c a x t)).
  { intros a x t Ha. apply sensor_holds. intros n v c0. rewrite acceleration_len. apply Hs, Ha. }
  destruct s as [t a b|a|a|t a b d], m as [x|x|x|x]; try (exact holds_skip).
  - intros n Hn. unfold receive, odometryCallback. destruct (Z.geb (n_set_pose n) (o_stamp x)); [split; [exact Hn|constructor]|].
    apply holds_then; [| |exact Hn].
    + destruct (Z.gtb (cd_sum a) 0); [apply HP; left; reflexivity|apply holds_skip].
    + destruct (Z.gtb (cd_sum b) 0); [apply HT; right; left; reflexivity|apply holds_skip].
  - apply HP. left. reflexivity.
  - apply HT. left. reflexivity.
  - intros n Hn. unfold receive, imuCallback. destruct (Z.geb (n_set_pose n) (im_stamp x)); [split; [exact Hn|constructor]|].
    apply holds_then; [|apply holds_then|exact Hn].
    + destruct (_ && _)%bool; [apply HP; left; reflexivity|apply holds_skip].
    + destruct (_ && _)%bool; [apply HT; right; left; reflexivity|apply holds_skip].
    + destruct (_ && _)%bool; [apply HA; right; right; left; reflexivity|apply holds_skip].
Qed.

Variable vt : vtbl K E.
Variable c : config K.
Lemma event_holds ev : (forall w t s u h pr, ev <> EvSensor w t s u h pr) -> holds (fun n => node_step pq vt c n ev).
Proof.
  intros Hev n (Hq & Hm). destruct ev as [warn topic stamp upd thresh prep|frame ctl stamp|on| | |stamp prep now| |cur later lookup];
    cbn [node_step].
  - exfalso. eapply Hev. reflexivity.
  - cbn. split; [|constructor]. unfold stores, controlStampedCallback. destruct (_ || _)%bool; cbn; auto.
  - unfold toggleFilterProcessingCallback. destruct (Bool.eqb on (n_toggled n)); cbn; (split; [split; assumption|constructor]).
  - unfold enableFilterSrvCallback. destruct (n_enabled n); cbn; (split; [split; assumption|constructor]).
  - cbn. split; [split; constructor|constructor].
  - cbn. split; [split; constructor|constructor].
  - destruct (aggregateDiagnostics (n_diag n)). cbn. split; [split; assumption|constructor].
  - destruct (n_enabled n) eqn:He.
    2:{ rewrite (cycle_disabled pq vt c _ _ _ _ He). cbn. split; [split; assumption|constructor]. }
    destruct (cycle_obs pq vt c cur later lookup n He) as (O1 & _ & _ & _ & O5 & _). cbv zeta in *. rewrite O1.
    assert (Hinc : incl (n_meas_hist (fst (periodicUpdate pq vt c cur later lookup n)))
                        (n_meas_hist (fst (working pq vt c cur later n)))).
    { rewrite (cycle_eq pq vt c cur later lookup n He). destruct (working pq vt c cur later n) as [n1 o1].
      cbn [fst snd]. apply concluded_meas_incl. }
    destruct (working_post pq vt c Hpq cur later n) as [Hw _].
    assert (Hfin : Forall full_meas (fused (snd (working pq vt c cur later n))) /\
                   Forall full_meas (n_queue (fst (working pq vt c cur later n))) /\
                   Forall full_meas (n_meas_hist (fst (working pq vt c cur later n)))).
    { destruct Hw as [[Ht P]|(Ht & Z1 & Z2 & Z3)].
      - destruct P as (_ & _ & _ & (back & Hp & Hb & _) & _ & _ & Hi).
        assert (Hall : Forall full_meas
                  (fused (snd (working pq vt c cur later n)) ++ n_queue (fst (working pq vt c cur later n)))).
        { eapply Permutation_Forall; [apply Permutation_sym, Hp|]. apply Forall_app. split; [exact Hq|].
          apply Forall_forall. intros x Hx. rewrite Forall_forall in Hm. apply Hm. apply Hb; exact Hx. }
        apply Forall_app in Hall. destruct Hall as [A1 A2]. split; [exact A1|]. split; [exact A2|].
        apply Forall_forall. intros x Hx. apply Hi in Hx. apply in_app_or in Hx.
        rewrite Forall_forall in Hm, A1. destruct Hx; [apply Hm|apply A1]; assumption.
      - rewrite Z1, Z2, Z3. split; [constructor|]. split; [constructor|exact Hm]. }
    destruct Hfin as (B1 & B2 & B3). split; [|exact B1]. split; [rewrite O5; exact B2|].
    apply Forall_forall. intros x Hx. rewrite Forall_forall in B3. apply B3. apply Hinc; exact Hx.
Qed.
Lemma respond_holds subs is : (forall s, In s subs -> full s) -> Forall (proper subs) is ->
  holds (fun n => respond pq vt c n is).
Proof.
  intros Hs HI. induction HI as [|i is Hi HI IH]; intros n Hn; [split; [exact Hn|constructor]|]. cbn beta.
  rewrite (proj2 (respond_cons pq vt c EmptyString is n)). cbn [fst snd].
  assert (D : holds (fun n => deliver pq vt c n i)).
  { destruct i as [e s m|ev]; cbn [deliver].
    - apply receive_holds, Hs, Hi.
    - apply event_holds. intros w t st u h pr ->. exact Hi. }
  destruct (D n Hn) as (D1 & D2). destruct (IH _ D1) as (I1 & I2). split; [exact I1|]. rewrite fused_app. apply Forall_app. split; assumption.
Qed.
Lemma full_access_ok (f : fb K E) m : full_meas m -> fuse_access_ok f m = true.
Proof.
  unfold full_meas, fuse_access_ok. intros H. destruct (fb_initialized f).
  - unfold correct_access_ok. rewrite H. apply forallb_forall. intros i Hi. apply in_seq in Hi.
    destruct (Nat.ltb_spec i 15); [apply orb_true_r|lia].
  - unfold init_access_ok. rewrite H. reflexivity.
Qed.
Lemma fused_In f m (os : list (output K E)) : In (OutFused f m) os -> In m (fused os).
Proof.
  induction os as [|o os IH]; [intros []|]. intros [->|H]; cbn [fused]; [left; reflexivity|].
  destruct o; cbn [In]; auto.
Qed.
End Access.

Lemma run_safe (K : Scalar) E (pq : pqueue K) (vt : vtbl K E) (p : params K) period now later (f : fb K E) ang nothing ld n is :
  pq_ok pq -> start p period now later f ang nothing = Ok (ld, n) -> full_configs p ->
  Forall (proper (ld_subs ld)) is ->
  Forall fused_inside (snd (respond pq vt (ld_config ld) n is)).
Proof.
  intros Hq H HF HI. apply start_eq in H. destruct H as (HL & ->).
  pose proof (fun s Hs => loaded_full _ _ _ _ _ s HL HF Hs) as Hs.
  match goal with |- context [respond _ _ _ ?m _] => set (n0 := m) end.
  destruct (respond_holds pq Hq vt (ld_config ld) (ld_subs ld) is Hs HI n0) as (_ & Hf); [split; constructor|].
  apply Forall_forall. intros o Ho. destruct o as [| | | | | | |f0 m|]; try exact I. cbn. apply full_access_ok.
  rewrite Forall_forall in Hf. apply Hf. exact (fused_In f0 m _ Ho).
Qed.
Lemma accesses_safe (K : Scalar) E (p : params K) period now (f : fb K E) ld :
  loadParams p period now f = Ok ld -> full_configs p ->
  (forall (e : penv K) s m (n : node K E), In s (ld_subs ld) -> Forall inside (message_accesses e (ld_config ld) s m n)) /\
  (forall (e : penv K) msg (n : node K E), Forall inside (set_pose_accesses e (ld_config ld) msg n)).
Proof.
  intros HL HF. split; intros; [apply message_inside; eapply loaded_full; eassumption|apply set_pose_inside].
Qed.
