(** * Executions with messages: the memory of a stream (C50, C51) *)

From Coq Require Import Reals ZArith List Bool Lia Lra String Arith Sorted.
From Verif Require Import Scalar Mat FilterBase StrMap Tf Diagnostics RosFilter RosConfig ForceTwoD RosPrepare
  SpecConfig SpecNode SpecTf SpecLin SpecPrepare NodeProofs NodeFacts OutputProofs PrepareProofs.
Import ListNotations.

Section Memory.
Context {K : Scalar} {E : Type}.
Variable pq : pqueue K.
Variable vt : vtbl K E.
Variable c : config K.
Hypothesis Hpq : pq_ok pq.

Definition local_prep (topic : string) (prep : prepfun K E) : Prop :=
  forall n upd v cv k, k <> topic -> remembered k (pr_streams (prep n upd v cv)) = remembered k (n_streams n).

Lemma of_stream_app k (a b : list (output K E)) : of_stream k (a ++ b) = of_stream k a ++ of_stream k b.
Proof. unfold of_stream. rewrite queued_app. apply filter_app. Qed.

Lemma local_twist e msg topic target : local_prep topic (prepareTwist e c msg topic target).
Proof.
  intros n upd v cv k Hk. unfold prepareTwist. destruct (lookupTransformSafe _ _ _ _); [|reflexivity]. cbv zeta.
  destruct (finish _ _ _ _) as [[? ?] ?]. reflexivity.
Qed.
Lemma local_acceleration e msg topic target relative :
  local_prep topic (prepareAcceleration e c msg topic target relative).
Proof.
  intros n upd v cv k Hk. unfold prepareAcceleration. destruct (lookupTransformSafe _ _ _ _); [|reflexivity]. cbv zeta.
  destruct (finish _ _ _ _) as [[? ?] ?]. reflexivity.
Qed.
Lemma local_pose e msg topic target source differential relative imu :
  local_prep topic (preparePose e c msg topic target source differential relative imu).
Proof.
  intros n upd v cv k Hk. unfold preparePose. destruct (pose_frames _ _ _ _ _) as [ft pf]. cbv zeta.
  destruct (lookupTransformSafe e ft pf _) as [t|]; [|reflexivity].
  destruct differential.
  - destruct (sm_find (st_previous (n_streams n)) topic) as [prev|]; [destruct (sm_find (st_prev_cov (n_streams n)) topic) as [pcov|]|].
    1: destruct (quatToRPY _) as [[? ?] ?].
    all: cbn [pr_streams]; unfold remembered; cbn [st_initial st_previous st_prev_cov]; rewrite ?sm_find_set_other by exact Hk; reflexivity.
  - destruct relative.
    + destruct (sm_find (st_initial (n_streams n)) topic) as [i|] eqn:Hi; destruct (quatToRPY _) as [[? ?] ?];
        destruct (finish _ _ _ _) as [[? ?] ?]; cbn [pr_streams]; unfold remembered;
        cbn [st_initial st_previous st_prev_cov]; rewrite ?sm_find_set_other by exact Hk; reflexivity.
    + destruct (quatToRPY _) as [[? ?] ?]. destruct (finish _ _ _ _) as [[? ?] ?]. reflexivity.
Qed.

Lemma sensor_foreign warn topic stamp upd thresh prep (n : node K E) k :
  local_prep topic prep -> k <> topic ->
  let x := sensorCallback pq warn topic stamp upd thresh prep n in
  memory k (fst x) = memory k n /\ of_stream k (snd x) = [].
Proof.
  intros HL Hk x. unfold x, sensorCallback. clear x.
  destruct (n_set_pose n >=? stamp)%Z; [destruct warn; split; reflexivity|].
  fold (seen n topic stamp). cbv zeta.
  destruct (seen_fields n topic stamp) as (F1 & F2 & F3 & F4 & F5 & F6 & F7 & F8 & F9 & F10).
  set (n1 := seen n topic stamp) in *.
  assert (M : memory k n1 = memory k n).
  { unfold memory. rewrite F3, F4, F10 by exact Hk. reflexivity. }
  clearbody n1. clear F1 F2 F3 F4 F5 F6 F7 F8 F10.
  rewrite F9. destruct (Z.leb _ _).
  2:{ split; [exact M|reflexivity]. }
  pose proof (HL n1 upd vzero mzero k Hk) as HP.
  destruct (prep n1 upd vzero mzero) as [ok u v cv st ds]. cbn [pr_ok pr_upd pr_val pr_cov pr_streams pr_diag] in *.
  destruct ok; cbn [fst snd enqueueMeasurement].
  - split.
    + rewrite <- M. unfold memory. cbn. rewrite HP. rewrite sm_find_set_other by exact Hk. reflexivity.
    + unfold of_stream. cbn. destruct (String.eqb_spec topic k); [congruence|reflexivity].
  - split; [|reflexivity].
    rewrite <- M. unfold memory. cbn. rewrite HP. rewrite sm_find_set_other by exact Hk. reflexivity.
Qed.

Lemma andthen_foreign (a b : node K E -> node K E * list (output K E)) k :
  (forall n, memory k (fst (a n)) = memory k n /\ of_stream k (snd (a n)) = []) ->
  (forall n, memory k (fst (b n)) = memory k n /\ of_stream k (snd (b n)) = []) ->
  forall n, memory k (fst (andthen a b n)) = memory k n /\ of_stream k (snd (andthen a b n)) = [].
Proof.
  intros Ha Hb n. unfold andthen. destruct (a n) as [n1 o1] eqn:A. destruct (b n1) as [n2 o2] eqn:B.
  destruct (Ha n) as [A1 A2]. destruct (Hb n1) as [B1 B2]. rewrite A in *. rewrite B in *. cbn [fst snd] in *.
  split; [congruence|]. rewrite of_stream_app, A2, B2. reflexivity.
Qed.
Lemma skip_foreign k (n : node K E) : memory k (fst (skip_callback n)) = memory k n /\ of_stream k (snd (skip_callback n)) = [].
Proof. split; reflexivity. Qed.

Lemma pose_foreign e cd msg target source imu k : k <> cd_topic cd -> forall n : node K E,
  let x := poseCallback pq e c cd msg target source imu n in
  memory k (fst x) = memory k n /\ of_stream k (snd x) = [].
Proof. intros Hk n. apply sensor_foreign; [apply local_pose|exact Hk]. Qed.
Lemma twist_foreign e cd msg target k : k <> cd_topic cd -> forall n : node K E,
  let x := twistCallback pq e c cd msg target n in
  memory k (fst x) = memory k n /\ of_stream k (snd x) = [].
Proof. intros Hk n. apply sensor_foreign; [apply local_twist|exact Hk]. Qed.
Lemma acceleration_foreign e cd msg target k : k <> cd_topic cd -> forall n : node K E,
  let x := accelerationCallback pq e c cd msg target n in
  memory k (fst x) = memory k n /\ of_stream k (snd x) = [].
Proof. intros Hk n. apply sensor_foreign; [apply local_acceleration|exact Hk]. Qed.

Lemma receive_foreign e s m k : ~ In k (stream_names s) -> forall n : node K E,
  memory k (fst (receive pq e c s m n)) = memory k n /\ of_stream k (snd (receive pq e c s m n)) = [].
Proof.
  intros Hk n. destruct s as [t a b|a|a|t a b d], m as [x|x|x|x]; cbn [receive stream_names] in *;
    try (split; reflexivity); cbn [In] in Hk.
  - unfold odometryCallback. destruct (_ >=? _)%Z; [split; reflexivity|].
    apply andthen_foreign; intros n'; destruct (Z.gtb _ _); try apply skip_foreign.
    + apply pose_foreign. intros ->. tauto.
    + apply twist_foreign. intros ->. tauto.
  - apply pose_foreign. intros ->. tauto.
  - apply twist_foreign. intros ->. tauto.
  - unfold imuCallback. destruct (_ >=? _)%Z; [split; reflexivity|].
    apply andthen_foreign; intros n'; [|apply andthen_foreign; intros n''];
      destruct (Z.gtb _ _ && _)%bool; try apply skip_foreign.
    + apply pose_foreign. intros ->. tauto.
    + apply twist_foreign. intros ->. tauto.
    + apply acceleration_foreign. intros ->. tauto.
Qed.

Lemma ordinary_foreign ev k (n : node K E) : ordinary ev ->
  memory k (fst (node_step pq vt c n ev)) = memory k n /\ of_stream k (snd (node_step pq vt c n ev)) = [].
Proof.
  destruct ev as [? ? ? ? ? ?|frame ctl stamp|on| | |? ? ?| |cur later lookup]; cbn [ordinary node_step]; try contradiction; intros _.
  - unfold controlStampedCallback. destruct (_ || _)%bool; split; reflexivity.
  - unfold toggleFilterProcessingCallback. destruct (Bool.eqb on (n_toggled n)); split; reflexivity.
  - unfold enableFilterSrvCallback. destruct (n_enabled n); split; reflexivity.
  - destruct (aggregateDiagnostics (n_diag n)) as [r d]. split; reflexivity.
  - destruct (n_enabled n) eqn:He.
    2:{ rewrite cycle_disabled by exact He. split; reflexivity. }
    destruct (cycle_obs pq vt c cur later lookup n He) as (_ & HQ & _).
    rewrite (cycle_eq pq vt c cur later lookup n He) in *.
    destruct (working_post pq vt c Hpq cur later n) as [W (K1 & _ & _ & _ & K2 & K3 & _)].
    destruct (working pq vt c cur later n) as [nw ow]. cbn [fst snd] in *. split.
    + unfold memory. rewrite <- K1, <- K2, <- K3. reflexivity.
    + unfold of_stream. rewrite HQ. destruct W as [(_ & _ & _ & _ & _ & -> & _)|(_ & -> & _)]; reflexivity.
Qed.

Lemma deliver_foreign i k (n : node K E) : foreign k i ->
  memory k (fst (deliver pq vt c n i)) = memory k n /\ of_stream k (snd (deliver pq vt c n i)) = [].
Proof. destruct i as [e s m|ev]; cbn [foreign deliver]; intros H; [apply receive_foreign|apply ordinary_foreign]; exact H. Qed.

Lemma respond_cons i r (n : node K E) :
  of_stream (K:=K) (E:=E) i (snd (respond pq vt c n [])) = [] /\
  forall x, respond pq vt c n (x :: r) =
    (fst (respond pq vt c (fst (deliver pq vt c n x)) r),
     snd (deliver pq vt c n x) ++ snd (respond pq vt c (fst (deliver pq vt c n x)) r)).
Proof.
  split; [reflexivity|]. intros x. cbn [respond]. destruct (deliver pq vt c n x) as [n1 o1]. cbn [fst snd].
  destruct (respond pq vt c n1 r); reflexivity.
Qed.

(** ** A stream processes its messages as if they came alone *)
Section Stream.
Variable cd : callback_data K.
Let topic := cd_topic cd.
Variable (P : penv K * pose_msg K -> Prop).
(** [A]: what the stream remembers; one own message takes [A x] to [A y] with
    outputs in [out]. *)
Variable St : Type.
Variable state_of : node K E -> St -> Prop.
Variable step : St -> penv K * pose_msg K -> St -> list (meas K) -> Prop.
Hypothesis state_memory : forall n n' s, memory topic n' = memory topic n -> state_of n s -> state_of n' s.
Hypothesis own_step : forall n s x, P x -> state_of n s -> fresh n topic (ps_stamp (snd x)) ->
  let r := receive pq (fst x) c (SubPose cd) (MsgPose (snd x)) n in
  exists s', state_of (fst r) s' /\ step s x s' (of_stream topic (snd r)) /\
    n_set_pose (fst r) = n_set_pose n /\ sm_find (n_last_msg (fst r)) topic = Some (ps_stamp (snd x)).

Inductive stream_run : St -> list (penv K * pose_msg K) -> list (meas K) -> Prop :=
| run_nil s : stream_run s [] []
| run_cons s x s' o l os : step s x s' o -> stream_run s' l os -> stream_run s (x :: l) (o ++ os).

Lemma follows_memory (n n' : node K E) l : memory topic n' = memory topic n -> follows n topic l -> follows n' topic l.
Proof.
  intros M [F S]. split; [|exact S]. intros x Hx. destruct (F x Hx) as [F1 F2]. unfold memory in M.
  injection M as _ _ _ M1 M2. split; [rewrite M2; exact F1|]. rewrite M1. exact F2.
Qed.

Lemma stream_runs l : forall (n : node K E) s, state_of n s -> all_foreign topic l ->
  follows n topic (own_of l) -> (forall x, In x (own_of l) -> P x) ->
  stream_run s (own_of l) (of_stream topic (snd (respond pq vt c n (map (as_input cd) l)))).
Proof.
  induction l as [|a l IH]; intros n s HS HF HO HP.
  - constructor.
  - cbn [map]. rewrite (proj2 (respond_cons topic (map (as_input cd) l) n)). cbn [snd]. rewrite of_stream_app.
    destruct a as [e p|i]; cbn [own_of as_input] in *.
    + cbn [deliver]. destruct HO as [F S]. inversion S as [|x0 l0 S0 SF]; subst.
      destruct (own_step n s (e, p) (HP _ (or_introl eq_refl)) HS (F _ (or_introl eq_refl))) as (s' & N & St1 & B & L).
      cbn [fst snd] in *. econstructor; [exact St1|]. apply IH; [exact N| | |].
      * intros i Hi. apply HF. right. exact Hi.
      * split; [|exact S0]. intros x Hx. rewrite Forall_forall in SF. pose proof (SF x Hx) as Hlt. cbn [snd] in Hlt.
        destruct (F x (or_intror Hx)) as [F1 _]. split; [rewrite B; exact F1|]. intros t Ht. rewrite L in Ht.
        injection Ht as <-. lia.
      * intros x Hx. apply HP. right. exact Hx.
    + destruct (deliver_foreign i topic n (HF i (or_introl eq_refl))) as [M1 M2]. rewrite M2. cbn [app].
      apply IH; [exact (state_memory _ _ _ M1 HS)| |exact (follows_memory _ _ _ M1 HO)|exact HP].
      intros j Hj. apply HF. right. exact Hj.
Qed.
End Stream.
End Memory.
