(** * Lemmas about the published messages and the diagnostics *)

From Coq Require Import ZArith List Bool String Arith Lia Reals Lra Permutation Sorted OrdersEx RelationClasses.
From Coq Require Import Floats.
From Verif Require Import Scalar FloatScalar Mat Tf FilterBase StrMap Diagnostics RosFilter SpecTf SpecNode SpecOutput
  NodeProofs NodeFacts Trig Angles TfReal TfRot TfQuat.
Import ListNotations.

(** ** Ordered maps *)
Definition kbefore {A : Type} (a b : string * A) : Prop := String_as_OT.lt (fst a) (fst b).

Lemma compare_same a b : String_as_OT.compare a b = String.compare a b.
Proof. reflexivity. Qed.

Lemma sm_find_in {A : Type} (m : smap A) k v : sm_find m k = Some v -> In (k, v) m.
Proof.
  induction m as [|[k' a] r IH]; cbn; [discriminate|]. destruct (String.eqb_spec k k') as [<-|]; [intros [= ->]; left; reflexivity|].
  intros H; right; apply IH; exact H.
Qed.

Lemma sm_set_in {A : Type} (m : smap A) k v x : In x (sm_set m k v) -> x = (k, v) \/ In x m.
Proof.
  induction m as [|[k' a] r IH]; cbn; [intros [<-|[]]; left; reflexivity|].
  destruct (String.eqb k k'); [intros [<-|H]; [left; reflexivity|right; right; exact H]|].
  destruct (String.ltb k k'); [intros [<-|H]; [left; reflexivity|right; exact H]|].
  intros [<-|H]; [right; left; reflexivity|]. destruct (IH H) as [->|Hx]; [left; reflexivity|right; right; exact Hx].
Qed.

Lemma sm_set_sorted {A : Type} (m : smap A) k v : StronglySorted kbefore m -> StronglySorted kbefore (sm_set m k v).
Proof.
  induction m as [|[k' a] r IH]; cbn; intros H; [constructor; constructor|].
  inversion H as [|x y Hs Hf]; subst.
  destruct (String.eqb_spec k k') as [<-|Hne].
  - constructor; [exact Hs|]. eapply Forall_impl; [|exact Hf]. intros b Hb. exact Hb.
  - unfold String.ltb. destruct (String.compare k k') eqn:Hc.
    + apply String.compare_eq_iff in Hc. congruence.
    + assert (Hlt : String_as_OT.lt k k') by (unfold String_as_OT.lt; rewrite compare_same; exact Hc).
      constructor; [exact H|]. constructor; [exact Hlt|]. eapply Forall_impl; [|exact Hf].
      intros b Hb. unfold kbefore in *. cbn [fst] in *. etransitivity; eassumption.
    + constructor; [apply IH; exact Hs|]. apply Forall_forall. intros b Hb. apply sm_set_in in Hb.
      destruct Hb as [->|Hb]; [|rewrite Forall_forall in Hf; apply Hf; exact Hb].
      unfold kbefore; cbn [fst]. unfold String_as_OT.lt. rewrite compare_same, String.compare_antisym, Hc. reflexivity.
Qed.

Lemma sorted_nodup {A : Type} (m : smap A) : StronglySorted kbefore m -> NoDup (map fst m).
Proof.
  induction 1 as [|[k a] r Hs IH Hf]; cbn; constructor; [|exact IH].
  intros Hin. apply in_map_iff in Hin. destruct Hin as ([k' b] & <- & Hb). rewrite Forall_forall in Hf.
  specialize (Hf _ Hb). unfold kbefore in Hf; cbn in Hf. revert Hf. apply irreflexivity.
Qed.

Lemma nodup_find {A : Type} (m : smap A) k v : NoDup (map fst m) -> In (k, v) m -> sm_find m k = Some v.
Proof.
  induction m as [|[k' a] r IH]; cbn; [intros _ []|]. intros H [[= -> ->]|Hin]; inversion H; subst.
  - rewrite String.eqb_refl. reflexivity.
  - destruct (String.eqb_spec k k') as [<-|]; [|apply IH; assumption].
    exfalso. match goal with Hn : ~ In _ _ |- _ => apply Hn end. apply in_map_iff. exists (k, v). split; [reflexivity|exact Hin].
Qed.

Lemma sm_set_find' {A : Type} (m : smap A) k v k' : sm_find (sm_set m k v) k' = if String.eqb k k' then Some v else sm_find m k'.
Proof.
  induction m as [|[k0 a] r IH]; cbn; [rewrite String.eqb_sym; reflexivity|].
  destruct (String.eqb_spec k k0) as [<-|Hne]; cbn.
  - rewrite (String.eqb_sym k' k). destruct (String.eqb k k'); reflexivity.
  - destruct (String.ltb k k0); cbn.
    + rewrite (String.eqb_sym k' k). destruct (String.eqb k k'); reflexivity.
    + rewrite IH. destruct (String.eqb_spec k' k0) as [->|]; [|reflexivity].
      destruct (String.eqb_spec k k0); [congruence|reflexivity].
Qed.

(** ** C44: the diagnostic state after any history *)
Lemma latest_snoc l c k : latest (l ++ [c]) k = if String.eqb (dc_key c) k then Some (dc_text c) else latest l k.
Proof.
  induction l as [|a l IH]; cbn; [reflexivity|]. rewrite IH.
  destruct (String.eqb (dc_key c) k); reflexivity.
Qed.

Definition records (l : list diag_call) (m : smap string) (z : Z) : Prop :=
  StronglySorted kbefore m /\ (forall k, sm_find m k = latest l k) /\ worst l z.

Lemma records_nil : records [] [] 0%Z.
Proof.
  split; [constructor|]. split; [reflexivity|]. split; [lia|]. split; [intros c []|left; reflexivity].
Qed.

Lemma records_snoc l m z c : records l m z ->
  records (l ++ [c]) (sm_set m (dc_key c) (dc_text c)) (Z.max z (dc_level c)).
Proof.
  intros (H1 & H2 & H3 & H4 & H5). split; [apply sm_set_sorted; exact H1|]. split.
  - intros k. rewrite sm_set_find', latest_snoc, H2. reflexivity.
  - split; [lia|]. split.
    + intros x Hx. apply in_app_or in Hx. destruct Hx as [Hx|[<-|[]]]; [specialize (H4 x Hx); lia|lia].
    + destruct (Z.max_spec z (dc_level c)) as [[Hlt ->]|[Hle ->]].
      * right. exists c. split; [apply in_or_app; right; left; reflexivity|reflexivity].
      * destruct H5 as [H5|(x & Hx & H5)]; [left; exact H5|right; exists x; split; [apply in_or_app; left; exact Hx|exact H5]].
Qed.

Lemma lasting_snoc h o : lasting (h ++ [o]) = lasting h ++ match o with Raise c => if dc_static c then [c] else [] | Report => [] end.
Proof.
  induction h as [|[c|] h IH]; cbn; [destruct o as [c|]; [destruct (dc_static c)|]; reflexivity| |exact IH].
  rewrite IH. destruct (dc_static c); reflexivity.
Qed.
Lemma reported_snoc h o : reported (h ++ [o]) = (reported h || match o with Report => true | _ => false end)%bool.
Proof. induction h as [|[c|] h IH]; cbn; [destruct o; reflexivity|exact IH|reflexivity]. Qed.
Lemma recent_raise h c : recent (h ++ [Raise c]) = recent h ++ (if dc_static c then [] else [c]).
Proof.
  induction h as [|[a|] h IH]; cbn; [destruct (dc_static c); reflexivity| |exact IH].
  rewrite reported_snoc, orb_false_r, IH. destruct (dc_static a || reported h)%bool; reflexivity.
Qed.
Lemma recent_report h : recent (h ++ [Report]) = [].
Proof. induction h as [|[a|] h IH]; cbn; [reflexivity| |exact IH]. rewrite reported_snoc, !orb_true_r. exact IH. Qed.

Lemma diag_trace_app d a b :
  diag_trace d (a ++ b) = let '(d1, r1) := diag_trace d a in let '(d2, r2) := diag_trace d1 b in (d2, r1 ++ r2).
Proof.
  revert d. induction a as [|[c|] a IH]; intros d; cbn.
  - destruct (diag_trace d b); reflexivity.
  - apply IH.
  - rewrite IH. destruct (diag_trace _ a) as [d1 r1]. destruct (diag_trace d1 b); reflexivity.
Qed.

Lemma diag_state h : let d := fst (diag_trace diag_init h) in
  records (lasting h) (d_static d) (d_static_level d) /\ records (recent h) (d_dynamic d) (d_dynamic_level d).
Proof.
  induction h as [|o h IH] using rev_ind; [split; apply records_nil|]. cbv zeta in *.
  rewrite diag_trace_app. destruct (diag_trace diag_init h) as [d reps]. cbn [fst] in IH. destruct IH as [I1 I2].
  rewrite lasting_snoc. destruct o as [c|].
  - cbn. rewrite recent_raise. unfold addDiagnostic. destruct (dc_static c); cbn; rewrite ?app_nil_r.
    + split; [apply records_snoc; exact I1|exact I2].
    + split; [exact I1|apply records_snoc; exact I2].
  - cbn. rewrite recent_report, app_nil_r. split; [exact I1|apply records_nil].
Qed.

Lemma worst_app a b x y : worst a x -> worst b y -> worst (a ++ b) (Z.max x y).
Proof.
  intros (A1 & A2 & A3) (B1 & B2 & B3). split; [lia|]. split.
  - intros c Hc. apply in_app_or in Hc. destruct Hc as [Hc|Hc]; [specialize (A2 c Hc)|specialize (B2 c Hc)]; lia.
  - destruct (Z.max_spec x y) as [[_ ->]|[_ ->]].
    + destruct B3 as [B3|(c & Hc & B3)]; [left; exact B3|right; exists c; split; [apply in_or_app; right; exact Hc|exact B3]].
    + destruct A3 as [A3|(c & Hc & A3)]; [left; exact A3|right; exists c; split; [apply in_or_app; left; exact Hc|exact A3]].
Qed.

Lemma records_lists l m z : records l m z -> lists_latest l m.
Proof.
  intros (H1 & H2 & _). assert (Hn := sorted_nodup _ H1). split; [exact Hn|]. intros k t. rewrite <- H2.
  split; [apply nodup_find; exact Hn|apply sm_find_in].
Qed.

(** The report made after the history [h]. *)
Lemma report_after h : let r := fst (aggregateDiagnostics (fst (diag_trace diag_init h))) in
  exists level s d,
    rp_entries r = s ++ d /\ lists_latest (lasting h) s /\ lists_latest (recent h) d /\
    worst (lasting h ++ recent h) level /\
    rp_summary r = option_map (pair level) (verdict level).
Proof.
  cbv zeta. destruct (diag_state h) as [R1 R2]. cbv zeta in *. set (d := fst (diag_trace diag_init h)) in *.
  exists (Z.max (d_static_level d) (d_dynamic_level d)), (d_static d), (d_dynamic d).
  split; [reflexivity|]. split; [eapply records_lists, R1|]. split; [eapply records_lists, R2|].
  assert (W : worst (lasting h ++ recent h) (Z.max (d_static_level d) (d_dynamic_level d))).
  { apply worst_app; [apply R1|apply R2]. }
  split; [exact W|]. destruct W as (W0 & _). cbn. unfold diag_summary, DIAG_ERROR, DIAG_WARN, DIAG_STALE, DIAG_OK.
  set (z := Z.max (d_static_level d) (d_dynamic_level d)) in *. clearbody z.
  destruct (Z.eqb_spec z 2) as [->|N2]; [reflexivity|]. destruct (Z.eqb_spec z 1) as [->|N1]; [reflexivity|].
  destruct (Z.eqb_spec z 3) as [->|N3]; [reflexivity|]. destruct (Z.eqb_spec z 0) as [->|N0]; [reflexivity|].
  destruct z as [|[[q|q|]|[q|q|]|]|q]; try reflexivity; lia.
Qed.

(** ** Outputs of a cycle *)
Section Cycle.
Context {K : Scalar} {E : Type}.
Variable pq : pqueue K.
Variable vt : vtbl K E.
Variable c : config K.
Hypothesis Hpq : pq_ok pq.

Definition inner_trace (o : output K E) : Prop := match o with OutFused _ _ | OutPredict _ _ => True | _ => False end.

Lemma working_trace cur later n : Forall inner_trace (snd (working pq vt c cur later n)).
Proof.
  unfold working. destruct (n_toggled n); [|constructor].
  assert (H : Forall inner_trace (snd (integrateMeasurements pq vt c cur n))).
  { rewrite (integrate_eq pq vt c Hpq). destruct (catch_up_post pq vt c Hpq cur n) as [_ (l & Hl)].
    destruct (catch_up pq vt c cur n) as [n1 o1]. cbn [snd] in Hl.
    assert (F : Forall inner_trace o1) by (rewrite Hl; apply Forall_map, Forall_forall; intros; exact I).
    destruct (fb_initialized (n_filter n1) && projects c cur n)%bool; [|exact F]. cbn [snd].
    apply Forall_app. split; [exact F|]. repeat constructor. }
  destruct (integrateMeasurements pq vt c cur n). exact H.
Qed.

(** Every message of a cycle is one of the resulting filter. *)
Lemma cycle_out cur later lookup n n' o x : periodicUpdate pq vt c cur later lookup n = (n', o) -> In x o ->
  inner_trace x \/ x = OutNonFinite \/ (exists r, x = OutReport r) \/
  (exists m, getFilteredOdometryMessage c n' = Some m /\ In (OutOdom m) o /\ (x = OutOdom m \/ In x (broadcast c m lookup))) \/
  (exists a, getFilteredAccelMessage c n' = Some a /\ x = OutAccel a).
Proof.
  intros Hrun Hx. destruct (n_enabled n) eqn:He.
  2:{ rewrite (cycle_disabled pq vt c _ _ _ _ He) in Hrun. injection Hrun as <- <-. destruct Hx. }
  rewrite (cycle_eq pq vt c cur later lookup n He) in Hrun. pose proof (working_trace cur later n) as Hw.
  destruct (working pq vt c cur later n) as [n1 o1]. injection Hrun as Hn Ho. cbn [snd] in Hw. subst o.
  assert (G1 : getFilteredOdometryMessage c n' = getFilteredOdometryMessage c n1) by (rewrite <- Hn; reflexivity).
  assert (G2 : getFilteredAccelMessage c n' = getFilteredAccelMessage c n1) by (rewrite <- Hn; reflexivity).
  rewrite G1, G2. clear Hn G1 G2. apply in_app_or in Hx. destruct Hx as [Hx|Hx].
  { left. rewrite Forall_forall in Hw. apply Hw; exact Hx. }
  apply in_app_or in Hx. destruct Hx as [Hx|Hx].
  2:{ destruct (diag_due c cur n1); [|destruct Hx]. destruct Hx as [<-|[]]. right; right; left. eexists; reflexivity. }
  unfold visible in *. apply in_app_or in Hx. destruct Hx as [Hx|Hx].
  - destruct (getFilteredOdometryMessage c n1) as [m|] eqn:Hg; [|destruct Hx].
    apply in_app_or in Hx. destruct Hx as [Hx|Hx].
    { destruct (validateFilterOutput m); [destruct Hx|]. destruct Hx as [<-|[]]. right; left; reflexivity. }
    right; right; right; left. exists m. split; [reflexivity|].
    assert (Hc : corrected c n1 = false).
    { apply in_app_or in Hx. destruct (corrected c n1); [|reflexivity]. rewrite andb_false_r in Hx. destruct Hx as [[]|[]]. }
    rewrite Hc in Hx |- *. cbn [negb andb] in *. split.
    + apply in_or_app; right. apply in_or_app; left. apply in_or_app; left. apply in_or_app; right.
      apply in_or_app; right. left; reflexivity.
    + apply in_app_or in Hx. destruct Hx as [Hx|[<-|[]]]; [|left; reflexivity].
      destruct (c_publish_tf c); [right; exact Hx|destruct Hx].
  - right; right; right; right. destruct (negb (corrected c n1) && c_publish_acc c)%bool; [|destruct Hx].
    destruct (getFilteredAccelMessage c n1) as [a|]; [|destruct Hx]. destruct Hx as [<-|[]]. exists a. split; reflexivity.
Qed.

Lemma flat6_entry (f : nat -> nat -> K) i j : (j < 6)%nat -> flat6 f (6 * i + j)%nat = f i j.
Proof.
  intros Hj. unfold flat6. replace (6 * i + j)%nat with (j + i * 6)%nat by lia.
  rewrite Nat.div_add, Nat.mod_add by lia. rewrite Nat.div_small, Nat.mod_small by lia. reflexivity.
Qed.

Lemma odom_shows (n : node K E) m : getFilteredOdometryMessage c n = Some m -> shows c (n_filter n) m.
Proof.
  unfold getFilteredOdometryMessage. destruct (fb_initialized (n_filter n)) eqn:Hi; [|discriminate]. intros [= <-].
  unfold shows. cbv zeta. split; [exact Hi|]. do 6 (split; [reflexivity|]).
  intros i j Hi' Hj. cbn [o_pose_cov o_twist_cov]. rewrite !flat6_entry by exact Hj. split; [reflexivity|].
  rewrite (Nat.add_comm i), (Nat.add_comm j). reflexivity.
Qed.

Lemma accel_shows (n : node K E) a : getFilteredAccelMessage c n = Some a -> shows_accel c n a.
Proof.
  unfold getFilteredAccelMessage. destruct (fb_initialized (n_filter n)) eqn:Hi; [|discriminate]. intros [= <-].
  unfold shows_accel. cbv zeta. split; [exact Hi|]. do 4 (split; [reflexivity|]).
  intros i j Hi' Hj. cbn [ac_cov]. rewrite !flat6_entry by lia.
  destruct i as [|[|[|i]]]; [| | |lia]; (destruct j as [|[|[|j]]]; [| | |lia]); repeat split.
Qed.

(** Messages of a run come from its cycles. *)
Lemma run_out es : forall n x, In x (snd (node_run pq vt c n es)) ->
  exists es1 e es2, es = es1 ++ e :: es2 /\ In x (snd (node_step pq vt c (fst (node_run pq vt c n es1)) e)).
Proof.
  induction es as [|e es IH]; intros n x; cbn [node_run]; [intros []|].
  destruct (node_step pq vt c n e) as [n1 o1] eqn:Hs. specialize (IH n1 x).
  destruct (node_run pq vt c n1 es) as [n2 o2] eqn:Hr. cbn [snd] in *. intros Hx. apply in_app_or in Hx. destruct Hx as [Hx|Hx].
  - exists [], e, es. split; [reflexivity|]. cbn. rewrite Hs. exact Hx.
  - destruct (IH Hx) as (es1 & e' & es2 & -> & Hin). exists (e :: es1), e', es2. split; [reflexivity|].
    cbn [node_run]. rewrite Hs. destruct (node_run pq vt c n1 es1) as [n3 o3]. exact Hin.
Qed.

Lemma run_snoc es : forall n e, fst (node_run pq vt c n (es ++ [e])) = fst (node_step pq vt c (fst (node_run pq vt c n es)) e).
Proof.
  induction es as [|a es IH]; intros n e; cbn [app node_run].
  - cbn [fst]. destruct (node_step pq vt c n e); reflexivity.
  - destruct (node_step pq vt c n a) as [n1 o1]. specialize (IH n1 e).
    destruct (node_run pq vt c n1 (es ++ [e])). destruct (node_run pq vt c n1 es). exact IH.
Qed.

Lemma sensor_trace warn topic stamp upd thresh prep (n : node K E) x :
  In x (snd (sensorCallback pq warn topic stamp upd thresh prep n)) -> exists m, x = OutQueued m.
Proof.
  unfold sensorCallback. destruct (n_set_pose n >=? stamp)%Z; [intros []|]. cbv zeta.
  set (n1 := if sm_mem (n_last_msg n) topic then n else _). clearbody n1.
  destruct (sm_find (n_last_msg n1) topic) as [last|]; [|intros []].
  destruct (last <=? stamp)%Z; [|intros []].
  destruct (pr_ok (prep n1 upd vzero mzero)); [|intros []].
  intros [<-|[]]. eexists; reflexivity.
Qed.

(** Only cycles publish. *)
Lemma only_cycles n e x : In x (snd (node_step pq vt c n e)) ->
  match x with OutOdom _ | OutAccel _ | OutTf _ => exists cur later lookup, e = EvCycle cur later lookup | _ => True end.
Proof.
  destruct e as [warn topic stamp upd thresh prep|frame ctl stamp|on| | |stamp prep now| |cur later lookup]; cbn [node_step]; intros Hx.
  - destruct (sensor_trace _ _ _ _ _ _ _ _ Hx) as [m ->]. exact I.
  - destruct Hx.
  - unfold toggleFilterProcessingCallback in Hx. destruct (Bool.eqb on (n_toggled n)); destruct Hx as [<-|[]]; exact I.
  - destruct Hx as [<-|[]]; exact I.
  - destruct Hx.
  - destruct Hx.
  - destruct Hx as [<-|[]]; exact I.
  - destruct x; try exact I; do 3 eexists; reflexivity.
Qed.

(** ** The diagnostics of a run *)
Lemma raise_all (cs : list diag_call) : forall d, diag_trace d (map Raise cs) = (fold_left addDiagnostic cs d, []).
Proof. induction cs as [|a cs IH]; intros d; cbn; [reflexivity|apply IH]. Qed.

Lemma reports_app (a b : list (output K E)) : reports (a ++ b) = reports a ++ reports b.
Proof. induction a as [|[] a IH]; cbn; rewrite ?IH; reflexivity. Qed.
Lemma reports_inner (o : list (output K E)) : Forall inner_trace o -> reports o = [].
Proof. induction 1 as [|x l Hx Hl IH]; [reflexivity|]. destruct x; cbn in *; try contradiction; exact IH. Qed.

Lemma step_diag n e : exists ops, diag_trace (n_diag n) ops = (n_diag (fst (node_step pq vt c n e)), reports (snd (node_step pq vt c n e))).
Proof.
  destruct e as [warn topic stamp upd thresh prep|frame ctl stamp|on| | |stamp prep now| |cur later lookup]; cbn [node_step].
  - unfold sensorCallback. destruct (n_set_pose n >=? stamp)%Z.
    { destruct warn; [exists [Raise (stale_call topic barrier_text)]|exists []]; reflexivity. }
    cbv zeta. set (n1 := if sm_mem (n_last_msg n) topic then n else _).
    assert (Hd : n_diag n1 = n_diag n) by (unfold n1; destruct (sm_mem (n_last_msg n) topic); reflexivity).
    rewrite <- Hd. clearbody n1. clear Hd.
    destruct (sm_find (n_last_msg n1) topic) as [last|]; [|exists []; reflexivity].
    destruct (last <=? stamp)%Z; [|exists [Raise (stale_call topic backwards_text)]; reflexivity].
    exists (map Raise (pr_diag (prep n1 upd vzero mzero))). rewrite raise_all.
    destruct (pr_ok (prep n1 upd vzero mzero)); reflexivity.
  - exists []. unfold controlStampedCallback. destruct (String.eqb frame (c_base c) || String.eqb frame "")%bool; reflexivity.
  - exists []. unfold toggleFilterProcessingCallback. destruct (Bool.eqb on (n_toggled n)); reflexivity.
  - exists []. unfold enableFilterSrvCallback. destruct (n_enabled n); reflexivity.
  - exists []. reflexivity.
  - eexists. unfold setPoseCallback. cbv zeta.
    match goal with |- context [fold_left addDiagnostic ?l _] => instantiate (1 := map Raise l) end.
    rewrite raise_all. reflexivity.
  - exists [Report]. reflexivity.
  - destruct (n_enabled n) eqn:He.
    2:{ rewrite (cycle_disabled pq vt c _ _ _ _ He). exists []. reflexivity. }
    rewrite (cycle_eq pq vt c cur later lookup n He). pose proof (working_trace cur later n) as Hw.
    destruct (working_post pq vt c Hpq cur later n) as [_ Hk]. unfold kept_fields in Hk.
    destruct (working pq vt c cur later n) as [n1 o1]. cbn [fst snd] in *.
    destruct Hk as (_ & _ & _ & _ & _ & _ & _ & _ & Hd & _). rewrite <- Hd.
    rewrite !reports_app, (reports_inner _ Hw).
    assert (Hv : reports (visible c n1 lookup) = []).
    { unfold visible. rewrite reports_app. replace (reports (if (negb (corrected c n1) && c_publish_acc c)%bool then _ else [])) with (@nil diag_report).
      2:{ destruct (negb (corrected c n1) && c_publish_acc c)%bool; [|reflexivity]. destruct (getFilteredAccelMessage c n1); reflexivity. }
      rewrite app_nil_r. destruct (getFilteredOdometryMessage c n1) as [m|]; [|reflexivity]. rewrite !reports_app.
      unfold broadcast. destruct (validateFilterOutput m), (c_publish_tf c && negb (corrected c n1))%bool, (corrected c n1);
        cbn; try reflexivity; destruct (String.eqb (o_frame m) (c_odom c)); cbn; try reflexivity;
        destruct (String.eqb (o_frame m) (c_map c)); cbn; try reflexivity; destruct lookup; reflexivity. }
    rewrite Hv. cbn [app]. cbn [concluded n_diag]. destruct (diag_due c cur n1); [exists [Report]|exists []]; reflexivity.
Qed.

Lemma run_diag es : forall n, exists ops,
  diag_trace (n_diag n) ops = (n_diag (fst (node_run pq vt c n es)), reports (snd (node_run pq vt c n es))).
Proof.
  induction es as [|e es IH]; intros n; cbn [node_run]; [exists []; reflexivity|].
  destruct (step_diag n e) as [ops1 H1]. destruct (node_step pq vt c n e) as [n1 o1]. cbn [fst snd] in H1.
  destruct (IH n1) as [ops2 H2]. destruct (node_run pq vt c n1 es) as [n2 o2]. cbn [fst snd] in *.
  exists (ops1 ++ ops2). rewrite diag_trace_app, H1, H2, reports_app. reflexivity.
Qed.
End Cycle.

(** ** C42, C43 over the reals *)
Local Open Scope R_scope.

Lemma odom_angles {E : Type} c (n : node RScalar E) m : getFilteredOdometryMessage c n = Some m ->
  shows_angles (n_filter n) m /\
  o_orientation m = @quat_setRPY RScalar (fb_state (n_filter n) 3%nat) (fb_state (n_filter n) 4%nat) (fb_state (n_filter n) 5%nat).
Proof.
  unfold getFilteredOdometryMessage. destruct (fb_initialized (n_filter n)); [|discriminate]. intros [= <-].
  cbn [o_orientation]. split; [|reflexivity]. split; [apply setRPY_unit|]. intros v.
  rewrite <- of_quat_spin by apply setRPY_unit. cbn [o_orientation]. rewrite quat_setRPY_matrix. apply setRPY_oriented.
Qed.

Lemma angles_recovered {E : Type} c (n : node RScalar E) m : getFilteredOdometryMessage c n = Some m ->
  - PI < fb_state (n_filter n) 3%nat <= PI -> - (PI / 2) < fb_state (n_filter n) 4%nat < PI / 2 ->
  - PI < fb_state (n_filter n) 5%nat <= PI ->
  m3_getRPY (m3_of_quat (o_orientation m)) =
    (fb_state (n_filter n) 3%nat, fb_state (n_filter n) 4%nat, fb_state (n_filter n) 5%nat).
Proof.
  intros H Hr Hp Hy. destruct (odom_angles c n m H) as [_ ->]. rewrite quat_setRPY_matrix.
  apply getRPY_setRPY_exact; assumption.
Qed.

Lemma t_of_spin (q : Q4) o p : unit_quat q -> move (t_of q o) p = plus3 (spin q p) o.
Proof. intros U. unfold move, t_of. cbn [t_basis t_origin]. rewrite of_quat_spin by exact U. reflexivity. Qed.

Lemma composed (q : Q4) o (L B : T4) : unit_quat q -> rigid L -> (forall p, move L (move B p) = p) ->
  let M := t_mult (t_of q o) L in
  unit_quat (@m3_getRotation RScalar (t_basis M)) /\
  forall p, plus3 (spin (@m3_getRotation RScalar (t_basis M)) (move B p)) (t_origin M) = plus3 (spin q p) o.
Proof.
  intros U RL HB. cbv zeta. set (M := t_mult (t_of q o) L).
  assert (RM : rotation (t_basis M)).
  { unfold M. apply (rigid_mult (t_of q o) L); [|exact RL]. unfold rigid, t_of; cbn [t_basis].
    apply of_quat_rotation, unit_nonzero, U. }
  destruct (getRotation_correct _ RM) as [G1 G2]. split; [exact G1|]. intros p.
  rewrite <- of_quat_spin by exact G1. rewrite G2. change (move M (move B p) = plus3 (spin q p) o).
  unfold M. rewrite move_mult, HB. apply t_of_spin, U.
Qed.

Lemma map_odom_tf {E : Type} pq (vt : vtbl RScalar E) c cur later lookup n n' o t (L B : T4) : pq_ok pq ->
  periodicUpdate pq vt c cur later lookup n = (n', o) -> In (OutTf t) o ->
  c_world c = c_map c -> c_map c <> c_odom c -> lookup = Some L -> rigid L -> (forall p, move L (move B p) = p) ->
  exists m, In (OutOdom m) o /\ tf_frame t = c_map c /\ tf_child t = c_odom c /\
    tf_stamp t = (o_stamp m + c_tf_offset c)%Z /\ unit_quat (tf_rotation t) /\
    forall p, plus3 (spin (tf_rotation t) (move B p)) (tf_translation t) = plus3 (spin (o_orientation m) p) (o_position m).
Proof.
  intros Hpq Hrun Hin Hw Hne Hl HL HB.
  destruct (cycle_out pq vt c Hpq _ _ _ _ _ _ _ Hrun Hin) as [[]|[H|[(r & H)|[(m & Hg & Ho & Hx)|(a & _ & H)]]]]; try discriminate.
  destruct Hx as [H|Hx]; [discriminate|]. exists m. split; [exact Ho|].
  destruct (odom_angles _ _ _ Hg) as [[U _] _]. destruct (odom_shows c n' m Hg) as (_ & _ & Hf & _).
  unfold broadcast in Hx. rewrite Hf, Hw, Hl in Hx.
  destruct (String.eqb_spec (c_map c) (c_odom c)) as [|_]; [contradiction|]. rewrite String.eqb_refl in Hx.
  cbv zeta in Hx. destruct Hx as [Hx|[]]. injection Hx as <-. cbn [tf_frame tf_child tf_stamp tf_rotation tf_translation].
  do 3 (split; [reflexivity|]). exact (composed (o_orientation m) (o_position m) L B U HL HB).
Qed.

Section Tfs.
Context {K : Scalar} {E : Type}.
Variable pq : pqueue K.
Variable vt : vtbl K E.
Variable c : config K.
Hypothesis Hpq : pq_ok pq.

Lemma odom_tf cur later lookup n n' o t :
  periodicUpdate pq vt c cur later lookup n = (n', o) -> In (OutTf t) o -> c_world c = c_odom c ->
  exists m, In (OutOdom m) o /\ tf_frame t = c_odom c /\ tf_child t = c_base_out c /\
    tf_stamp t = (o_stamp m + c_tf_offset c)%Z /\ tf_rotation t = o_orientation m /\ tf_translation t = o_position m.
Proof.
  intros Hrun Hin Hw.
  destruct (cycle_out pq vt c Hpq _ _ _ _ _ _ _ Hrun Hin) as [[]|[H|[(r & H)|[(m & Hg & Ho & Hx)|(a & _ & H)]]]]; try discriminate.
  destruct Hx as [H|Hx]; [discriminate|]. exists m. split; [exact Ho|].
  destruct (odom_shows c n' m Hg) as (_ & _ & Hf & Hch & _).
  unfold broadcast in Hx. rewrite Hf, Hw, String.eqb_refl in Hx. destruct Hx as [Hx|[]]. injection Hx as <-.
  cbn. rewrite Hch. repeat split.
Qed.

Lemma tfs_inner (o : list (output K E)) : Forall inner_trace o -> tfs o = [].
Proof. induction 1 as [|x l Hx Hl IH]; [reflexivity|]. destruct x; cbn in *; try contradiction; exact IH. Qed.
Lemma odoms_inner (o : list (output K E)) : Forall inner_trace o -> odoms o = [].
Proof. induction 1 as [|x l Hx Hl IH]; [reflexivity|]. destruct x; cbn in *; try contradiction; exact IH. Qed.

Lemma tf_count cur later lookup n n' o :
  periodicUpdate pq vt c cur later lookup n = (n', o) ->
  List.length (tfs o) =
    if (c_publish_tf c && negb (Nat.eqb (List.length (odoms o)) 0) &&
        (String.eqb (c_world c) (c_odom c) ||
         String.eqb (c_world c) (c_map c) && match lookup with Some _ => true | None => false end))%bool
    then 1%nat else 0%nat.
Proof.
  intros Hrun. destruct (n_enabled n) eqn:He.
  2:{ rewrite (cycle_disabled pq vt c _ _ _ _ He) in Hrun. injection Hrun as <- <-. cbn. rewrite andb_false_r. reflexivity. }
  rewrite (cycle_eq pq vt c cur later lookup n He) in Hrun. pose proof (working_trace pq vt c Hpq cur later n) as Hw.
  destruct (working pq vt c cur later n) as [n1 o1]. injection Hrun as Hn Ho. cbn [snd] in Hw. subst o. clear Hn.
  rewrite !tfs_app, !odoms_app, (tfs_inner _ Hw), (odoms_inner _ Hw).
  assert (R0 : forall b r, tfs (if b : bool then [@OutReport K E r] else []) = []) by (intros [] ?; reflexivity).
  assert (R1 : forall b r, odoms (if b : bool then [@OutReport K E r] else []) = []) by (intros [] ?; reflexivity).
  rewrite R0, R1, !app_nil_r. cbn [app]. unfold visible. rewrite !tfs_app, !odoms_app.
  match goal with |- context [?a ++ tfs ?b] => assert (B0 : tfs b = []); [|rewrite B0; clear B0] end.
  { destruct (negb (corrected c n1) && c_publish_acc c)%bool; [|reflexivity]. destruct (getFilteredAccelMessage c n1); reflexivity. }
  match goal with |- context [?a ++ odoms ?b] => assert (B0 : odoms b = []); [|rewrite B0; clear B0] end.
  { destruct (negb (corrected c n1) && c_publish_acc c)%bool; [|reflexivity]. destruct (getFilteredAccelMessage c n1); reflexivity. }
  rewrite !app_nil_r.
  destruct (getFilteredOdometryMessage c n1) as [m|] eqn:Hg; [|cbn; rewrite andb_false_r; reflexivity].
  destruct (odom_shows c n1 m Hg) as (_ & _ & Hf & _). rewrite !tfs_app, !odoms_app. unfold broadcast. rewrite Hf.
  destruct (validateFilterOutput m), (corrected c n1), (c_publish_tf c), (String.eqb (c_world c) (c_odom c)),
    (String.eqb (c_world c) (c_map c)), lookup; reflexivity.
Qed.

(** Two consecutive working cycles: the angular acceleration. *)
Lemma cycle_ang cur later lookup n n' o : periodicUpdate pq vt c cur later lookup n = (n', o) ->
  n_enabled n = true -> n_toggled n = true -> fb_initialized (n_filter n') = true ->
  let s := fb_state (n_filter n') in
  let w := mkV3 (s 9%nat) (s 10%nat) (s 11%nat) in
  a_last_twist (n_ang n') = w /\ a_last_time (n_ang n') = toSec cur /\
  a_acc (n_ang n') = v3div (v3sub w (a_last_twist (n_ang n))) (s_sub (toSec cur) (a_last_time (n_ang n))) /\
  (forall i j, (i < 3)%nat -> (j < 3)%nat -> a_cov (n_ang n') i j =
     let dt := s_sub (toSec cur) (a_last_time (n_ang n)) in
     s_div (s_mul (fb_P (n_filter n') (9 + i)%nat (9 + j)%nat) (s_ofZ 2)) (s_mul dt dt)).
Proof.
  intros Hrun He Ht Hi. rewrite (cycle_eq pq vt c cur later lookup n He) in Hrun. unfold working in Hrun. rewrite Ht in Hrun.
  pose proof (integrate_untouched pq vt c Hpq cur n) as Hu.
  destruct (integrateMeasurements pq vt c cur n) as [n0 o0]. injection Hrun as Hn _. cbn [fst] in Hu.
  unfold untouched in Hu. injection Hu as _ _ _ _ _ _ _ _ _ Ha _.
  assert (D : n_filter (differentiateMeasurements cur n0) = n_filter n0) by apply diff_fields.
  rewrite <- Hn in Hi |- *. cbn [concluded n_filter n_ang] in *. rewrite D in *.
  unfold differentiateMeasurements. rewrite Hi. cbn -[Nat.add]. rewrite Ha. repeat split.
  intros i j _ _. rewrite !(Nat.add_comm 9). reflexivity.
Qed.
End Tfs.

Section Runs.
Context {K : Scalar} {E : Type}.
Variable pq : pqueue K.
Variable vt : vtbl K E.
Variable c : config K.
Hypothesis Hpq : pq_ok pq.

Lemma message_of_run n es (P : node K E -> Prop) x :
  In x (snd (node_run pq vt c n es)) ->
  match x with OutOdom _ | OutAccel _ => True | _ => False end ->
  (forall n', match x with
              | OutOdom m => getFilteredOdometryMessage c n' = Some m
              | OutAccel a => getFilteredAccelMessage c n' = Some a
              | _ => False end -> P n') ->
  exists before cur later lookup after, es = before ++ EvCycle cur later lookup :: after /\
    P (fst (node_run pq vt c n (before ++ [EvCycle cur later lookup]))).
Proof.
  intros H Hk HP. destruct (run_out pq vt c es n _ H) as (es1 & e & es2 & -> & Hin).
  pose proof (only_cycles pq vt c _ _ _ Hin) as Hc.
  assert (He : exists cur later lookup, e = EvCycle cur later lookup) by (destruct x; try contradiction; exact Hc).
  destruct He as (cur & later & lookup & ->). exists es1, cur, later, lookup, es2. split; [reflexivity|].
  rewrite run_snoc. cbn [node_step] in *.
  destruct (periodicUpdate pq vt c cur later lookup (fst (node_run pq vt c n es1))) as [n' o] eqn:Hrun. cbn [fst snd] in *.
  apply HP. destruct (cycle_out pq vt c Hpq _ _ _ _ _ _ _ Hrun Hin) as [Hi|[Hi|[(r & Hi)|[(m & Hg & Ho & Hx)|(a & Hg & Hi)]]]].
  - destruct x; contradiction.
  - subst x; contradiction.
  - subst x; contradiction.
  - destruct Hx as [->|Hx]; [exact Hg|]. unfold broadcast in Hx.
    destruct (String.eqb (o_frame m) (c_odom c)); [destruct Hx as [<-|[]]; contradiction|].
    destruct (String.eqb (o_frame m) (c_map c)); [|destruct Hx]. destruct lookup; [|destruct Hx].
    destruct Hx as [<-|[]]; contradiction.
  - subst x. exact Hg.
Qed.

Lemma odometry_of_run n es m : In (OutOdom m) (snd (node_run pq vt c n es)) ->
  exists before cur later lookup after, es = before ++ EvCycle cur later lookup :: after /\
    shows c (n_filter (fst (node_run pq vt c n (before ++ [EvCycle cur later lookup])))) m.
Proof.
  intros H. apply (message_of_run n es (fun n' => shows c (n_filter n') m) _ H I). intros n' Hg. apply odom_shows, Hg.
Qed.

Lemma acceleration_of_run n es a : In (OutAccel a) (snd (node_run pq vt c n es)) ->
  exists before cur later lookup after, es = before ++ EvCycle cur later lookup :: after /\
    shows_accel c (fst (node_run pq vt c n (before ++ [EvCycle cur later lookup]))) a.
Proof.
  intros H. apply (message_of_run n es (fun n' => shows_accel c n' a) _ H I). intros n' Hg. apply accel_shows, Hg.
Qed.

Lemma angular_two_cycles cur1 later1 lookup1 cur2 later2 lookup2 n n1 n2 o1 o2 :
  periodicUpdate pq vt c cur1 later1 lookup1 n = (n1, o1) ->
  periodicUpdate pq vt c cur2 later2 lookup2 n1 = (n2, o2) ->
  n_enabled n = true -> n_toggled n = true ->
  fb_initialized (n_filter n1) = true -> fb_initialized (n_filter n2) = true ->
  (forall i, (i < 3)%nat ->
  v3get (a_acc (n_ang n2)) i =
    (s_mul (s_sub (fb_state (n_filter n2) (9 + i)%nat) (fb_state (n_filter n1) (9 + i)%nat))
           (s_div (s_ofZ 1) (s_sub (toSec cur2) (toSec cur1))))) /\
  (forall i j, (i < 3)%nat -> (j < 3)%nat -> a_cov (n_ang n2) i j =
     let dt := s_sub (toSec cur2) (toSec cur1) in
     s_div (s_mul (fb_P (n_filter n2) (9 + i)%nat (9 + j)%nat) (s_ofZ 2)) (s_mul dt dt)).
Proof.
  intros H1 H2 He Ht I1 I2.
  destruct (cycle_ang pq vt c Hpq _ _ _ _ _ _ H1 He Ht I1) as (T1 & M1 & _ & _).
  assert (Hk : n_enabled n1 = true /\ n_toggled n1 = true).
  { rewrite (cycle_eq pq vt c _ _ _ _ He) in H1. destruct (working_post pq vt c Hpq cur1 later1 n) as [_ Hk]. unfold kept_fields in Hk.
    destruct (working pq vt c cur1 later1 n) as [w ow]. cbn [fst] in Hk. destruct Hk as (_ & K1 & K2 & _). injection H1 as <- _. cbn.
    rewrite K1, K2. split; assumption. }
  destruct Hk as [He1 Ht1].
  destruct (cycle_ang pq vt c Hpq _ _ _ _ _ _ H2 He1 Ht1 I2) as (_ & _ & A2 & C2).
  rewrite M1 in C2. split; [|exact C2]. intros i Hi. rewrite A2, T1, M1.
  destruct i as [|[|[|i]]]; [reflexivity|reflexivity|reflexivity|lia].
Qed.
End Runs.

Lemma orientation_of_run {E : Type} pq (vt : vtbl RScalar E) c : pq_ok pq -> forall n es m,
  In (OutOdom m) (snd (node_run pq vt c n es)) ->
  exists before cur later lookup after, es = before ++ EvCycle cur later lookup :: after /\
    let f := n_filter (fst (node_run pq vt c n (before ++ [EvCycle cur later lookup]))) in
    shows c f m /\ shows_angles f m /\
    (- PI < fb_state f 3%nat <= PI -> - (PI / 2) < fb_state f 4%nat < PI / 2 -> - PI < fb_state f 5%nat <= PI ->
      m3_getRPY (m3_of_quat (o_orientation m)) = (fb_state f 3%nat, fb_state f 4%nat, fb_state f 5%nat)).
Proof.
  intros Hpq n es m H.
  apply (message_of_run pq vt c Hpq n es (fun n' => let f := n_filter n' in shows c f m /\ shows_angles f m /\
    (- PI < fb_state f 3%nat <= PI -> - (PI / 2) < fb_state f 4%nat < PI / 2 -> - PI < fb_state f 5%nat <= PI ->
      m3_getRPY (m3_of_quat (o_orientation m)) = (fb_state f 3%nat, fb_state f 4%nat, fb_state f 5%nat))) _ H I).
  intros n' Hg. cbv zeta. split; [apply odom_shows, Hg|]. split; [apply (odom_angles c n' m Hg)|].
  intros. eapply angles_recovered; eassumption.
Qed.

Lemma each_report before after :
  nth_error (snd (diag_trace diag_init (before ++ Report :: after))) (List.length (snd (diag_trace diag_init before))) =
  Some (fst (aggregateDiagnostics (fst (diag_trace diag_init before)))).
Proof.
  rewrite diag_trace_app. destruct (diag_trace diag_init before) as [d reps]. cbn [diag_trace fst snd].
  destruct (aggregateDiagnostics d) as [r d1]. destruct (diag_trace d1 after) as [d2 reps2]. cbn [snd].
  rewrite nth_error_app2 by lia. rewrite Nat.sub_diag. reflexivity.
Qed.

Lemma cleared h : recent (h ++ [Report]) = [] /\ lasting (h ++ [Report]) = lasting h.
Proof. split; [apply recent_report|]. rewrite lasting_snoc. apply app_nil_r. Qed.

Lemma same_clock lm : lm_ofZ lm 0 = 0%float -> lm_ofZ lm 1 = 1%float -> lm_ofZ lm 5 = 5%float -> lm_ofZ lm 1000000000 = 1000000000%float ->
  exists (n : node (FScalar lm) unit),
  fb_initialized (n_filter n) = true /\ (forall i, fb_state (n_filter n) i = 0%float) /\ a_last_time (n_ang n) = toSec 5 /\
  forall i, (i < 3)%nat -> @s_isnan (FScalar lm) (v3get (a_acc (n_ang (differentiateMeasurements 5 n))) i) = true.
Proof.
  destruct lm as [ls lc la lt lf ofz ltr]. cbn [lm_ofZ]. intros H0 H1 H5 H9. set (lm := mkLibM ls lc la lt lf ofz ltr).
  pose (z := fun _ : nat => 0%float : sc (FScalar lm)).
  pose (f := set_initialized (set_state (@fb_init (FScalar lm) unit z tt) z) true).
  exists (node_init f (@mkAng (FScalar lm) v3zero mzero v3zero (toSec 5)) z false 0%Z).
  split; [reflexivity|]. split; [reflexivity|]. split; [reflexivity|].
  intros i Hi. destruct i as [|[|[|i]]]; [| | |lia]; vm_compute; rewrite H0, H1, H5, H9; vm_compute; reflexivity.
Qed.
