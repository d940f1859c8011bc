(** * Where the times of a node come from (C97) *)

From Coq Require Import ZArith List Permutation Sorting.Sorted Bool Lia String Arith.
From Verif Require Import Scalar Mat FilterBase Tf StrMap Diagnostics RosFilter SpecNode SpecTimes NodeProofs NodeInv NodeFacts NodeTime.
Import ListNotations.
Local Open Scope Z_scope.

Section Times.
Context {K : Scalar} {E : Type}.
Variable pq : pqueue K.
Variable vt : vtbl K E.
Variable c : config K.
Hypothesis Hpq : pq_ok pq.
Hypothesis Hvt : time_neutral vt.

Lemma keeps_incl T T' (n : node K E) : incl T T' -> keeps_times T n -> keeps_times T' n.
Proof. intros H (A & B & C & D). repeat split; intros; apply H; auto. Qed.
Lemma timed_incl T T' (o : output K E) : incl T T' -> timed_by c T o -> timed_by c T' o.
Proof. intros H. destruct o; cbn [timed_by]; auto; intros (A & B); auto. Qed.
Lemma timed_all_incl T T' (os : list (output K E)) : incl T T' -> Forall (timed_by c T) os -> Forall (timed_by c T') os.
Proof. intros H. apply Forall_impl. intros o. apply timed_incl. exact H. Qed.

Lemma process_times T (f : fb K E) m : (fb_initialized f = true -> In (fb_last_time f) T) -> In (m_time m) T ->
  In (fb_last_time (processMeasurement vt f m)) T.
Proof.
  intros Hf Hm. destruct (process_time vt Hvt f m) as (Ht & _). rewrite Ht.
  destruct (fb_initialized f); [|exact Hm].
  destruct (Z.max_spec (fb_last_time f) (m_time m)) as [(_ & ->)|(_ & ->)]; auto.
Qed.

Lemma loop_times T fuel : forall now restored n n' o, keeps_times T n ->
  integrate_loop pq vt c fuel now restored n = (n', o) -> keeps_times T n' /\ Forall (timed_by c T) o.
Proof.
  induction fuel as [|fuel IH]; intros now restored n n' o H Hrun.
  - cbn in Hrun. injection Hrun as <- <-. split; [exact H|constructor].
  - rewrite loop_step in Hrun. destruct (pq_pop pq (n_queue n)) as [[m rest]|] eqn:Hpop.
    2:{ injection Hrun as <- <-. split; [exact H|constructor]. }
    destruct (now <? m_time m). { injection Hrun as <- <-. split; [exact H|constructor]. }
    destruct (integrate_loop pq vt c fuel now (loop_count c restored) (loop_node pq vt c restored n m rest))
      as [n3 o3] eqn:Hrec. injection Hrun as <- <-.
    pose proof (pop_perm pq Hpq _ _ _ Hpop) as Hperm. destruct H as (Hf & Hq & Hm & Hs).
    assert (Hx : In (m_time m) T).
    { apply Hq. apply (Permutation_in m (Permutation_sym Hperm)). left. reflexivity. }
    assert (Hl : forall x, In x rest -> In (m_time x) T).
    { intros x Hi. apply Hq. apply (Permutation_in x (Permutation_sym Hperm)). right. exact Hi. }
    assert (Hf1 : fb_initialized (loop_filter c restored (n_filter n) m) = true -> In (fb_last_time (loop_filter c restored (n_filter n) m)) T).
    { unfold loop_filter. destruct (loop_control c restored); exact Hf. }
    pose proof (process_times T _ m Hf1 Hx) as Hp.
    assert (H2 : keeps_times T (loop_node pq vt c restored n m rest)).
    { repeat split; cbn [loop_node n_filter n_queue n_meas_hist n_state_hist].
      - intros _. exact Hp.
      - exact Hl.
      - intros x. destruct (c_smooth c); [|apply Hm]. rewrite in_app_iff. intros [Hi|[<-|[]]]; [exact (Hm x Hi)|exact Hx].
      - intros s. destruct (c_smooth c && _)%bool; [|apply Hs]. rewrite in_app_iff. intros [Hi|[<-|[]]]; [exact (Hs s Hi)|exact Hp]. }
    destruct (IH _ _ _ _ _ H2 Hrec) as [I1 I2]. split; [exact I1|]. constructor; [split; [exact Hx|exact Hf1]|exact I2].
Qed.

Lemma revert_times T (n : node K E) : keeps_times T n ->
  (fb_initialized (n_filter (snd (revert_if_lagged pq c n))) = fb_initialized (n_filter n)) /\ keeps_times T (snd (revert_if_lagged pq c n)).
Proof.
  intros H. unfold revert_if_lagged. destruct (pq_pop pq (n_queue n)) as [[first r]|]; [|split; [reflexivity|exact H]].
  destruct (c_smooth c && _)%bool; [|split; [reflexivity|exact H]].
  pose proof (revert_cases pq Hpq n (m_time first - 1)) as Hr.
  destruct (revertTo pq n (m_time first - 1)) as [ok n0]. cbn [snd].
  assert (Hgo : forall s kept, In s (n_state_hist n) -> incl kept (n_state_hist n) ->
    revert_to_snapshot n n0 (m_time first - 1) s kept -> fb_initialized (n_filter n0) = fb_initialized (n_filter n) /\ keeps_times T n0).
  { intros s kept Hin Hk (F1 & F2 & (d & D1 & _ & _ & D4) & _). destruct H as (Hf & Hq & Hm & Hs).
    split; [rewrite F1; reflexivity|]. repeat split.
    - intros _. rewrite F1. cbn. exact (Hs s Hin).
    - intros m Hi. apply (Permutation_in m D4) in Hi. apply in_app_or in Hi. destruct Hi as [Hi|Hi]; [exact (Hq m Hi)|].
      apply filter_In in Hi. apply Hm. rewrite D1. apply in_or_app. right. exact (proj1 Hi).
    - intros m Hi. apply Hm. rewrite D1. apply in_or_app. left. exact Hi.
    - intros x Hx. rewrite F2 in Hx. apply Hs, Hk, Hx. }
  destruct Hr as [(_ & _ & ->)|[(pre & s & post & E1 & _ & _ & _ & Hrs)|(s & post & E1 & _ & _ & Hrs)]].
  - split; [reflexivity|exact H].
  - apply (Hgo s (pre ++ [s])); [rewrite E1; apply in_or_app; right; left; reflexivity| |exact Hrs].
    intros x Hx. rewrite E1. apply in_app_or in Hx. apply in_or_app. destruct Hx as [Hx|[->|[]]]; [left; exact Hx|right; left; reflexivity].
  - apply (Hgo s []); [rewrite E1; left; reflexivity| |exact Hrs]. intros x [].
Qed.

Lemma catch_up_times T now n : keeps_times T n -> keeps_times T (fst (catch_up pq vt c now n)) /\ Forall (timed_by c T) (snd (catch_up pq vt c now n)).
Proof.
  intros H. unfold catch_up. destruct (n_queue n); [split; [exact H|constructor]|].
  pose proof (proj2 (revert_times T n H)) as Hr. destruct (revert_if_lagged pq c n) as [restored n0]. cbn in Hr.
  destruct (integrate_loop pq vt c (List.length (n_queue n0)) now restored n0) as [n1 o1] eqn:Hl.
  exact (loop_times T _ _ _ _ _ _ Hr Hl).
Qed.

Lemma integrate_times T now n : In now T -> keeps_times T n ->
  keeps_times T (fst (integrateMeasurements pq vt c now n)) /\ Forall (timed_by c T) (snd (integrateMeasurements pq vt c now n)).
Proof.
  intros Hn H. rewrite (integrate_eq pq vt c Hpq). destruct (catch_up_times T now n H) as (H1 & H2).
  destruct (catch_up pq vt c now n) as [n1 o1]. cbn [fst snd] in *.
  destruct (fb_initialized (n_filter n1)) eqn:Hin; [|split; assumption]. cbn [andb].
  destruct (projects c now n); [|split; assumption]. cbn [fst snd]. destruct H1 as (Hf & Hq & Hm & Hs). split.
  - repeat split; cbn; try assumption. intros _. rewrite (proj1 (proj1 Hvt _ _ _)).
    replace (fb_last_time (n_filter n1) + (now - fb_last_time (n_filter n1))) with now by lia. exact Hn.
  - apply Forall_app. split; [exact H2|]. constructor; [|constructor]. split; [exact Hn|].
    replace (now - (now - fb_last_time (n_filter n1))) with (fb_last_time (n_filter n1)) by lia. apply Hf. exact Hin.
Qed.

Lemma keeps_same T (n n' : node K E) : n_filter n' = n_filter n -> n_queue n' = n_queue n ->
  n_meas_hist n' = n_meas_hist n -> n_state_hist n' = n_state_hist n -> keeps_times T n -> keeps_times T n'.
Proof. intros A B C D (a & b & d & e). unfold keeps_times. rewrite A, B, C, D. repeat split; assumption. Qed.

Lemma working_times T cur later n : In cur T -> In later T -> keeps_times T n ->
  keeps_times T (fst (working pq vt c cur later n)) /\ Forall (timed_by c T) (snd (working pq vt c cur later n)).
Proof.
  intros H1 H2 H. unfold working. destruct (n_toggled n).
  - destruct (integrate_times T cur n H1 H) as (H3 & H4). destruct (integrateMeasurements pq vt c cur n) as [n0 o]. cbn [fst snd] in *.
    split; [|exact H4]. destruct (diff_fields cur n0) as (A1 & A2 & A3 & A4 & _). eapply keeps_same; [..|exact H3]; assumption.
  - cbn [fst snd]. split; [|constructor]. destruct H as (Hf & Hq & Hm & Hs).
    destruct (fb_initialized (n_filter n)) eqn:EI; repeat split; cbn; auto; try contradiction. intros G. rewrite EI in G. discriminate.
Qed.

Lemma visible_times T (n : node K E) lookup : (fb_initialized (n_filter n) = true -> In (fb_last_time (n_filter n)) T) -> Forall (timed_by c T) (visible c n lookup).
Proof.
  intros H. unfold visible, getFilteredOdometryMessage, getFilteredAccelMessage. destruct (fb_initialized (n_filter n)).
  2:{ cbn. destruct (_ && _)%bool; constructor. }
  apply Forall_app. split.
  - apply Forall_app. split; [destruct (validateFilterOutput _); repeat constructor|]. apply Forall_app. split.
    + destruct (_ && _)%bool; [|constructor]. unfold broadcast. cbn [o_stamp].
      assert (G : In (fb_last_time (n_filter n) + c_tf_offset c - c_tf_offset c) T) by (replace (_ + _ - _) with (fb_last_time (n_filter n)) by lia; apply H; reflexivity).
      destruct (_ =? _)%string; [repeat constructor; exact G|]. destruct (_ =? _)%string; [destruct lookup|]; repeat constructor; exact G.
    + destruct (corrected c n); repeat constructor. cbn. apply H. reflexivity.
  - destruct (_ && _)%bool; repeat constructor. cbn. apply H. reflexivity.
Qed.

Lemma concluded_times T cur (n : node K E) : keeps_times T n -> keeps_times T (concluded c cur n).
Proof.
  intros (Hf & Hq & Hm & Hs). repeat split; cbn; auto; intros x Hx; (destruct (c_smooth c); [apply pop_front_while_incl in Hx|]); auto.
Qed.

Lemma step_times T n e : incl (brought e) T -> keeps_times T n ->
  keeps_times T (fst (node_step pq vt c n e)) /\ Forall (timed_by c T) (snd (node_step pq vt c n e)).
Proof.
  intros HB H. destruct e as [w topic stamp u th prep|fr ctl stamp|on| | |stamp prep now| |cur later lookup]; cbn [node_step brought] in *.
  - assert (Hst : In stamp T) by (apply HB; left; reflexivity). unfold sensorCallback.
    destruct (_ >=? _); [split; [|constructor]; destruct w; exact H|].
    set (n1 := if sm_mem _ _ then n else _).
    assert (H1 : keeps_times T n1) by (unfold n1; destruct (sm_mem _ _); exact H). clearbody n1.
    destruct (sm_find (n_last_msg n1) topic); [|split; [exact H1|constructor]].
    destruct (_ <=? _); [|split; [exact H1|constructor]].
    set (r := prep n1 u vzero mzero). clearbody r. destruct (pr_ok r); [|split; [exact H1|constructor]].
    cbn [enqueueMeasurement fst snd]. split; [|repeat constructor; exact Hst].
    destruct H1 as (Hf & Hq & Hm & Hs). repeat split; cbn; auto.
    intros m Hi. apply (Permutation_in m (push_perm pq Hpq _ _)) in Hi. destruct Hi as [<-|Hi]; [exact Hst|exact (Hq m Hi)].
  - split; [|constructor]. unfold controlStampedCallback. destruct (_ || _)%bool; exact H.
  - unfold toggleFilterProcessingCallback. destruct (Bool.eqb _ _); (split; [exact H|repeat constructor]).
  - unfold enableFilterSrvCallback. destruct (n_enabled n); (split; [exact H|repeat constructor]).
  - split; [|constructor]. repeat split; cbn; try contradiction. discriminate.
  - split; [|constructor]. repeat split; cbn; try contradiction. intros _. apply HB. left. reflexivity.
  - destruct (aggregateDiagnostics (n_diag n)) as [r d]. split; [exact H|repeat constructor].
  - destruct (n_enabled n) eqn:En; [|unfold periodicUpdate; rewrite En; split; [exact H|constructor]].
    rewrite (cycle_eq pq vt c cur later lookup n En).
    destruct (working_times T cur later n) as (H1 & H2); [apply HB; left; reflexivity|apply HB; right; left; reflexivity|exact H|].
    destruct (working pq vt c cur later n) as [n1 o1]. cbn [fst snd] in *. split; [apply concluded_times; exact H1|].
    apply Forall_app. split; [exact H2|]. apply Forall_app. split; [apply visible_times; exact (proj1 H1)|].
    destruct (diag_due c cur n1); repeat constructor.
Qed.

Lemma run_times es : forall T n, incl (all_brought es) T -> keeps_times T n ->
  keeps_times T (fst (node_run pq vt c n es)) /\ Forall (timed_by c T) (snd (node_run pq vt c n es)).
Proof.
  induction es as [|e es IH]; intros T n HB H; [split; [exact H|constructor]|]. cbn [node_run].
  assert (B : incl (brought e) T /\ incl (all_brought es) T).
  { unfold all_brought in *. cbn in HB. split; intros x Hx; apply HB, in_or_app; auto. }
  destruct (step_times T n e (proj1 B) H) as (H1 & H2). destruct (node_step pq vt c n e) as [n1 o1]. cbn [fst snd] in *.
  destruct (IH T n1 (proj2 B) H1) as (H3 & H4). destruct (node_run pq vt c n1 es) as [n2 o2]. cbn [fst snd] in *.
  split; [exact H3|]. apply Forall_app. split; assumption.
Qed.

Lemma start_times f ang ctl dis now es : fb_initialized f = false ->
  let r := node_run pq vt c (node_init f ang ctl dis now) es in
  keeps_times (all_brought es) (fst r) /\ Forall (timed_by c (all_brought es)) (snd r).
Proof.
  intros Hf. apply run_times; [intros x Hx; exact Hx|]. repeat split; cbn; try contradiction. rewrite Hf. discriminate.
Qed.

(** ** predict_to_current_time *)
Lemma integrate_current now n : c_predict_now c = true ->
  fb_initialized (n_filter (fst (integrateMeasurements pq vt c now n))) = true ->
  fb_last_time (n_filter (fst (integrateMeasurements pq vt c now n))) = now.
Proof.
  intros Hp. rewrite (integrate_eq pq vt c Hpq). destruct (catch_up pq vt c now n) as [n1 o1].
  unfold projects. rewrite Hp. cbn [orb]. rewrite andb_true_r. destruct (fb_initialized (n_filter n1)) eqn:Hi; cbn [fst]; [|congruence].
  intros _. exact (proj1 (project_time vt Hvt now n1)).
Qed.

Lemma visible_stamp T (n : node K E) lookup : (fb_initialized (n_filter n) = true -> fb_last_time (n_filter n) = T) ->
  Forall (fun t => t = T) (List.concat (map (stamps c) (visible c n lookup))).
Proof.
  intros H. pose proof (visible_times [T] n lookup) as V. specialize (V (fun G => or_introl (eq_sym (H G)))).
  induction V as [|o os Ho _ IH]; [constructor|]. cbn [map List.concat]. apply Forall_app. split; [|exact IH].
  destruct o; cbn in *; repeat constructor; destruct Ho as [<-|[]]; reflexivity.
Qed.

Lemma fuse_stamps (os : list (output K E)) : Forall (fun o => stamps c o = []) os -> List.concat (map (stamps c) os) = [].
Proof. induction 1 as [|o os Ho _ IH]; [reflexivity|]. cbn. rewrite Ho. exact IH. Qed.
Lemma loop_stamps fuel : forall now restored n, Forall (fun o => stamps c o = []) (snd (integrate_loop pq vt c fuel now restored n)).
Proof.
  induction fuel as [|fuel IH]; intros now restored n; [constructor|]. rewrite loop_step.
  destruct (pq_pop pq (n_queue n)) as [[m rest]|]; [|constructor]. destruct (now <? m_time m); [constructor|].
  specialize (IH now (loop_count c restored) (loop_node pq vt c restored n m rest)).
  destruct (integrate_loop pq vt c fuel now _ _) as [n3 o3]. constructor; [reflexivity|exact IH].
Qed.
Lemma working_stamps cur later n : Forall (fun o => stamps c o = []) (snd (working pq vt c cur later n)).
Proof.
  unfold working. destruct (n_toggled n); [|constructor]. rewrite (integrate_eq pq vt c Hpq). unfold catch_up.
  destruct (n_queue n) as [|m q].
  - destruct (fb_initialized (n_filter n) && projects c cur n)%bool; cbn; repeat constructor.
  - destruct (revert_if_lagged pq c n) as [restored n0].
    pose proof (loop_stamps (List.length (n_queue n0)) cur restored n0) as H.
    destruct (integrate_loop pq vt c (List.length (n_queue n0)) cur restored n0) as [n1 o1]. cbn [snd] in H.
    destruct (fb_initialized (n_filter n1) && projects c cur n)%bool; cbn [snd]; [|exact H].
    apply Forall_app. split; [exact H|repeat constructor].
Qed.

Lemma cycle_stamps T cur later lookup n :
  (fb_initialized (n_filter (fst (working pq vt c cur later n))) = true -> fb_last_time (n_filter (fst (working pq vt c cur later n))) = T) ->
  Forall (fun t => t = T) (List.concat (map (stamps c) (snd (periodicUpdate pq vt c cur later lookup n)))).
Proof.
  intros H. destruct (n_enabled n) eqn:En; [|unfold periodicUpdate; rewrite En; constructor].
  rewrite (cycle_eq pq vt c cur later lookup n En). pose proof (working_stamps cur later n) as Hw.
  destruct (working pq vt c cur later n) as [n1 o1]. cbn [fst snd] in *.
  rewrite !map_app, !concat_app, (fuse_stamps o1 Hw). cbn [app]. apply Forall_app. split; [apply visible_stamp; exact H|].
  destruct (diag_due c cur n1); constructor.
Qed.

Lemma current_stamps cur later lookup n : n_toggled n = true -> c_predict_now c = true ->
  Forall (fun t => t = cur) (List.concat (map (stamps c) (snd (periodicUpdate pq vt c cur later lookup n)))).
Proof.
  intros Ht Hp. apply cycle_stamps. unfold working. rewrite Ht.
  pose proof (integrate_current cur n Hp) as H. destruct (integrateMeasurements pq vt c cur n) as [n0 o]. cbn [fst] in *.
  destruct (diff_fields cur n0) as (-> & _). exact H.
Qed.
Lemma toggled_stamps cur later lookup n : n_toggled n = false ->
  Forall (fun t => t = later) (List.concat (map (stamps c) (snd (periodicUpdate pq vt c cur later lookup n)))).
Proof.
  intros Ht. apply cycle_stamps. unfold working. rewrite Ht. cbn [fst].
  destruct (fb_initialized (n_filter n)) eqn:Hi; [intros _; reflexivity|]. cbn. congruence.
Qed.

(** ** No stamps from the future *)
Lemma cycle_past N cur later lookup n : node_inv c N n -> N <= cur -> cur <= later ->
  Forall (fun t => t <= later) (List.concat (map (stamps c) (snd (periodicUpdate pq vt c cur later lookup n)))).
Proof.
  intros Hi H1 H2. pose proof (working_inv pq vt c Hpq Hvt N cur later n Hi H1 H2) as Hw.
  set (f := n_filter (fst (working pq vt c cur later n))).
  pose proof (cycle_stamps (fb_last_time f) cur later lookup n (fun _ => eq_refl)) as H.
  destruct (fb_initialized f) eqn:EI.
  - eapply Forall_impl; [|exact H]. intros t ->. unfold f in *. exact (ni_clock _ _ _ Hw EI).
  - pose proof (cycle_stamps (later) cur later lookup n) as H'. fold f in H'. rewrite EI in H'.
    eapply Forall_impl; [|apply H'; discriminate]. intros t ->. lia.
Qed.

Lemma start_past f ang ctl dis now t0 es cur later lookup : fb_initialized f = false -> monotone_clock t0 (es ++ [EvCycle cur later lookup]) ->
  Forall (fun t => t <= later) (List.concat (map (stamps c)
    (snd (periodicUpdate pq vt c cur later lookup (fst (node_run pq vt c (node_init f ang ctl dis now) es)))))).
Proof.
  intros Hf Hm. assert (G : forall es N n, node_inv c N n -> monotone_clock N (es ++ [EvCycle cur later lookup]) ->
    Forall (fun t => t <= later) (List.concat (map (stamps c) (snd (periodicUpdate pq vt c cur later lookup (fst (node_run pq vt c n es))))))).
  { clear - Hpq Hvt. induction es as [|e es IH]; intros N n Hi Hm; cbn [app] in Hm; apply monotone_cons in Hm; destruct Hm as (Hc & Hm).
    - cbn [node_run fst]. unfold clock_ok in Hc. cbn in Hc.
      inversion Hc as [|x l Hs Hg]; subst. inversion Hs as [|x' l' Hs' Hg']; subst. inversion Hg; subst. inversion Hg'; subst.
      apply (cycle_past N); assumption.
    - pose proof (step_inv pq vt c Hpq Hvt N n e Hi Hc) as Hs. cbn [node_run].
      destruct (node_step pq vt c n e) as [n1 o1]. cbn [fst] in Hs. specialize (IH _ n1 Hs Hm).
      destruct (node_run pq vt c n1 es) as [n2 o2]. exact IH. }
  exact (G es t0 _ (init_inv c f ang ctl dis now t0 Hf) Hm).
Qed.

Lemma start_span f ang ctl dis now es B : fb_initialized f = false -> Forall (fun t => 0 <= t <= B) (all_brought es) ->
  let o := snd (node_run pq vt c (node_init f ang ctl dis now) es) in
  (forall r d, In (OutPredict r d) o -> - B <= d <= B) /\
  (forall g m, In (OutFused g m) o -> fb_initialized g = true -> - B <= m_time m - fb_last_time g <= B).
Proof.
  intros Hf HB o. destruct (start_times f ang ctl dis now es Hf) as (_ & Ho). fold o in Ho.
  rewrite Forall_forall in HB, Ho. split.
  - intros r d Hi. destruct (Ho _ Hi) as (A & A'). pose proof (HB _ A). pose proof (HB _ A'). lia.
  - intros g m Hi Hg. destruct (Ho _ Hi) as (A & A'). pose proof (HB _ A). pose proof (HB _ (A' Hg)). lia.
Qed.
End Times.
