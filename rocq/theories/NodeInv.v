(** * Invariants of node executions *)

From Coq Require Import ZArith List Permutation Sorting.Sorted Bool Lia String Arith.
From Verif Require Import Scalar Mat FilterBase Tf StrMap Diagnostics RosFilter SpecNode NodeProofs.
Import ListNotations.
Local Open Scope Z_scope.

Section Times.
Context {K : Scalar} {E : Type}.
Variable vt : vtbl K E.
Hypothesis Hvt : time_neutral vt.

Lemma process_time (s : fb K E) m :
  fb_last_time (processMeasurement vt s m) =
    (if fb_initialized s then Z.max (fb_last_time s) (m_time m) else m_time m) /\
  fb_initialized (processMeasurement vt s m) = true.
Proof.
  unfold processMeasurement. destruct Hvt as [Hp Hc]. destruct (fb_initialized s) eqn:Hi.
  - set (s1 := if m_time m - fb_last_time s >? 0 then _ else s).
    assert (H1 : fb_last_time s1 = fb_last_time s /\ fb_initialized s1 = true).
    { subst s1. destruct (m_time m - fb_last_time s >? 0); [|split; [reflexivity|assumption]].
      destruct (Hp s (m_time m) (m_time m - fb_last_time s)) as [A B]. cbn. rewrite A, B. split; [reflexivity|assumption]. }
    destruct H1 as [H1 H2]. destruct (Hc s1 m) as [C1 C2].
    rewrite Z.geb_leb. destruct (Z.leb_spec 0 (m_time m - fb_last_time s)).
    + cbn. rewrite C2. split; [lia|assumption].
    + rewrite C1, C2, H1. split; [lia|assumption].
  - cbn. split; reflexivity.
Qed.
End Times.

Section Inv.
Context {K : Scalar} {E : Type}.
Variable pq : pqueue K.
Variable vt : vtbl K E.
Variable c : config K.
Hypothesis Hpq : pq_ok pq.
Hypothesis Hvt : time_neutral vt.

Definition covered (n : node K E) : Prop :=
  forall m, In m (n_meas_hist n) -> exists s, In s (n_state_hist n) /\ m_time m <= fs_time s.

Record node_inv (N : Z) (n : node K E) : Prop := mkInv {
  ni_smooth : c_smooth c = false -> n_meas_hist n = [] /\ n_state_hist n = [];
  ni_init : n_state_hist n <> [] -> fb_initialized (n_filter n) = true;
  ni_clock : fb_initialized (n_filter n) = true -> fb_last_time (n_filter n) <= N;
  ni_msort : StronglySorted (by_key m_time) (n_meas_hist n);
  ni_ssort : StronglySorted (by_key fs_time) (n_state_hist n);
  ni_mle : forall m, In m (n_meas_hist n) -> m_time m <= fb_last_time (n_filter n);
  ni_sle : forall s, In s (n_state_hist n) -> fs_time s <= fb_last_time (n_filter n);
  ni_cover : covered n
}.

Lemma inv_meas_init N n : node_inv N n -> n_meas_hist n <> [] -> n_state_hist n <> [].
Proof.
  intros H Hne. destruct (n_meas_hist n) as [|m l] eqn:Hm; [congruence|].
  destruct (ni_cover _ _ H m) as (s & Hs & _); [rewrite Hm; left; reflexivity|].
  intros Hz; rewrite Hz in Hs; destruct Hs.
Qed.

(** in-loop invariant *)
Record loop_inv (now : Z) (n : node K E) : Prop := mkLInv {
  li_smooth : c_smooth c = false -> n_meas_hist n = [] /\ n_state_hist n = [];
  li_init : n_state_hist n <> [] -> fb_initialized (n_filter n) = true;
  li_minit : n_meas_hist n <> [] -> fb_initialized (n_filter n) = true;
  li_clock : fb_initialized (n_filter n) = true -> fb_last_time (n_filter n) <= now;
  li_msort : StronglySorted (by_key m_time) (n_meas_hist n);
  li_ssort : StronglySorted (by_key fs_time) (n_state_hist n);
  li_queue : forall m x, In m (n_meas_hist n) -> In x (n_queue n) -> c_smooth c = true -> m_time m <= m_time x;
  li_sle : forall s, In s (n_state_hist n) -> fs_time s <= fb_last_time (n_filter n);
  li_cover : (covered n /\ forall m, In m (n_meas_hist n) -> m_time m <= fb_last_time (n_filter n)) \/
             exists m, In m (n_queue n) /\ m_time m <= now
}.

Lemma loop_filter_time restored f m :
  fb_last_time (loop_filter c restored f m) = fb_last_time f /\
  fb_initialized (loop_filter (E:=E) c restored f m) = fb_initialized f.
Proof. unfold loop_filter. destruct (loop_control c restored); split; reflexivity. Qed.

Lemma loop_node_inv now restored n m rest :
  loop_inv now n -> pq_pop pq (n_queue n) = Some (m, rest) -> m_time m <= now ->
  loop_inv now (loop_node pq vt c restored n m rest).
Proof.
  intros H Hpop Hle.
  pose proof (pop_perm pq Hpq _ _ _ Hpop) as Hperm.
  pose proof (pop_min pq Hpq _ _ _ Hpop) as Hmin.
  assert (Hin : In m (n_queue n)) by (eapply Permutation_in; [apply Permutation_sym, Hperm|left; reflexivity]).
  assert (Hrest : forall x, In x rest -> In x (n_queue n)).
  { intros x Hx. eapply Permutation_in; [apply Permutation_sym, Hperm|right; assumption]. }
  set (f1 := loop_filter c restored (n_filter n) m).
  destruct (loop_filter_time restored (n_filter n) m) as [F1 F2]. fold f1 in F1, F2.
  destruct (process_time vt Hvt f1 m) as [T1 T2]. rewrite F1, F2 in T1.
  set (f2 := processMeasurement vt f1 m) in *.
  assert (Hold : n_state_hist n <> [] -> fb_last_time (n_filter n) <= fb_last_time f2).
  { intros Hne. rewrite T1, (li_init _ _ H Hne). lia. }
  assert (Hm2 : m_time m <= fb_last_time f2).
  { rewrite T1. destruct (fb_initialized (n_filter n)); lia. }
  assert (Hnow2 : fb_last_time f2 <= now).
  { rewrite T1. destruct (fb_initialized (n_filter n)) eqn:Hi; [|lia]. pose proof (li_clock _ _ H Hi). lia. }
  assert (Hs2 : forall s, In s (n_state_hist n) -> fs_time s <= fb_last_time f2).
  { intros s Hs. assert (Hne : n_state_hist n <> []) by (intros Hz; rewrite Hz in Hs; destruct Hs).
    pose proof (li_sle _ _ H s Hs). specialize (Hold Hne). lia. }
  unfold loop_node. fold f1. fold f2.
  constructor; cbn [n_meas_hist n_state_hist n_filter n_queue].
  - intros Hsm. destruct (li_smooth _ _ H Hsm) as [-> ->]. rewrite Hsm. split; reflexivity.
  - intros _. exact T2.
  - intros _. exact T2.
  - intros _. exact Hnow2.
  - destruct (c_smooth c) eqn:Hsm; [|apply (li_msort _ _ H)].
    apply SS_snoc; [apply (li_msort _ _ H)|]. intros a Ha. apply (li_queue _ _ H a m Ha Hin Hsm).
  - destruct (c_smooth c && loop_saves pq rest f2)%bool; [|apply (li_ssort _ _ H)].
    apply SS_snoc; [apply (li_ssort _ _ H)|]. exact Hs2.
  - intros a x Ha Hx Hsm. rewrite Hsm in Ha. apply in_app_or in Ha. destruct Ha as [Ha|[<-|[]]].
    + apply (li_queue _ _ H a x Ha (Hrest x Hx) Hsm).
    + apply Hmin. apply Hrest; assumption.
  - intros s Hs. destruct (c_smooth c && loop_saves pq rest f2)%bool; [|apply Hs2; assumption].
    apply in_app_or in Hs. destruct Hs as [Hs|[<-|[]]]; [apply Hs2; assumption|cbn; lia].
  - destruct (c_smooth c) eqn:Hsm; cbn [andb].
    2:{ left. destruct (li_smooth _ _ H Hsm) as [Hz1 Hz2]. unfold covered.
        cbn [n_meas_hist n_state_hist]. rewrite Hz1. split; intros x []. }
    assert (Hall : forall a, In a (n_meas_hist n ++ [m]) -> m_time a <= fb_last_time f2).
    { intros a Ha. apply in_app_or in Ha. destruct Ha as [Ha|[<-|[]]]; [|assumption].
      pose proof (li_queue _ _ H a m Ha Hin Hsm). lia. }
    unfold loop_saves. destruct (pq_pop pq rest) as [[top r']|] eqn:Hp2.
    + destruct (Z.eqb_spec (m_time top) (fb_last_time f2)) as [He|Hne]; cbn [negb].
      * right. exists top. split; [|lia]. cbn.
        eapply Permutation_in; [apply Permutation_sym, (pop_perm pq Hpq _ _ _ Hp2)|left; reflexivity].
      * left. unfold covered; cbn [n_meas_hist n_state_hist]. split; [|exact Hall].
        intros a Ha. exists (snapshot f2). split; [apply in_or_app; right; left; reflexivity|].
        apply Hall; assumption.
    + left. unfold covered; cbn [n_meas_hist n_state_hist]. split; [|exact Hall].
      intros a Ha. exists (snapshot f2). split; [apply in_or_app; right; left; reflexivity|].
      apply Hall; assumption.
Qed.

Lemma loop_keeps fuel : forall now restored n n' o,
  loop_inv now n -> integrate_loop pq vt c fuel now restored n = (n', o) -> loop_inv now n'.
Proof.
  induction fuel as [|fuel IH]; intros now restored n n' o H Hrun.
  - cbn in Hrun. injection Hrun as <- _. exact H.
  - rewrite loop_step in Hrun. destruct (pq_pop pq (n_queue n)) as [[m rest]|] eqn:Hpop.
    2:{ injection Hrun as <- _. exact H. }
    destruct (Z.ltb_spec now (m_time m)).
    { injection Hrun as <- _. exact H. }
    destruct (integrate_loop pq vt c fuel now (loop_count c restored) (loop_node pq vt c restored n m rest))
      as [n3 o3] eqn:Hrec. injection Hrun as <- _.
    eapply IH; [|exact Hrec]. apply loop_node_inv; [exact H|exact Hpop|lia].
Qed.

Lemma loop_end fuel now restored n n' o :
  (List.length (n_queue n) <= fuel)%nat ->
  loop_inv now n -> integrate_loop pq vt c fuel now restored n = (n', o) -> node_inv now n'.
Proof.
  intros Hlen H Hrun. pose proof (loop_keeps _ _ _ _ _ _ H Hrun) as H'.
  pose proof (loop_spec pq vt c Hpq _ _ _ _ _ _ Hlen Hrun) as (_ & _ & Hgt & _).
  destruct H' as [a b b' d e f g h i].
  assert (Hc : covered n' /\ forall m, In m (n_meas_hist n') -> m_time m <= fb_last_time (n_filter n')).
  { destruct i as [i|(m & Hm & Hle)]; [exact i|]. rewrite Forall_forall in Hgt. specialize (Hgt m Hm). cbn in Hgt. lia. }
  destruct Hc as [Hc1 Hc2]. constructor; assumption.
Qed.

Lemma revert_inv N now n : node_inv N n -> N <= now ->
  let '(restored, n0) := revert_if_lagged pq c n in loop_inv now n0.
Proof.
  intros H HN. unfold revert_if_lagged.
  destruct (pq_pop pq (n_queue n)) as [[first r]|] eqn:Hpop.
  2:{ (* empty queue *)
      assert (Hq := pop_none pq Hpq _ Hpop). destruct H. constructor; try assumption.
      - intros Hne. apply ni_init0. apply (inv_meas_init N n); [constructor; assumption|assumption].
      - intros Hi. specialize (ni_clock0 Hi). lia.
      - intros m x _ Hx. rewrite Hq in Hx. destruct Hx.
      - left. split; assumption. }
  pose proof (pop_perm pq Hpq _ _ _ Hpop) as Hperm.
  pose proof (pop_min pq Hpq _ _ _ Hpop) as Hmin.
  destruct (c_smooth c && (m_time first <? fb_last_time (n_filter n)))%bool eqn:Hb.
  2:{ assert (Hmi : n_meas_hist n <> [] -> fb_initialized (n_filter n) = true).
      { intros Hne. apply (ni_init _ _ H). apply (inv_meas_init N n H Hne). }
      destruct H. constructor; try assumption.
      - intros Hi. specialize (ni_clock0 Hi). lia.
      - intros m x Hm Hx Hsm. rewrite Hsm in Hb. cbn in Hb. apply Z.ltb_ge in Hb.
        specialize (Hmin x Hx). specialize (ni_mle0 m Hm). lia.
      - left. split; assumption. }
  apply andb_true_iff in Hb. destruct Hb as [Hsm Hlt]. apply Z.ltb_lt in Hlt.
  pose proof (revert_cases pq Hpq n (m_time first - 1)) as Hr.
  destruct (revertTo pq n (m_time first - 1)) as [ok n0]. cbn [snd].
  destruct Hr as [(Hz & _ & ->)|Hr].
  { assert (Hm : n_meas_hist n = []).
    { destruct (n_meas_hist n) eqn:Hm; [reflexivity|]. exfalso.
      apply (inv_meas_init N n H); [rewrite Hm; discriminate|assumption]. }
    destruct H. constructor; try assumption.
    - intros Hne; congruence.
    - intros Hi. specialize (ni_clock0 Hi). lia.
    - intros m x Hmm. rewrite Hm in Hmm. destruct Hmm.
    - left. split; assumption. }
  assert (Hcom : exists s kept, In s (n_state_hist n) /\
      StronglySorted (by_key fs_time) kept /\ (forall x, In x kept -> fs_time x <= fs_time s) /\
      (kept <> [] -> n_state_hist n <> []) /\
      revert_to_snapshot n n0 (m_time first - 1) s kept).
  { pose proof (ni_ssort _ _ H) as Hss. destruct Hr as [(pre & s & post & Hl & Hs & Hp & _ & Hrs)|(s & post & Hl & _ & _ & Hrs)].
    - exists s, (pre ++ [s]). rewrite Hl in *. split; [apply in_or_app; right; left; reflexivity|].
      replace (pre ++ s :: post) with ((pre ++ [s]) ++ post) in Hss by (rewrite <- app_assoc; reflexivity).
      apply SS_app in Hss. destruct Hss as (H1 & _ & _). split; [assumption|]. split.
      + intros x Hx. apply SS_app in H1. destruct H1 as (_ & _ & H1).
        apply in_app_or in Hx. destruct Hx as [Hx|[<-|[]]]; [apply H1; [assumption|left; reflexivity]|lia].
      + split; [|exact Hrs]. intros _ Hz. destruct pre; discriminate.
    - exists s, []. rewrite Hl. split; [left; reflexivity|]. split; [constructor|].
      split; [intros x []|]. split; [congruence|exact Hrs]. }
  destruct Hcom as (s & kept & Hins & Hks & Hkle & Hkne & (Hf & Hsh & (d & Hmh & Hd & Hlast & Hq) & _)).
  assert (Hne : n_state_hist n <> []) by (intros Hz; rewrite Hz in Hins; destruct Hins).
  assert (Hinit : fb_initialized (n_filter n) = true) by (apply (ni_init _ _ H Hne)).
  assert (Hinit0 : fb_initialized (n_filter n0) = true) by (rewrite Hf; exact Hinit).
  assert (Htime : fb_last_time (n_filter n0) = fs_time s) by (rewrite Hf; reflexivity).
  pose proof (ni_msort _ _ H) as Hms. rewrite Hmh in Hms. apply SS_app in Hms. destruct Hms as (Hms & _ & _).
  pose proof (ni_clock _ _ H Hinit) as Hclk. pose proof (ni_sle _ _ H s Hins) as Hsl.
  constructor.
  - intros Hz; congruence.
  - intros _; exact Hinit0.
  - intros _; exact Hinit0.
  - intros _. rewrite Htime. lia.
  - exact Hms.
  - rewrite Hsh. exact Hks.
  - intros m x Hm Hx _.
    assert (Hmt : m_time m <= m_time first - 1).
    { destruct Hlast as [Hz|(k' & y & Hk & Hy)]; [rewrite Hz in Hm; destruct Hm|].
      rewrite Hk in Hm, Hms. apply SS_app in Hms. destruct Hms as (_ & _ & Hms).
      apply in_app_or in Hm. destruct Hm as [Hm|[<-|[]]]; [|assumption].
      specialize (Hms m y Hm (or_introl eq_refl)). lia. }
    eapply Permutation_in in Hx; [|exact Hq]. apply in_app_or in Hx. destruct Hx as [Hx|Hx].
    + specialize (Hmin x Hx). lia.
    + apply filter_In in Hx. destruct Hx as [Hx _]. rewrite Forall_forall in Hd. specialize (Hd x Hx). cbn in Hd. lia.
  - rewrite Hsh, Htime. exact Hkle.
  - right. exists first. split; [|lia].
    eapply Permutation_in; [apply Permutation_sym, Hq|]. apply in_or_app; left.
    eapply Permutation_in; [apply Permutation_sym, Hperm|left; reflexivity].
Qed.

Lemma catch_up_inv N now n : node_inv N n -> N <= now ->
  node_inv now (fst (catch_up pq vt c now n)).
Proof.
  intros H HN. unfold catch_up. destruct (n_queue n) as [|m q] eqn:Hq.
  - cbn. destruct H; constructor; try assumption. intros Hi. specialize (ni_clock0 Hi). lia.
  - pose proof (revert_inv N now n H HN) as Hr. destruct (revert_if_lagged pq c n) as [restored n0].
    destruct (integrate_loop pq vt c (List.length (n_queue n0)) now restored n0) as [n1 o1] eqn:Hl.
    cbn. eapply loop_end; [|exact Hr|exact Hl]. lia.
Qed.

Lemma project_time now n : fb_last_time (n_filter (project vt now n)) = now /\
  fb_initialized (n_filter (project vt now n)) = fb_initialized (n_filter n).
Proof.
  unfold project. cbn. destruct Hvt as [Hp _]. destruct (Hp (n_filter n) now (now - fb_last_time (n_filter n))) as [A B].
  rewrite A, B. split; [lia|reflexivity].
Qed.

Lemma raise_inv N N' n f : node_inv N n -> N <= N' ->
  fb_initialized f = fb_initialized (n_filter n) ->
  (fb_initialized f = true -> fb_last_time (n_filter n) <= fb_last_time f <= N') ->
  (fb_initialized f = false -> n_meas_hist n = [] /\ n_state_hist n = []) ->
  node_inv N' (with_filter n f).
Proof.
  intros H HN Hi Ht Hf. destruct (fb_initialized f) eqn:Hfi.
  - specialize (Ht eq_refl). destruct H; constructor; cbn; try assumption.
    + intros _; assumption.
    + intros _; lia.
    + intros m Hm. specialize (ni_mle0 m Hm). lia.
    + intros s Hs. specialize (ni_sle0 s Hs). lia.
  - destruct (Hf eq_refl) as [H1 H2]. constructor; unfold covered; cbn; rewrite ?H1, ?H2; try (intros x []; fail);
      try constructor; try congruence.
Qed.

Lemma uninit_hist N n : node_inv N n -> fb_initialized (n_filter n) = false ->
  n_meas_hist n = [] /\ n_state_hist n = [].
Proof.
  intros H Hi. assert (Hs : n_state_hist n = []).
  { destruct (n_state_hist n) eqn:Hs; [reflexivity|]. rewrite (ni_init _ _ H) in Hi; [discriminate|].
    rewrite Hs; discriminate. }
  split; [|exact Hs]. destruct (n_meas_hist n) eqn:Hm; [reflexivity|]. exfalso.
  apply (inv_meas_init _ _ H); [rewrite Hm; discriminate|assumption].
Qed.

Lemma integrate_inv N now n : node_inv N n -> N <= now ->
  node_inv now (fst (integrateMeasurements pq vt c now n)).
Proof.
  intros H HN. rewrite (integrate_eq pq vt c Hpq). pose proof (catch_up_inv N now n H HN) as Hc.
  destruct (catch_up pq vt c now n) as [n1 o1]. cbn in Hc.
  destruct (fb_initialized (n_filter n1) && projects c now n)%bool eqn:Hb; [|exact Hc].
  cbn. apply andb_true_iff in Hb. destruct Hb as [Hi _].
  destruct (project_time now n1) as [T1 T2].
  change (project vt now n1) with (with_filter n1 (n_filter (project vt now n1))).
  apply (raise_inv now); [exact Hc|lia|exact T2| |].
  - intros _. rewrite T1. pose proof (ni_clock _ _ Hc Hi). lia.
  - intros Hz. rewrite T2 in Hz. congruence.
Qed.

Lemma inv_ext N n n' : node_inv N n ->
  n_filter n' = n_filter n -> n_meas_hist n' = n_meas_hist n -> n_state_hist n' = n_state_hist n ->
  node_inv N n'.
Proof.
  intros [a b d e f g h i] H1 H2 H3. unfold covered in i.
  constructor; unfold covered; rewrite ?H1, ?H2, ?H3; assumption.
Qed.

Lemma inv_empty N n : n_meas_hist n = [] -> n_state_hist n = [] ->
  (fb_initialized (n_filter n) = true -> fb_last_time (n_filter n) <= N) -> node_inv N n.
Proof.
  intros H1 H2 H3. constructor; unfold covered; rewrite ?H1, ?H2; try assumption; try constructor; try reflexivity; try congruence;
    intros x [].
Qed.

Lemma concluded_inv N cur n : node_inv N n -> node_inv N (concluded c cur n).
Proof.
  intros H. set (t := fb_last_time (n_filter n) - c_history c).
  unfold concluded. fold t. destruct (c_smooth c) eqn:Hsm.
  2:{ apply (inv_ext N n _ H); reflexivity. }
  pose proof (pop_front_sorted m_time t (n_meas_hist n) (ni_msort _ _ H)) as Em.
  pose proof (pop_front_sorted fs_time t (n_state_hist n) (ni_ssort _ _ H)) as Es.
  destruct (pop_front_while_suffix (fun m => m_time m <? t) (n_meas_hist n)) as (d1 & Hd1 & _).
  destruct (pop_front_while_suffix (fun s => fs_time s <? t) (n_state_hist n)) as (d2 & Hd2 & _).
  constructor; cbn [n_meas_hist n_state_hist n_filter].
  - congruence.
  - intros Hne. apply (ni_init _ _ H). intros Hz. apply Hne. rewrite Hz. reflexivity.
  - apply (ni_clock _ _ H).
  - pose proof (ni_msort _ _ H) as Hs. rewrite Hd1 in Hs. apply SS_app in Hs. tauto.
  - pose proof (ni_ssort _ _ H) as Hs. rewrite Hd2 in Hs. apply SS_app in Hs. tauto.
  - intros m Hm. apply pop_front_while_incl in Hm. apply (ni_mle _ _ H m Hm).
  - intros s Hs. apply pop_front_while_incl in Hs. apply (ni_sle _ _ H s Hs).
  - unfold covered; cbn [n_meas_hist n_state_hist]. rewrite Em, Es. intros m Hm.
    apply filter_In in Hm. destruct Hm as [Hm Ht]. apply Z.leb_le in Ht.
    destruct (ni_cover _ _ H m Hm) as (s & Hs & Hle). exists s. split; [|exact Hle].
    apply filter_In. split; [exact Hs|]. apply Z.leb_le. lia.
Qed.

Lemma working_inv N cur later n : node_inv N n -> N <= cur -> cur <= later ->
  node_inv later (fst (working pq vt c cur later n)).
Proof.
  intros H H1 H2. unfold working. destruct (n_toggled n).
  - pose proof (integrate_inv N cur n H H1) as Hi.
    destruct (integrateMeasurements pq vt c cur n) as [n0 o]. cbn in Hi |- *.
    destruct (diff_fields cur n0) as (A & _ & B & D & _).
    apply (inv_ext later n0); try assumption. destruct Hi; constructor; try assumption.
    intros Hi. specialize (ni_clock0 Hi). lia.
  - cbn. destruct (fb_initialized (n_filter n)) eqn:Hi.
    + apply (raise_inv N later (with_queue n []) (set_last_time (n_filter n) later)).
      * apply (inv_ext N n _ H); reflexivity.
      * lia.
      * reflexivity.
      * cbn. intros _. pose proof (ni_clock _ _ H Hi). lia.
      * cbn. intros Hz; congruence.
    + destruct (uninit_hist N n H Hi) as [Z1 Z2]. apply inv_empty; cbn; try assumption. congruence.
Qed.

Lemma cycle_inv N cur later lookup n : node_inv N n -> N <= cur -> cur <= later ->
  node_inv later (fst (periodicUpdate pq vt c cur later lookup n)).
Proof.
  intros H H1 H2. destruct (n_enabled n) eqn:He.
  - rewrite (cycle_eq pq vt c cur later lookup n He).
    pose proof (working_inv N cur later n H H1 H2) as Hw.
    destruct (working pq vt c cur later n) as [n1 o1]. cbn in Hw |- *.
    apply concluded_inv; exact Hw.
  - unfold periodicUpdate. rewrite He. cbn. destruct H; constructor; try assumption.
    intros Hi. specialize (ni_clock0 Hi). lia.
Qed.

Lemma sensor_fields warn topic stamp upd thresh prep (n : node K E) :
  let n' := fst (sensorCallback pq warn topic stamp upd thresh prep n) in
  n_filter n' = n_filter n /\ n_meas_hist n' = n_meas_hist n /\ n_state_hist n' = n_state_hist n /\
  n_set_pose n' = n_set_pose n /\ n_toggled n' = n_toggled n /\ n_enabled n' = n_enabled n /\
  n_last_pub n' = n_last_pub n.
Proof.
  unfold sensorCallback. destruct (n_set_pose n >=? stamp).
  { destruct warn; repeat split. }
  destruct (sm_mem (n_last_msg n) topic).
  - destruct (sm_find (n_last_msg n) topic); [|repeat split].
    destruct (z <=? stamp); [|repeat split]. cbv zeta. destruct (pr_ok _); repeat split.
  - cbn [with_last_msg n_last_msg].
    destruct (sm_find (sm_set (n_last_msg n) topic stamp) topic); [|repeat split].
    destruct (z <=? stamp); [|repeat split]. cbv zeta. destruct (pr_ok _); repeat split.
Qed.

(** the clock reading reached after an event *)
Definition clock_after (t : Z) (e : event K E) : Z := last (readings e) t.
Definition clock_ok (t : Z) (e : event K E) : Prop := StronglySorted Z.le (t :: readings e).

Lemma step_inv N n e : node_inv N n -> clock_ok N e ->
  node_inv (clock_after N e) (fst (node_step pq vt c n e)).
Proof.
  intros H Hc. destruct e as [warn topic stamp upd thresh prep|frame ctl stamp|on| | |stamp prep now| |cur later lookup];
    cbn [node_step].
  - destruct (sensor_fields warn topic stamp upd thresh prep n) as (A & B & D & _).
    apply (inv_ext N n _ H); assumption.
  - cbn. unfold controlStampedCallback. destruct (_ || _)%bool; [|exact H].
    cbn. destruct H as [a b d e f g h i]; constructor; assumption.
  - cbn. unfold toggleFilterProcessingCallback. destruct (Bool.eqb on (n_toggled n)); [exact H|].
    apply (inv_ext N n _ H); reflexivity.
  - cbn. unfold enableFilterSrvCallback. destruct (n_enabled n); [exact H|].
    apply (inv_ext N n _ H); reflexivity.
  - cbn. apply inv_empty; [reflexivity|reflexivity|]. cbn. discriminate.
  - cbn. apply inv_empty; [reflexivity|reflexivity|]. cbn. intros _. lia.
  - cbn. apply (inv_ext N n _ H); reflexivity.
  - cbn [clock_after readings last]. unfold clock_ok in Hc. cbn in Hc.
    inversion Hc as [|x l Hs Hf]; subst. inversion Hs as [|x' l' Hs' Hf']; subst.
    inversion Hf; subst. inversion Hf'; subst. apply (cycle_inv N); assumption.
Qed.

Lemma monotone_cons t e es : monotone_clock t (e :: es) ->
  clock_ok t e /\ monotone_clock (clock_after t e) es.
Proof.
  unfold monotone_clock, clock_ok, clock_after. cbn [map List.concat].
  generalize (List.concat (map readings es)). generalize (readings e). intros l1 l2 H.
  change (t :: l1 ++ l2) with ((t :: l1) ++ l2) in H. change (by_key (fun z : Z => z)) with Z.le in *.
  apply (SS_app (fun z => z)) in H. destruct H as (H1 & H2 & H3). split; [exact H1|].
  constructor; [exact H2|]. apply Forall_forall. intros x Hx. apply H3; [|exact Hx].
  clear. destruct l1 as [|a l1]; [left; reflexivity|right].
  revert a; induction l1 as [|b l1 IH]; intros a; [left; reflexivity|right; apply IH].
Qed.

Definition clock_end (t : Z) (es : list (event K E)) : Z := fold_left clock_after es t.

Lemma run_inv es : forall N n, node_inv N n -> monotone_clock N es ->
  node_inv (clock_end N es) (fst (node_run pq vt c n es)).
Proof.
  induction es as [|e es IH]; intros N n H Hm; [exact H|].
  apply monotone_cons in Hm. destruct Hm as [Hc Hm].
  pose proof (step_inv N n e H Hc) as Hs. cbn [node_run].
  destruct (node_step pq vt c n e) as [n1 o1]. cbn in Hs.
  specialize (IH _ n1 Hs Hm). destruct (node_run pq vt c n1 es) as [n2 o2]. exact IH.
Qed.

Lemma init_inv f ang ctl dis now N : fb_initialized f = false ->
  node_inv N (node_init f ang ctl dis now).
Proof. intros H. apply inv_empty; [reflexivity|reflexivity|]. cbn. congruence. Qed.
End Inv.
