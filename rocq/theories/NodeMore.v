(** * Reversion, replay, services, reset *)

From Coq Require Import ZArith List Permutation Sorting.Sorted Bool Lia String Arith.
From Verif Require Import Scalar Mat FilterBase Tf StrMap Diagnostics RosFilter SpecNode NodeProofs NodeInv NodeFacts NodeTime NodeSmooth.
Import ListNotations.
Local Open Scope Z_scope.

(** ** A concrete queue *)
Fixpoint take_min {K : Scalar} (q : list (meas K)) : option (meas K * list (meas K)) :=
  match q with
  | [] => None
  | m :: r =>
      match take_min r with
      | None => Some (m, [])
      | Some (x, r') => if meas_later m x then Some (x, m :: r') else Some (m, r)
      end
  end.
Definition list_pq (K : Scalar) : pqueue K := mkPq (fun m q => m :: q) take_min.

Lemma take_min_none {K : Scalar} (q : list (meas K)) : take_min q = None <-> q = [].
Proof.
  destruct q as [|m q]; [split; reflexivity|]. cbn. split; [|discriminate].
  destruct (take_min q) as [[x r]|]; [destruct (meas_later m x)|]; discriminate.
Qed.

Lemma list_pq_ok K : pq_ok (list_pq K).
Proof.
  split; [intros m q; apply Permutation_refl|]. split; [apply take_min_none|].
  cbn. intros q. induction q as [|a q IH]; intros m r H; [discriminate|]. cbn in H.
  destruct (take_min q) as [[x r']|] eqn:Hq.
  - destruct (IH _ _ eq_refl) as [Hp Hm]. unfold meas_later in *.
    destruct (Z.gtb_spec (m_time a) (m_time x)); injection H as <- <-.
    + split.
      * eapply Permutation_trans; [apply perm_skip, Hp|]. apply perm_swap.
      * intros y [<-|Hy]; [destruct (Z.gtb_spec (m_time x) (m_time a)); [lia|reflexivity]|]. auto.
    + split; [apply Permutation_refl|]. intros y [<-|Hy]; [destruct (Z.gtb_spec (m_time a) (m_time a)); [lia|reflexivity]|].
      specialize (Hm y Hy). destruct (Z.gtb_spec (m_time x) (m_time y)); [discriminate|].
      destruct (Z.gtb_spec (m_time a) (m_time y)); [lia|reflexivity].
  - apply take_min_none in Hq. subst q. injection H as <- <-. split; [apply Permutation_refl|].
    intros y [<-|[]]. unfold meas_later. destruct (Z.gtb_spec (m_time a) (m_time a)); [lia|reflexivity].
Qed.

Section Pq.
Context {K : Scalar}.
Variable pq : pqueue K.
Hypothesis Hpq : pq_ok pq.
Lemma pop_single m : pq_pop pq [m] = Some (m, []).
Proof.
  destruct (pq_pop pq [m]) as [[x r]|] eqn:Hp.
  - pose proof (pop_perm pq Hpq _ _ _ Hp) as H. apply Permutation_sym in H. 
    assert (Hl := Permutation_length H). cbn in Hl. destruct r; [|discriminate].
    apply Permutation_length_1_inv in H. congruence.
  - apply (pop_none pq Hpq) in Hp. discriminate.
Qed.
Lemma pop_two q a b : Permutation q [a; b] -> m_time a < m_time b -> pq_pop pq q = Some (a, [b]).
Proof.
  intros Hq Hlt. destruct (pq_pop pq q) as [[x r]|] eqn:Hp.
  2:{ apply (pop_none pq Hpq) in Hp. subst q. apply Permutation_nil in Hq. discriminate. }
  pose proof (pop_perm pq Hpq _ _ _ Hp) as H. pose proof (pop_min pq Hpq _ _ _ Hp) as Hm.
  assert (Hxr : Permutation (x :: r) [a; b]) by (eapply Permutation_trans; [apply Permutation_sym, H|exact Hq]).
  apply Permutation_length_2_inv in Hxr || (apply Permutation_sym in Hxr; apply Permutation_length_2_inv in Hxr).
  destruct Hxr as [He|He].
  - injection He as -> ->. reflexivity.
  - injection He as -> ->. exfalso. specialize (Hm a). 
    assert (In a q) by (eapply Permutation_in; [apply Permutation_sym, Hq|left; reflexivity]). specialize (Hm H0). lia.
Qed.
Lemma push_nil m : pq_push pq m [] = [m].
Proof. apply Permutation_length_1_inv. apply Permutation_sym. apply (push_perm pq Hpq). Qed.
End Pq.

(** ** C29: reverting *)
Section Revert2.
Context {K : Scalar} {E : Type}.
Variable pq : pqueue K.
Hypothesis Hpq : pq_ok pq.

Lemma filter_split {A : Type} (p : A -> bool) a b : Forall (fun x => p x = true) a -> Forall (fun x => p x = false) b ->
  filter p (a ++ b) = a.
Proof. intros Ha Hb. rewrite filter_app, (filter_all p a Ha), (filter_none p b Hb), app_nil_r. reflexivity. Qed.

Lemma revert_exact (n : node K E) t :
  StronglySorted (fun a b => m_time a <= m_time b) (n_meas_hist n) ->
  StronglySorted (fun a b => fs_time a <= fs_time b) (n_state_hist n) ->
  n_state_hist n <> [] ->
  exists pre s post, n_state_hist n = pre ++ s :: post /\
    Forall (fun x => t < fs_time x) post /\
    (fs_time s <= t \/ (pre = [] /\ t < fs_time s)) /\
    fst (revertTo pq n t) = (fs_time s <=? t) /\
    let n' := snd (revertTo pq n t) in
    fb_state (n_filter n') = fs_state s /\ fb_P (n_filter n') = fs_P s /\ fb_last_time (n_filter n') = fs_time s /\
    fb_initialized (n_filter n') = fb_initialized (n_filter n) /\
    fb_control (n_filter n') = fb_control (n_filter n) /\
    n_state_hist n' = filter (fun x => fs_time x <=? t) (n_state_hist n) /\
    n_meas_hist n' = filter (fun m => m_time m <=? t) (n_meas_hist n) /\
    Permutation (n_queue n')
      (n_queue n ++ filter (fun m => (t <? m_time m) && (fs_time s <=? m_time m))%bool (n_meas_hist n)).
Proof.
  intros Hms Hss Hne. pose proof (revert_cases pq Hpq n t) as Hr.
  destruct (revertTo pq n t) as [ok n'] eqn:Hrt. cbn [fst snd].
  assert (Hcore : forall s kept pre post, n_state_hist n = pre ++ s :: post ->
     kept = filter (fun x => fs_time x <=? t) (n_state_hist n) ->
     revert_to_snapshot n n' t s kept ->
     fb_state (n_filter n') = fs_state s /\ fb_P (n_filter n') = fs_P s /\ fb_last_time (n_filter n') = fs_time s /\
     fb_initialized (n_filter n') = fb_initialized (n_filter n) /\
     fb_control (n_filter n') = fb_control (n_filter n) /\
     n_state_hist n' = filter (fun x => fs_time x <=? t) (n_state_hist n) /\
     n_meas_hist n' = filter (fun m => m_time m <=? t) (n_meas_hist n) /\
     Permutation (n_queue n')
      (n_queue n ++ filter (fun m => (t <? m_time m) && (fs_time s <=? m_time m))%bool (n_meas_hist n))).
  { intros s kept pre post Hl Hk (Hf & Hsh & (d & Hmh & Hd & Hlast & Hq) & _).
    rewrite Hf, Hsh, Hk. do 6 (split; [reflexivity|]).
    assert (Hmh' : Forall (fun m => m_time m <= t) (n_meas_hist n')).
    { apply Forall_forall. intros m Hm. rewrite Hmh in Hms. apply (SS_app m_time) in Hms. destruct Hms as (Hms & _ & _).
      destruct Hlast as [Hz|(k' & y & Hk' & Hy)]; [rewrite Hz in Hm; destruct Hm|].
      rewrite Hk' in Hm, Hms. apply (SS_app m_time) in Hms. destruct Hms as (_ & _ & Hms).
      apply in_app_or in Hm. destruct Hm as [Hm|[<-|[]]]; [|assumption].
      specialize (Hms m y Hm (or_introl eq_refl)). lia. }
    split.
    - rewrite Hmh. symmetry. apply filter_split.
      + eapply Forall_impl; [|exact Hmh']. cbn. intros a Ha. apply Z.leb_le. exact Ha.
      + eapply Forall_impl; [|exact Hd]. cbn. intros a Ha. apply Z.leb_gt. exact Ha.
    - rewrite Hmh, filter_app. rewrite (filter_none _ (n_meas_hist n')). 
      2:{ eapply Forall_impl; [|exact Hmh']. cbn. intros a Ha. destruct (Z.ltb_spec t (m_time a)); [lia|reflexivity]. }
      cbn [app]. rewrite (filter_ext_in _ (fun m => fs_time s <=? m_time m)); [exact Hq|].
      intros a Ha. rewrite Forall_forall in Hd. specialize (Hd a Ha). cbn in Hd.
      destruct (Z.ltb_spec t (m_time a)); [reflexivity|lia]. }
  destruct Hr as [(Hz & _)|[(pre & s & post & Hl & Hs & Hpo & -> & Hrs)|(s & post & Hl & Hall & -> & Hrs)]].
  - congruence.
  - exists pre, s, post. split; [exact Hl|]. split; [exact Hpo|]. split; [left; exact Hs|].
    split; [symmetry; apply Z.leb_le; exact Hs|]. cbv zeta.
    apply (Hcore s (pre ++ [s]) pre post Hl); [|exact Hrs].
    rewrite Hl. replace (pre ++ s :: post) with ((pre ++ [s]) ++ post) by (rewrite <- app_assoc; reflexivity).
    symmetry. apply filter_split.
    + apply Forall_forall. intros x Hx. apply Z.leb_le. rewrite Hl in Hss. apply in_app_or in Hx.
      destruct Hx as [Hx|[<-|[]]]; [|exact Hs]. apply (SS_app fs_time) in Hss. destruct Hss as (_ & _ & Hss).
      specialize (Hss x s Hx (or_introl eq_refl)). lia.
    + eapply Forall_impl; [|exact Hpo]. cbn. intros a Ha. apply Z.leb_gt. exact Ha.
  - pose proof (Forall_inv Hall) as Hst. cbn in Hst. exists [], s, post. split; [exact Hl|]. split; [inversion Hall; assumption|].
    split; [right; split; [reflexivity|exact Hst]|].
    split; [symmetry; apply Z.leb_gt; exact Hst|]. cbv zeta.
    apply (Hcore s [] [] post Hl); [|exact Hrs]. rewrite Hl. symmetry. apply filter_none.
    eapply Forall_impl; [|exact Hall]. cbn. intros a Ha. apply Z.leb_gt. exact Ha.
Qed.

Lemma revert_empty (n : node K E) t : n_state_hist n = [] -> revertTo pq n t = (false, n).
Proof.
  intros Hz. pose proof (revert_cases pq Hpq n t) as Hr. destruct (revertTo pq n t) as [ok n'].
  destruct Hr as [(_ & -> & ->)|[(pre & s & post & Hl & _)|(s & post & Hl & _)]]; [reflexivity| |].
  - rewrite Hz in Hl. destruct pre; discriminate.
  - rewrite Hz in Hl. discriminate.
Qed.
End Revert2.

Section More.
Context {K : Scalar} {E : Type}.
Variable pq : pqueue K.
Variable vt : vtbl K E.
Variable c : config K.
Hypothesis Hpq : pq_ok pq.

(** ** C30: double counting *)
Lemma refused N cur later lookup n first r n' o s post m :
  node_inv c N n -> c_smooth c = true -> n_enabled n = true -> n_toggled n = true ->
  pq_pop pq (n_queue n) = Some (first, r) -> m_time first < fb_last_time (n_filter n) ->
  n_state_hist n = s :: post -> Forall (fun x => m_time first <= fs_time x) (s :: post) ->
  periodicUpdate pq vt c cur later lookup n = (n', o) ->
  In m (n_meas_hist n) -> fs_time s <= m_time m -> m_time m <= cur -> In m (fused o).
Proof.
  intros Hn Hsm He Ht Hpop Hlt Hsh Hall Hrun Hm Hms Hmc.
  destruct (cycle_obs pq vt c cur later lookup n He) as (O1 & _). cbv zeta in O1.
  rewrite Hrun in O1. cbn [snd] in O1. rewrite O1. unfold working. rewrite Ht.
  rewrite (integrate_eq pq vt c Hpq). unfold catch_up.
  destruct (n_queue n) as [|q0 qs] eqn:Hq.
  { rewrite (pop_nil pq Hpq) in Hpop. discriminate. }
  unfold revert_if_lagged. rewrite Hq, Hpop, Hsm. apply Z.ltb_lt in Hlt. rewrite Hlt. cbn [andb].
  pose proof (revert_exact pq Hpq n (m_time first - 1) (ni_msort _ _ _ Hn) (ni_ssort _ _ _ Hn)) as Hr.
  destruct Hr as (pre & s' & post' & Hl & Hpo & Hor & Hok & Hr); [rewrite Hsh; discriminate|].
  cbv zeta in Hr. destruct Hr as (_ & _ & _ & _ & _ & _ & _ & Hperm).
  assert (Hs' : s' = s).
  { rewrite Hsh in Hl. destruct pre as [|p pre]; [cbn in Hl; congruence|]. cbn in Hl. injection Hl as <- Hl.
    exfalso. destruct Hor as [Hor|[Hz _]]; [|discriminate].
    rewrite Forall_forall in Hall. specialize (Hall s'). cbn in Hall.
    assert (s = s' \/ In s' post) by (right; rewrite Hl; apply in_or_app; right; left; reflexivity).
    specialize (Hall H). lia. }
  subst s'.
  assert (Hinq : In m (n_queue (snd (revertTo pq n (m_time first - 1))))).
  { eapply Permutation_in; [apply Permutation_sym, Hperm|]. apply in_or_app; right. apply filter_In. split; [exact Hm|].
    apply Forall_inv in Hall. apply andb_true_iff. split; [apply Z.ltb_lt; lia|apply Z.leb_le; lia]. }
  set (n0 := snd (revertTo pq n (m_time first - 1))) in *.
  set (restored := Z.of_nat (List.length (n_queue n0)) - Z.of_nat (List.length (q0 :: qs))).
  destruct (integrate_loop pq vt c (List.length (n_queue n0)) cur restored n0) as [n1 o1] eqn:Hlp.
  pose proof (loop_spec pq vt c Hpq _ _ _ _ _ _ (le_n _) Hlp) as (Hp & _ & Hgt & _).
  assert (Hf : In m (fused o1)).
  { eapply Permutation_in in Hinq; [|apply Permutation_sym, Hp]. apply in_app_or in Hinq. destruct Hinq as [?|Hx]; [assumption|].
    rewrite Forall_forall in Hgt. specialize (Hgt m Hx). cbn in Hgt. lia. }
  destruct (fb_initialized (n_filter n1) && projects c cur n)%bool; cbn; [|exact Hf].
  rewrite fused_app. apply in_or_app; left; exact Hf.
Qed.

(** ** C33: sensor timeout *)
Lemma idle_cycle cur later lookup n n' o :
  n_enabled n = true -> n_toggled n = true -> n_queue n = [] ->
  periodicUpdate pq vt c cur later lookup n = (n', o) ->
  fused o = [] /\
  if (fb_initialized (n_filter n) &&
      (c_predict_now c || (fb_sensor_timeout (n_filter n) <=? cur - fb_last_time (n_filter n))))%bool
  then intervals o = [cur - fb_last_time (n_filter n)] /\
       n_filter n' = (let p := v_predict vt (n_filter n) cur (cur - fb_last_time (n_filter n)) in
                      set_last_time p (fb_last_time p + (cur - fb_last_time (n_filter n))))
  else intervals o = [] /\ n_filter n' = n_filter n.
Proof.
  intros He Ht Hq Hrun.
  destruct (cycle_obs pq vt c cur later lookup n He) as (O1 & _ & O3 & _ & _ & O6). cbv zeta in O1, O3, O6.
  rewrite Hrun in O1, O3, O6. cbn [fst snd] in *. rewrite O1, O3, O6.
  unfold working. rewrite Ht, (integrate_eq pq vt c Hpq). unfold catch_up, projects. rewrite Hq.
  destruct (fb_initialized (n_filter n)) eqn:Hi; cbn [andb].
  - destruct (c_predict_now c || (fb_sensor_timeout (n_filter n) <=? cur - fb_last_time (n_filter n)))%bool;
      cbn; destruct (diff_fields cur n) as (D & _).
    + destruct (diff_fields cur (project vt cur n)) as (D' & _). rewrite D'. repeat split.
    + repeat split. exact D.
  - cbn. destruct (diff_fields cur n) as (D & _). repeat split. exact D.
Qed.

(** ** C32: a clock that jumps back *)
Lemma backward_projection cur later lookup n :
  n_enabled n = true -> n_toggled n = true -> n_queue n = [] ->
  fb_initialized (n_filter n) = true -> c_predict_now c = true -> cur < fb_last_time (n_filter n) ->
  exists d, d < 0 /\ intervals (snd (periodicUpdate pq vt c cur later lookup n)) = [d] /\
    fb_state (n_filter (fst (periodicUpdate pq vt c cur later lookup n))) = fb_state (v_predict vt (n_filter n) cur d).
Proof.
  intros He Ht Hq Hi Hp Hlt. destruct (periodicUpdate pq vt c cur later lookup n) as [n' o] eqn:Hrun.
  destruct (idle_cycle cur later lookup n n' o He Ht Hq Hrun) as [_ H]. rewrite Hi, Hp in H. cbn [andb orb] in H.
  destruct H as [H1 H2]. exists (cur - fb_last_time (n_filter n)). cbn [fst snd]. rewrite H1, H2. repeat split. lia.
Qed.

(** ** C37: first measurement *)
Lemma first_cycle cur later lookup n m n' o :
  n_enabled n = true -> n_toggled n = true -> n_queue n = [m] -> n_state_hist n = [] ->
  fb_initialized (n_filter n) = false -> m_time m <= cur -> c_predict_now c = false ->
  periodicUpdate pq vt c cur later lookup n = (n', o) ->
  n_filter n' = set_last_time (init_from (n_filter n) m) (m_time m) /\ fused o = [m].
Proof.
  intros He Ht Hq Hs Hi Hle Hpn Hrun.
  destruct (cycle_obs pq vt c cur later lookup n He) as (O1 & _ & _ & _ & _ & O6). cbv zeta in O1, O6.
  rewrite Hrun in O1, O6. cbn [fst snd] in *. rewrite O1, O6. clear O1 O6.
  unfold working. rewrite Ht, (integrate_eq pq vt c Hpq). unfold catch_up, projects. rewrite Hq.
  assert (Hr : revert_if_lagged pq c n = (0, n)).
  { unfold revert_if_lagged. rewrite Hq, (pop_single pq Hpq).
    destruct (c_smooth c && _)%bool; [|reflexivity]. rewrite (revert_empty pq Hpq n _ Hs). cbn. rewrite Hq. reflexivity. }
  rewrite Hr, Hq. cbn [List.length]. rewrite loop_step, Hq, (pop_single pq Hpq).
  destruct (Z.ltb_spec cur (m_time m)); [lia|]. cbn [integrate_loop]. rewrite Hpn. cbn [orb andb].
  rewrite andb_false_r. cbn [fused fst snd].
  destruct (diff_fields cur (loop_node pq vt c 0 n m [])) as (D & _). rewrite D.
  split; [|reflexivity]. cbn. unfold loop_filter, loop_control. cbn. rewrite andb_false_r.
  unfold processMeasurement. rewrite Hi. reflexivity.
Qed.

Lemma nonfinite_published cur later lookup n m i :
  n_enabled n = true -> n_toggled n = true -> n_queue n = [m] -> n_state_hist n = [] ->
  fb_initialized (n_filter n) = false -> m_time m <= cur -> c_predict_now c = false ->
  (c_permit c = true \/ n_last_pub n < m_time m) ->
  In i [0; 1; 2; 6; 7; 8; 9; 10; 11]%nat -> nth i (m_upd m) false = true ->
  s_isnan (m_value m i) = true \/ s_isinf (m_value m i) = true ->
  let r := periodicUpdate pq vt c cur later lookup n in
  exists msg, odoms (snd r) = [msg] /\ carries (n_filter (fst r)) msg /\
    fb_state (n_filter (fst r)) i = m_value m i /\ In OutNonFinite (snd r).
Proof.
  intros He Ht Hq Hs Hi Hle Hpn Hpub Hii Hfl Hnan. cbv zeta.
  destruct (periodicUpdate pq vt c cur later lookup n) as [n' o] eqn:Hrun. cbn [fst snd].
  destruct (first_cycle cur later lookup n m n' o He Ht Hq Hs Hi Hle Hpn Hrun) as [Hf _].
  destruct (working_post pq vt c Hpq cur later n) as [_ (_ & _ & _ & Hlp & _)].
  pose proof (cycle_eq pq vt c cur later lookup n He) as Hc. rewrite Hrun in Hc.
  destruct (working pq vt c cur later n) as [n1 o1] eqn:Hw. injection Hc as Hn Ho. cbn [fst] in Hlp.
  assert (Hf1 : n_filter n1 = set_last_time (init_from (n_filter n) m) (m_time m)) by (rewrite <- Hf, Hn; reflexivity).
  assert (Hin1 : fb_initialized (n_filter n1) = true) by (rewrite Hf1; reflexivity).
  assert (Hco : corrected c n1 = false).
  { unfold corrected. rewrite Hin1, Hlp, Hf1. cbn. destruct Hpub as [->|Hlt]; [reflexivity|].
    destruct (Z.leb_spec (m_time m) (n_last_pub n)); [lia|]. apply andb_false_r. }
  assert (Hx : fb_state (n_filter n1) i = m_value m i).
  { rewrite Hf1. cbn [fb_state set_last_time init_from set_initialized set_P set_state]. unfold flag. rewrite Hfl.
    destruct (Nat.ltb_spec i (List.length (m_upd m))); [reflexivity|]. rewrite nth_overflow in Hfl by assumption. discriminate. }
  destruct (getFilteredOdometryMessage c n1) as [msg|] eqn:Hg.
  2:{ unfold getFilteredOdometryMessage in Hg. rewrite Hin1 in Hg. discriminate. }
  assert (Hg' : getFilteredOdometryMessage c n' = Some msg) by (rewrite <- Hg, Hn; reflexivity).
  assert (Hcar : carries (n_filter n1) msg).
  { unfold getFilteredOdometryMessage in Hg. rewrite Hin1 in Hg. injection Hg as <-. repeat split. }
  assert (Hbad : finite (fb_state (n_filter n1) i) = false).
  { rewrite Hx. unfold finite. destruct Hnan as [->| ->]; [reflexivity|apply andb_false_r]. }
  assert (Hval : validateFilterOutput msg = false).
  { destruct Hcar as (_ & Cp & Cl & Ca). unfold validateFilterOutput. rewrite Cp, Cl, Ca.
    apply Bool.not_true_iff_false. intros Hall. rewrite forallb_forall in Hall.
    rewrite Hall in Hbad; [discriminate|]. cbn [v3x v3y v3z]. clear - Hii. cbn [In] in Hii |- *.
    repeat (destruct Hii as [<-|Hii]; [tauto|]). destruct Hii. }
  exists msg. split; [|split; [rewrite Hf, <- Hf1; exact Hcar|split; [rewrite Hf, <- Hf1; exact Hx|]]].
  - destruct (cycle_publishes pq vt c Hpq cur later lookup n n' o Hrun) as (P1 & _ & _).
    rewrite P1, He. rewrite Hf. cbn [fb_initialized set_last_time init_from set_initialized andb].
    assert (Hgate : (c_permit c || (n_last_pub n <? fb_last_time (set_last_time (init_from (n_filter n) m) (m_time m))))%bool = true).
    { cbn. destruct Hpub as [->|Hlt]; [reflexivity|]. destruct (Z.ltb_spec (n_last_pub n) (m_time m)); [apply orb_true_r|lia]. }
    cbn in Hgate |- *. rewrite Hgate, Hg'. reflexivity.
  - unfold visible in Ho. rewrite Hg, Hco, Hval in Ho. cbn [negb andb] in Ho. rewrite Ho.
    apply in_or_app; right; apply in_or_app; left; apply in_or_app; left.
    apply in_or_app; left. left; reflexivity.
Qed.

(** ** C38: toggle *)
Lemma toggle_service on (n : node K E) :
  let r := toggleFilterProcessingCallback on n in
  n_toggled (fst r) = on /\ snd r = [OutStatus (negb (Bool.eqb on (n_toggled n)))] /\
  (on = n_toggled n -> fst r = n) /\ n_filter (fst r) = n_filter n /\ n_queue (fst r) = n_queue n.
Proof.
  cbv zeta. unfold toggleFilterProcessingCallback. destruct (Bool.eqb on (n_toggled n)) eqn:Hb; cbn.
  - apply eqb_prop in Hb. repeat split; auto.
  - repeat split. intros ->. rewrite eqb_reflx in Hb. discriminate.
Qed.

Lemma toggled_off_cycle cur later lookup n n' o :
  n_enabled n = true -> n_toggled n = false -> periodicUpdate pq vt c cur later lookup n = (n', o) ->
  n_queue n' = [] /\ fused o = [] /\ intervals o = [] /\
  n_filter n' = (if fb_initialized (n_filter n) then set_last_time (n_filter n) later else n_filter n).
Proof.
  intros He Ht Hrun.
  destruct (cycle_obs pq vt c cur later lookup n He) as (O1 & _ & O3 & _ & O5 & O6). cbv zeta in *.
  rewrite Hrun in *. cbn [fst snd] in *. rewrite O1, O3, O5, O6. unfold working. rewrite Ht. cbn.
  destruct (fb_initialized (n_filter n)); repeat split.
Qed.

(** ** C39: disabled *)
Lemma disabled_quiet es : forall n, n_enabled n = false -> Forall not_enable es ->
  n_enabled (fst (node_run pq vt c n es)) = false /\
  fused (snd (node_run pq vt c n es)) = [] /\ intervals (snd (node_run pq vt c n es)) = [] /\
  odoms (snd (node_run pq vt c n es)) = [] /\ accels (snd (node_run pq vt c n es)) = [] /\
  tfs (snd (node_run pq vt c n es)) = [].
Proof.
  induction es as [|e es IH]; intros n Hen Hne; [repeat split; exact Hen|].
  inversion Hne as [|x l Hx Hl]; subst.
  assert (Hs : n_enabled (fst (node_step pq vt c n e)) = false /\ fused (snd (node_step pq vt c n e)) = [] /\
     intervals (snd (node_step pq vt c n e)) = [] /\ odoms (snd (node_step pq vt c n e)) = [] /\
     accels (snd (node_step pq vt c n e)) = [] /\ tfs (snd (node_step pq vt c n e)) = []).
  { destruct e as [warn topic stamp upd thresh prep|frame ctl stamp|on| | |stamp prep now| |cur later lookup];
      cbn [node_step]; try (destruct Hx; fail).
    - destruct (sensor_fields pq warn topic stamp upd thresh prep n) as (_ & _ & _ & _ & _ & D & _).
      destruct (sensor_queue pq Hpq warn topic stamp upd thresh prep n) as (_ & Q2 & Q3 & Q4 & _). cbv zeta in *.
      rewrite D, Q2, Q3, Q4. repeat split; try assumption;
      unfold sensorCallback; destruct (n_set_pose n >=? stamp); try reflexivity;
      cbv zeta; destruct (sm_find _ topic); try reflexivity; destruct (_ <=? stamp); try reflexivity;
      destruct (pr_ok _); reflexivity.
    - unfold controlStampedCallback. cbn. destruct (_ || _)%bool; repeat split; exact Hen.
    - unfold toggleFilterProcessingCallback. destruct (Bool.eqb on (n_toggled n)); repeat split; exact Hen.
    - repeat split; exact Hen.
    - repeat split; exact Hen.
    - repeat split; exact Hen.
    - rewrite (cycle_disabled pq vt c _ _ _ _ Hen). repeat split; exact Hen. }
  destruct Hs as (S1 & S2 & S3 & S4 & S5 & S6). cbn [node_run].
  destruct (node_step pq vt c n e) as [n1 o1]. cbn [fst snd] in *.
  destruct (IH n1 S1 Hl) as (I1 & I2 & I3 & I4 & I5 & I6).
  destruct (node_run pq vt c n1 es) as [n2 o2]. cbn [fst snd] in *.
  rewrite fused_app, intervals_app, odoms_app, accels_app, tfs_app, S2, S3, S4, S5, S6.
  repeat split; assumption.
Qed.

Lemma disabled_queue es : forall n, n_enabled n = false -> Forall keeps_queue es ->
  Permutation (n_queue (fst (node_run pq vt c n es))) (n_queue n ++ queued (snd (node_run pq vt c n es))).
Proof.
  induction es as [|e es IH]; intros n Hen Hk; [cbn; rewrite app_nil_r; apply Permutation_refl|].
  inversion Hk as [|x l Hx Hl]; subst.
  assert (Hne : Forall not_enable [e]) by (constructor; [destruct e; try exact I; destruct Hx|constructor]).
  destruct (disabled_quiet [e] n Hen Hne) as (S1 & _). cbn [node_run] in S1.
  assert (Hs : Permutation (n_queue (fst (node_step pq vt c n e))) (n_queue n ++ queued (snd (node_step pq vt c n e)))).
  { destruct e as [warn topic stamp upd thresh prep|frame ctl stamp|on| | |stamp prep now| |cur later lookup];
      cbn [node_step]; try (destruct Hx; fail).
    - destruct (sensor_queue pq Hpq warn topic stamp upd thresh prep n) as (Q1 & _). exact Q1.
    - unfold controlStampedCallback. cbn. rewrite app_nil_r. destruct (_ || _)%bool; apply Permutation_refl.
    - unfold toggleFilterProcessingCallback. destruct (Bool.eqb on (n_toggled n)); cbn; rewrite app_nil_r; apply Permutation_refl.
    - cbn. rewrite app_nil_r. apply Permutation_refl.
    - rewrite (cycle_disabled pq vt c _ _ _ _ Hen). cbn. rewrite app_nil_r. apply Permutation_refl. }
  cbn [node_run]. destruct (node_step pq vt c n e) as [n1 o1]. cbn [fst snd] in *.
  specialize (IH n1 S1 Hl). destruct (node_run pq vt c n1 es) as [n2 o2]. cbn [fst snd] in *.
  rewrite queued_app, app_assoc. eapply Permutation_trans; [exact IH|]. apply Permutation_app_tail. exact Hs.
Qed.

Lemma enabled_later es cur later lookup n m :
  n_enabled n = false -> n_toggled (fst (node_run pq vt c n es)) = true -> Forall keeps_queue es ->
  In m (n_queue n ++ queued (snd (node_run pq vt c n es))) -> m_time m <= cur ->
  In m (fused (snd (node_run pq vt c (fst (node_run pq vt c n es)) [EvEnable; EvCycle cur later lookup]))).
Proof.
  intros Hen Ht Hk Hin Hle. pose proof (disabled_queue es n Hen Hk) as Hq.
  set (n1 := fst (node_run pq vt c n es)) in *. cbn [node_run node_step enableFilterSrvCallback].
  set (n2 := if n_enabled n1 then n1 else with_enabled n1 true).
  assert (H2 : n_enabled n2 = true /\ n_toggled n2 = true /\ n_queue n2 = n_queue n1).
  { unfold n2. destruct (n_enabled n1) eqn:H1; repeat split; assumption. }
  destruct H2 as (A & B & C).
  destruct (periodicUpdate pq vt c cur later lookup n2) as [n3 o3] eqn:Hrun. cbn [snd]. rewrite app_nil_r. cbn [fused app].
  destruct (cycle_order pq vt c Hpq cur later lookup n2 n3 o3 Hrun) as (_ & _ & H3 & _).
  destruct (H3 A B) as (Hgt & back & Hp & _).
  assert (Hx : In m (fused o3 ++ n_queue n3)).
  { eapply Permutation_in; [apply Permutation_sym, Hp|]. apply in_or_app; left. rewrite C.
    eapply Permutation_in; [apply Permutation_sym, Hq|]. exact Hin. }
  apply in_app_or in Hx. destruct Hx as [Hx|Hx]; [exact Hx|].
  rewrite Forall_forall in Hgt. specialize (Hgt m Hx). cbn in Hgt. lia.
Qed.
End More.
