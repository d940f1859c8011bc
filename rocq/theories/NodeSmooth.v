(** * Lagged measurements: reversion and replay equal in-order processing (C28) *)

From Coq Require Import ZArith List Permutation Sorting.Sorted Bool Lia String Arith.
From Verif Require Import Scalar Mat FilterBase Tf StrMap Diagnostics RosFilter SpecNode NodeProofs NodeInv NodeFacts NodeTime.
From Coq Require Import FunctionalExtensionality.
From Verif Require Import Ekf Ukf SpecMotion EkfFacts EkfPsd Motion UkfProofs FilterExtra EstimatorFilter.
Import ListNotations.
Local Open Scope Z_scope.

Section Filters.
Context {A : Type}.
Lemma filter_all (p : A -> bool) l : Forall (fun x => p x = true) l -> filter p l = l.
Proof. induction 1; cbn; [reflexivity|]. rewrite H, IHForall. reflexivity. Qed.
Lemma filter_none (p : A -> bool) l : Forall (fun x => p x = false) l -> filter p l = [].
Proof. induction 1; cbn; [reflexivity|]. rewrite H. assumption. Qed.
Lemma filter_filter (p q : A -> bool) l : (forall x, p x = true -> q x = true) ->
  filter p (filter q l) = filter p l.
Proof.
  intros H. induction l as [|x l IH]; [reflexivity|]. cbn. destruct (q x) eqn:Hq; cbn.
  - rewrite IH. reflexivity.
  - destruct (p x) eqn:Hp; [rewrite (H x Hp) in Hq; discriminate|assumption].
Qed.
Lemma SS_filter (R : A -> A -> Prop) (p : A -> bool) l : StronglySorted R l -> StronglySorted R (filter p l).
Proof.
  induction 1 as [|x l Hs IH Hf]; [constructor|]. cbn. destruct (p x); [|assumption].
  constructor; [assumption|]. apply Forall_forall. intros y Hy. apply filter_In in Hy.
  rewrite Forall_forall in Hf. apply Hf. apply Hy.
Qed.
End Filters.

Section Smooth.
Context {K : Scalar} {E : Type}.
Variable pq : pqueue K.
Variable vt : vtbl K E.
Variable c : config K.
Hypothesis Hpq : pq_ok pq.
Hypothesis Hvt : time_neutral vt.
Hypothesis Hsm : c_smooth c = true.
Hypothesis Hnc : c_use_control c = false.

Variable Inv : fb K E -> Prop.
Variable R : fb K E -> fb K E -> Prop.
Hypothesis R_same : forall f g, R f g -> same_estimate f g.
Hypothesis R_inv : forall f g, R f g -> Inv f.
Hypothesis R_process : forall f g m, R f g -> R (processMeasurement vt f m) (processMeasurement vt g m).
Hypothesis R_load : forall f g m, Inv f -> Inv g -> fb_initialized f = true -> fb_initialized g = true ->
  fb_last_time g < m_time m ->
  R (processMeasurement vt (load f (snapshot g)) m) (processMeasurement vt g m).
Hypothesis I_process : forall f m, Inv f -> Inv (processMeasurement vt f m).

Variable f0 : fb K E.
Hypothesis I0 : Inv f0.
Hypothesis R0 : R f0 f0.
Definition F (l : list (meas K)) : fb K E := fold_left (processMeasurement vt) l f0.

Lemma F_snoc l m : F (l ++ [m]) = processMeasurement vt (F l) m.
Proof. unfold F. rewrite fold_left_app. reflexivity. Qed.

Lemma F_inv l : Inv (F l).
Proof.
  induction l as [|m l IH] using rev_ind; [exact I0|]. rewrite F_snoc. apply I_process; assumption.
Qed.

Definition upto (t : Z) (l : list (meas K)) : list (meas K) := filter (fun m => m_time m <=? t) l.
(** a snapshot records the estimate after [l] *)
Definition records (s : fstate K) (l : list (meas K)) : Prop :=
  fs_state s = fb_state (F l) /\ fs_P s = fb_P (F l) /\ fs_time s = fb_last_time (F l) /\
  fb_initialized (F l) = true.
Lemma upto_snoc_lt t l m : t < m_time m -> upto t (l ++ [m]) = upto t l.
Proof.
  intros H. unfold upto. rewrite filter_app. cbn. destruct (Z.leb_spec (m_time m) t); [lia|]. apply app_nil_r.
Qed.
Lemma upto_all t l : (forall m, In m l -> m_time m <= t) -> upto t l = l.
Proof.
  intros H. apply filter_all. apply Forall_forall. intros m Hm. apply Z.leb_le. auto.
Qed.

(** [l] is what the estimate is made of. *)
Record made_of (l : list (meas K)) (n : node K E) : Prop := mkMade {
  mo_order : in_order l;
  mo_filter : R (n_filter n) (F l);
  mo_last : l = [] \/ forall m, In m l -> m_time m <= fb_last_time (F l);
  mo_suffix : exists l0, l = l0 ++ n_meas_hist n /\
     forall s m, In s (n_state_hist n) -> In m l0 -> m_time m <= fs_time s;
  mo_snap : forall pre s post, n_state_hist n = pre ++ s :: post ->
     Forall (fun x => fs_time s < fs_time x) post -> records s (upto (fs_time s) l);
  mo_exact : forall m, In m (n_meas_hist n) -> exists s, In s (n_state_hist n) /\ fs_time s = m_time m
}.

Record looping (now : Z) (l : list (meas K)) (b : bool) (n : node K E) : Prop := mkLoop {
  lo_order : in_order l;
  lo_filter : R (n_filter n) (F l) \/
     exists g, Inv g /\ fb_initialized g = true /\ fb_initialized (F l) = true /\
       n_filter n = load g (snapshot (F l)) /\
       (forall x, In x (n_queue n) -> fb_last_time (F l) < m_time x) /\
       exists x, In x (n_queue n) /\ m_time x <= now;
  lo_last : l = [] \/ forall m, In m l -> m_time m <= fb_last_time (F l);
  lo_queue : forall x, In x (n_queue n) -> fb_initialized (F l) = true -> fb_last_time (F l) <= m_time x;
  lo_sle : forall s, In s (n_state_hist n) -> fs_time s <= fb_last_time (F l) /\ fb_initialized (F l) = true;
  lo_suffix : exists l0, l = l0 ++ n_meas_hist n /\
     forall s m, In s (n_state_hist n) -> In m l0 -> m_time m <= fs_time s;
  lo_snap : forall pre s post, n_state_hist n = pre ++ s :: post ->
     Forall (fun x => fs_time s < fs_time x) post ->
     b = true \/ fs_time s < fb_last_time (F l) -> records s (upto (fs_time s) l);
  lo_exact : forall m, In m (n_meas_hist n) ->
     (exists s, In s (n_state_hist n) /\ fs_time s = m_time m) \/ (b = false /\ m_time m = fb_last_time (F l));
  lo_pend : b = false -> exists x, In x (n_queue n) /\ m_time x = fb_last_time (F l) /\ m_time x <= now
}.

Lemma l_init l : l <> [] -> fb_initialized (F l) = true.
Proof.
  induction l as [|m l _] using rev_ind; [congruence|]. intros _. rewrite F_snoc.
  apply (process_time vt Hvt (F l) m).
Qed.

Lemma looping_step now l b n m rest restored :
  looping now l b n -> pq_pop pq (n_queue n) = Some (m, rest) -> m_time m <= now ->
  exists b', looping now (l ++ [m]) b' (loop_node pq vt c restored n m rest).
Proof.
  intros H Hpop Hle.
  pose proof (pop_perm pq Hpq _ _ _ Hpop) as Hperm.
  pose proof (pop_min pq Hpq _ _ _ Hpop) as Hmin.
  assert (Hin : In m (n_queue n)) by (eapply Permutation_in; [apply Permutation_sym, Hperm|left; reflexivity]).
  assert (Hrest : forall x, In x rest -> In x (n_queue n)).
  { intros x Hx. eapply Permutation_in; [apply Permutation_sym, Hperm|right; assumption]. }
  assert (Hlf : loop_filter c restored (n_filter n) m = n_filter n).
  { unfold loop_filter, loop_control. rewrite Hnc. reflexivity. }
  assert (HR : R (processMeasurement vt (n_filter n) m) (F (l ++ [m]))).
  { rewrite F_snoc. destruct (lo_filter _ _ _ _ H) as [Hr|(g & G1 & G2 & G3 & -> & G5 & _)].
    - apply R_process; assumption.
    - apply R_load; [assumption|apply F_inv|assumption|assumption|apply G5; assumption]. }
  destruct (process_time vt Hvt (F l) m) as [T1 T2]. rewrite <- F_snoc in T1, T2.
  assert (Ht : fb_last_time (F (l ++ [m])) = m_time m).
  { rewrite T1. destruct (fb_initialized (F l)) eqn:Hi; [|reflexivity].
    pose proof (lo_queue _ _ _ _ H m Hin Hi). lia. }
  destruct (R_same _ _ HR) as (V1 & V2 & V3 & V4).
  assert (Hlm : forall a, In a l -> m_time a <= m_time m).
  { intros a Ha. destruct (lo_last _ _ _ _ H) as [->|Hla]; [destruct Ha|].
    specialize (Hla a Ha). assert (Hi : fb_initialized (F l) = true) by (apply l_init; intros ->; destruct Ha).
    pose proof (lo_queue _ _ _ _ H m Hin Hi). lia. }
  set (f2 := processMeasurement vt (n_filter n) m) in *.
  assert (Hsle : forall s, In s (n_state_hist n) -> fs_time s <= m_time m).
  { intros s Hs. destruct (lo_sle _ _ _ _ H s Hs) as [A B]. pose proof (lo_queue _ _ _ _ H m Hin B). lia. }
  assert (Hstrict : forall pre s post, n_state_hist n = pre ++ s :: post ->
     Forall (fun x => fs_time s < fs_time x) post -> fs_time s < m_time m ->
     records s (upto (fs_time s) (l ++ [m]))).
  { intros pre s post Hs Hp Hlt. rewrite upto_snoc_lt by assumption.
    apply (lo_snap _ _ _ _ H pre s post Hs Hp). destruct b; [left; reflexivity|right].
    destruct (lo_pend _ _ _ _ H eq_refl) as (x & Hx & Hxt & _). pose proof (Hmin x Hx).
    lia. }
  assert (Hold : forall a, In a (n_meas_hist n) -> m_time a < m_time m ->
     exists s, In s (n_state_hist n) /\ fs_time s = m_time a).
  { intros a Ha Hlt. destruct (lo_exact _ _ _ _ H a Ha) as [?|[Hb He]]; [assumption|].
    destruct (lo_pend _ _ _ _ H Hb) as (x & Hx & Hxt & _). pose proof (Hmin x Hx). lia. }
  assert (Hsuf : exists l0, l ++ [m] = l0 ++ (n_meas_hist n ++ [m]) /\
     (forall s x, In s (n_state_hist n) -> In x l0 -> m_time x <= fs_time s) /\
     (forall a, In a (n_meas_hist n) -> In a l) /\ forall x, In x l0 -> m_time x <= m_time m).
  { destruct (lo_suffix _ _ _ _ H) as (l0 & Hl & Hl0). exists l0. rewrite app_assoc, <- Hl.
    split; [reflexivity|]. split; [assumption|]. split.
    - intros a Ha. rewrite Hl. apply in_or_app. right; assumption.
    - intros x Hx. apply Hlm. rewrite Hl. apply in_or_app. left; assumption. }
  destruct Hsuf as (l0 & Hl & Hl0 & Hsub & Hl0m).
  assert (Hord : in_order (l ++ [m])).
  { apply (SS_snoc m_time); [apply (lo_order _ _ _ _ H)|exact Hlm]. }
  assert (Hall : forall a, In a (l ++ [m]) -> m_time a <= m_time m).
  { intros a Ha. apply in_app_or in Ha. destruct Ha as [Ha|[<-|[]]]; [auto|lia]. }
  assert (Hq : forall x, In x rest -> m_time m <= m_time x) by (intros x Hx; apply Hmin; auto).
  unfold loop_node. rewrite Hlf. fold f2. rewrite Hsm. cbn [andb].
  destruct (loop_saves pq rest f2) eqn:Hsv.
  - exists true. constructor; cbn [n_filter n_queue n_meas_hist n_state_hist].
    + exact Hord.
    + left; exact HR.
    + right. rewrite Ht. exact Hall.
    + intros x Hx _. rewrite Ht. auto.
    + intros s Hs. split; [|exact T2]. rewrite Ht. apply in_app_or in Hs. destruct Hs as [Hs|[<-|[]]]; [auto|].
      cbn. lia.
    + exists l0. split; [exact Hl|]. intros s x Hs Hx. apply in_app_or in Hs. destruct Hs as [Hs|[<-|[]]]; [auto|].
      cbn. rewrite V4, Ht. auto.
    + intros pre s post Hs Hp _. destruct post as [|y post] using rev_ind.
      * apply app_inj_tail in Hs. destruct Hs as [_ <-]. cbn [fs_time snapshot]. rewrite V4, Ht.
        rewrite upto_all by exact Hall. unfold records; cbn. rewrite V2, V3, V4. repeat split; assumption.
      * clear IHpost. replace (pre ++ s :: post ++ [y]) with ((pre ++ s :: post) ++ [y]) in Hs by (rewrite <- app_assoc; reflexivity).
        apply app_inj_tail in Hs. destruct Hs as [Hs <-]. apply Forall_app in Hp. destruct Hp as [Hp Hy].
        apply Forall_inv in Hy. cbn in Hy. apply (Hstrict pre s post Hs Hp). lia.
    + intros a Ha. left. apply in_app_or in Ha.
      assert (Hnew : m_time a = m_time m -> exists s, In s (n_state_hist n ++ [snapshot f2]) /\ fs_time s = m_time a).
      { intros He. exists (snapshot f2). split; [apply in_or_app; right; left; reflexivity|]. cbn. lia. }
      destruct Ha as [Ha|[<-|[]]]; [|apply Hnew; reflexivity].
      specialize (Hlm a (Hsub a Ha)). destruct (Z.eq_dec (m_time a) (m_time m)) as [He|Hne]; [apply Hnew; assumption|].
      destruct (Hold a Ha ltac:(lia)) as (s & Hs & Hst). exists s. split; [apply in_or_app; left; assumption|assumption].
    + discriminate.
  - unfold loop_saves in Hsv. destruct (pq_pop pq rest) as [[top r']|] eqn:Hp2; [|discriminate].
    apply negb_false_iff, Z.eqb_eq in Hsv. exists false. constructor; cbn [n_filter n_queue n_meas_hist n_state_hist].
    + exact Hord.
    + left; exact HR.
    + right. rewrite Ht. exact Hall.
    + intros x Hx _. rewrite Ht. auto.
    + intros s Hs. split; [|exact T2]. rewrite Ht. auto.
    + exists l0. split; [exact Hl|]. exact Hl0.
    + intros pre s post Hs Hp [Hb|Hlt]; [discriminate|]. rewrite Ht in Hlt. apply (Hstrict pre s post Hs Hp Hlt).
    + intros a Ha. rewrite Ht. apply in_app_or in Ha. destruct Ha as [Ha|[<-|[]]]; [|right; split; reflexivity].
      specialize (Hlm a (Hsub a Ha)). destruct (Z.eq_dec (m_time a) (m_time m)) as [He|Hne]; [right; split; [reflexivity|assumption]|].
      left. apply (Hold a Ha). lia.
    + intros _. exists top. rewrite Ht. split; [|split; [lia|lia]].
      eapply Permutation_in; [apply Permutation_sym, (pop_perm pq Hpq _ _ _ Hp2)|left; reflexivity].
Qed.

Lemma looping_run fuel : forall now restored n n' o l b,
  looping now l b n -> integrate_loop pq vt c fuel now restored n = (n', o) ->
  exists l' b', looping now l' b' n' /\ Permutation (l' ++ n_queue n') (l ++ n_queue n).
Proof.
  induction fuel as [|fuel IH]; intros now restored n n' o l b H Hrun.
  - cbn in Hrun. injection Hrun as <- _. exists l, b. split; [exact H|apply Permutation_refl].
  - rewrite loop_step in Hrun. destruct (pq_pop pq (n_queue n)) as [[m rest]|] eqn:Hpop.
    2:{ injection Hrun as <- _. exists l, b. split; [exact H|apply Permutation_refl]. }
    destruct (Z.ltb_spec now (m_time m)).
    { injection Hrun as <- _. exists l, b. split; [exact H|apply Permutation_refl]. }
    destruct (integrate_loop pq vt c fuel now (loop_count c restored) (loop_node pq vt c restored n m rest))
      as [n3 o3] eqn:Hrec. injection Hrun as <- _.
    destruct (looping_step now l b n m rest restored H Hpop ltac:(lia)) as (b1 & H1).
    destruct (IH _ _ _ _ _ _ _ H1 Hrec) as (l' & b' & H' & Hp). exists l', b'. split; [exact H'|].
    eapply Permutation_trans; [exact Hp|]. cbn. rewrite <- app_assoc. apply Permutation_app_head. cbn.
    apply Permutation_sym, (pop_perm pq Hpq _ _ _ Hpop).
Qed.

Lemma looping_end fuel now restored n n' o l b :
  (List.length (n_queue n) <= fuel)%nat ->
  looping now l b n -> integrate_loop pq vt c fuel now restored n = (n', o) ->
  exists l', made_of l' n' /\ Permutation (l' ++ n_queue n') (l ++ n_queue n).
Proof.
  intros Hlen H Hrun. destruct (looping_run _ _ _ _ _ _ _ _ H Hrun) as (l' & b' & H' & Hp).
  pose proof (loop_spec pq vt c Hpq _ _ _ _ _ _ Hlen Hrun) as (_ & _ & Hgt & _).
  rewrite Forall_forall in Hgt. exists l'. split; [|exact Hp].
  assert (Hb : b' = true).
  { destruct b'; [reflexivity|]. destruct (lo_pend _ _ _ _ H' eq_refl) as (x & Hx & _ & Hle).
    specialize (Hgt x Hx). cbn in Hgt. lia. }
  subst b'. destruct H'. constructor; try assumption.
  - destruct lo_filter0 as [?|(g & _ & _ & _ & _ & _ & x & Hx & Hle)]; [assumption|].
    specialize (Hgt x Hx). cbn in Hgt. lia.
  - intros pre s post Hs Hpo. apply (lo_snap0 pre s post Hs Hpo). left; reflexivity.
  - intros m Hm. destruct (lo_exact0 m Hm) as [?|[? _]]; [assumption|discriminate].
Qed.

Lemma made_looping N now n l : node_inv c N n -> N <= now -> made_of l n ->
  (forall x, In x (n_queue n) -> fb_initialized (F l) = true -> fb_last_time (F l) <= m_time x) ->
  looping now l true n.
Proof.
  intros Hn HN H Hq. pose proof (ni_sle _ _ _ Hn) as Hs. pose proof (ni_init _ _ _ Hn) as Hi.
  destruct H. destruct (R_same _ _ mo_filter0) as (V1 & V2 & V3 & V4).
  constructor; try assumption.
  - left; assumption.
  - intros s Hin. rewrite <- V4, <- V1. split; [auto|]. apply Hi. intros Hz; rewrite Hz in Hin; destruct Hin.
  - intros pre s post A B _. apply (mo_snap0 pre s post A B).
  - intros m Hm. left. auto.
  - discriminate.
Qed.

Lemma revert_looping N now n l restored n0 : node_inv c N n -> N <= now -> made_of l n -> reaches_back n ->
  revert_if_lagged pq c n = (restored, n0) ->
  exists l', looping now l' true n0 /\ Permutation (l' ++ n_queue n0) (l ++ n_queue n).
Proof.
  intros Hn HN H Hrb. unfold revert_if_lagged.
  destruct (R_same _ _ (mo_filter _ _ H)) as (V1 & V2 & V3 & V4).
  destruct (pq_pop pq (n_queue n)) as [[first r]|] eqn:Hpop.
  2:{ apply (pop_none pq Hpq) in Hpop. intros Heq; injection Heq as _ <-. exists l. split; [|apply Permutation_refl].
      eapply made_looping; [exact Hn|exact HN|exact H|]. rewrite Hpop. intros x []. }
  pose proof (pop_perm pq Hpq _ _ _ Hpop) as Hperm.
  pose proof (pop_min pq Hpq _ _ _ Hpop) as Hmin.
  assert (Hin : In first (n_queue n)) by (eapply Permutation_in; [apply Permutation_sym, Hperm|left; reflexivity]).
  rewrite Hsm. cbn [andb].
  destruct (Z.ltb_spec (m_time first) (fb_last_time (n_filter n))) as [Hlt|Hge].
  2:{ intros Heq; injection Heq as _ <-. exists l. split; [|apply Permutation_refl].
      eapply made_looping; [exact Hn|exact HN|exact H|]. intros x Hx _. rewrite <- V4. specialize (Hmin x Hx). lia. }
  intros Heq. injection Heq as _ <-.
  pose proof (revert_cases pq Hpq n (m_time first - 1)) as Hr.
  destruct (revertTo pq n (m_time first - 1)) as [ok n0]. cbn [snd].
  destruct (fb_initialized (n_filter n)) eqn:Hi.
  2:{ (* no snapshots of an uninitialised filter *)
      assert (Hz : n_state_hist n = []).
      { destruct (n_state_hist n) eqn:Hz; [reflexivity|]. exfalso.
        assert (true = false); [|discriminate]. rewrite <- Hi. symmetry. apply (ni_init _ _ _ Hn). rewrite Hz. discriminate. }
      destruct Hr as [(_ & _ & ->)|[(pre & s & post & Hl & _)|(s & post & Hl & _)]].
      - exists l. split; [|apply Permutation_refl]. eapply made_looping; [exact Hn|exact HN|exact H|].
        intros x Hx Hfi. congruence.
      - rewrite Hz in Hl. destruct pre; discriminate.
      - rewrite Hz in Hl. discriminate. }
  destruct (Hrb Hi first Hin Hlt) as (s1 & Hs1 & Hs1t).
  destruct Hr as [(Hz & _ & _)|[(pre & s & post & Hl & Hs & Hpo & _ & Hrs)|(s & post & Hl & Hall & _)]].
  { rewrite Hz in Hs1. destruct Hs1. }
  2:{ rewrite Hl in Hs1. rewrite Forall_forall in Hall. specialize (Hall s1 Hs1). cbn in Hall. lia. }
  destruct Hrs as (Hf & Hsh & (d & Hmh & Hd & Hlast & Hq) & _).
  set (t := m_time first - 1) in *.
  assert (Hpost : Forall (fun x => fs_time s < fs_time x) post).
  { eapply Forall_impl; [|exact Hpo]. cbn. intros a Ha. lia. }
  pose proof (mo_snap _ _ H pre s post Hl Hpost) as (S1 & S2 & S3 & S4).
  set (l1 := upto (fs_time s) l) in *.
  pose proof (ni_ssort _ _ _ Hn) as Hss. rewrite Hl in Hss.
  replace (pre ++ s :: post) with ((pre ++ [s]) ++ post) in Hss by (rewrite <- app_assoc; reflexivity).
  apply SS_app in Hss. destruct Hss as (Hss & _ & _). apply SS_app in Hss. destruct Hss as (_ & _ & Hpre).
  assert (Hkept : forall x, In x (n_state_hist n0) -> fs_time x <= fs_time s).
  { intros x Hx. rewrite Hsh in Hx. apply in_app_or in Hx. destruct Hx as [Hx|[<-|[]]]; [|lia].
    apply (Hpre x s Hx (or_introl eq_refl)). }
  assert (Hkin : forall x, In x (n_state_hist n0) -> In x (n_state_hist n)).
  { intros x Hx. rewrite Hl. rewrite Hsh in Hx. apply in_or_app. apply in_app_or in Hx.
    destruct Hx as [Hx|[<-|[]]]; [left; assumption|right; left; reflexivity]. }
  assert (Hmh' : forall m, In m (n_meas_hist n0) -> m_time m <= t).
  { intros m Hm. pose proof (ni_msort _ _ _ Hn) as Hms. rewrite Hmh in Hms. apply SS_app in Hms.
    destruct Hms as (Hms & _ & _).
    destruct Hlast as [Hz|(k' & y & Hk & Hy)]; [rewrite Hz in Hm; destruct Hm|].
    rewrite Hk in Hm, Hms. apply SS_app in Hms. destruct Hms as (_ & _ & Hms).
    apply in_app_or in Hm. destruct Hm as [Hm|[<-|[]]]; [|assumption].
    specialize (Hms m y Hm (or_introl eq_refl)). lia. }
  assert (Hmex : forall m, In m (n_meas_hist n0) -> exists x, In x (n_state_hist n0) /\ fs_time x = m_time m).
  { intros m Hm. destruct (mo_exact _ _ H m) as (x & Hx & Hxt).
    { rewrite Hmh. apply in_or_app; left; assumption. }
    exists x. split; [|assumption]. rewrite Hsh. rewrite Hl in Hx. apply in_or_app.
    apply in_app_or in Hx. destruct Hx as [Hx|[<-|Hx]]; [left; assumption|right; left; reflexivity|].
    rewrite Forall_forall in Hpo. specialize (Hpo x Hx). cbn in Hpo. specialize (Hmh' m Hm). lia. }
  destruct (mo_suffix _ _ H) as (l0 & Hll & Hl0).
  assert (Hl1 : l1 = l0 ++ n_meas_hist n0).
  { unfold l1, upto. rewrite Hll, Hmh, !filter_app.
    rewrite (filter_none _ d). 2:{ eapply Forall_impl; [|exact Hd]. cbn. intros a Ha. apply Z.leb_gt. lia. }
    rewrite app_nil_r. f_equal; apply filter_all, Forall_forall; intros x Hx; apply Z.leb_le.
    - apply Hl0; [|assumption]. rewrite Hl. apply in_or_app; right; left; reflexivity.
    - destruct (Hmex x Hx) as (y & Hy & <-). auto. }
  assert (Hdd : filter (fun m => fs_time s <=? m_time m) d = d).
  { apply filter_all. eapply Forall_impl; [|exact Hd]. cbn. intros a Ha. apply Z.leb_le. lia. }
  rewrite Hdd in Hq.
  assert (Hqt : forall x, In x (n_queue n0) -> fs_time s < m_time x).
  { intros x Hx. eapply Permutation_in in Hx; [|exact Hq]. apply in_app_or in Hx. destruct Hx as [Hx|Hx].
    - specialize (Hmin x Hx). lia.
    - rewrite Forall_forall in Hd. specialize (Hd x Hx). cbn in Hd. lia. }
  exists l1. split.
  - constructor.
    + apply SS_filter. apply (mo_order _ _ H).
    + right. exists (n_filter n). split; [apply (R_inv _ _ (mo_filter _ _ H))|]. split; [exact Hi|]. split; [exact S4|].
      split. { rewrite Hf. unfold load, snapshot. cbn. rewrite S1, S2, S3. reflexivity. }
      split. { intros x Hx. rewrite <- S3. apply Hqt; assumption. }
      exists first. split.
      * eapply Permutation_in; [apply Permutation_sym, Hq|]. apply in_or_app; left; exact Hin.
      * pose proof (ni_clock _ _ _ Hn Hi). lia.
    + right. intros m Hm. rewrite <- S3. unfold l1, upto in Hm. apply filter_In in Hm. apply Z.leb_le. apply Hm.
    + intros x Hx _. rewrite <- S3. specialize (Hqt x Hx). lia.
    + intros x Hx. rewrite <- S3. split; [auto|exact S4].
    + exists l0. split; [exact Hl1|]. intros x m Hx Hm. apply Hl0; auto.
    + intros pre' s' post' Hs' Hp' _. unfold l1, upto. rewrite filter_filter.
      2:{ intros x Hx. apply Z.leb_le in Hx. apply Z.leb_le.
          assert (fs_time s' <= fs_time s) by (apply Hkept; rewrite Hs'; apply in_or_app; right; left; reflexivity). lia. }
      apply (mo_snap _ _ H pre' s' (post' ++ post)).
      * rewrite Hl. replace (pre ++ s :: post) with ((pre ++ [s]) ++ post) by (rewrite <- app_assoc; reflexivity).
        rewrite <- Hsh, Hs'. rewrite <- app_assoc. reflexivity.
      * apply Forall_app. split; [exact Hp'|]. eapply Forall_impl; [|exact Hpost]. cbn. intros a Ha.
        assert (fs_time s' <= fs_time s) by (apply Hkept; rewrite Hs'; apply in_or_app; right; left; reflexivity). lia.
    + intros m Hm. left. auto.
    + discriminate.
  - eapply Permutation_trans; [apply Permutation_app_head, Hq|].
    rewrite Hll, Hmh, Hl1, <- !app_assoc. apply Permutation_app_head, Permutation_app_head, Permutation_app_comm.
Qed.

Lemma catch_up_made N now n l : node_inv c N n -> N <= now -> made_of l n -> reaches_back n ->
  exists l', made_of l' (fst (catch_up pq vt c now n)) /\
    Permutation (l' ++ n_queue (fst (catch_up pq vt c now n))) (l ++ n_queue n).
Proof.
  intros Hn HN H Hrb. unfold catch_up. destruct (n_queue n) as [|m q] eqn:Hq.
  - exists l. cbn. rewrite Hq. split; [exact H|apply Permutation_refl].
  - destruct (revert_if_lagged pq c n) as [restored n0] eqn:Hr.
    destruct (revert_looping N now n l restored n0 Hn HN H Hrb Hr) as (l1 & H1 & P1).
    destruct (integrate_loop pq vt c (List.length (n_queue n0)) now restored n0) as [n1 o1] eqn:Hl.
    destruct (looping_end _ _ _ _ _ _ _ _ (le_n _) H1 Hl) as (l2 & H2 & P2).
    exists l2. cbn. split; [exact H2|]. rewrite <- Hq. eapply Permutation_trans; [exact P2|exact P1].
Qed.

Lemma made_ext l n n' : made_of l n -> n_filter n' = n_filter n ->
  n_meas_hist n' = n_meas_hist n -> n_state_hist n' = n_state_hist n -> made_of l n'.
Proof. intros [a b d e f g] E1 E2 E3. constructor; rewrite ?E1, ?E2, ?E3; assumption. Qed.

Lemma concluded_made N cur l n : node_inv c N n -> made_of l n -> made_of l (concluded c cur n).
Proof.
  intros Hn [a b d e f g]. unfold concluded. rewrite Hsm.
  set (t := fb_last_time (n_filter n) - c_history c).
  destruct (pop_front_while_suffix (fun m => m_time m <? t) (n_meas_hist n)) as (md & Hmd & Hmdt).
  destruct (pop_front_while_suffix (fun s => fs_time s <? t) (n_state_hist n)) as (sd & Hsd & Hsdt).
  pose proof (pop_front_sorted m_time t _ (ni_msort _ _ _ Hn)) as Fm.
  pose proof (pop_front_sorted fs_time t _ (ni_ssort _ _ _ Hn)) as Fs.
  constructor; cbn [n_filter n_meas_hist n_state_hist]; try assumption.
  - destruct e as (l0 & Hl & Hl0). exists (l0 ++ md). rewrite <- app_assoc, <- Hmd. split; [exact Hl|].
    intros s m Hs Hm. apply in_app_or in Hm. destruct Hm as [Hm|Hm].
    + apply Hl0; [|assumption]. rewrite Hsd. apply in_or_app; right; assumption.
    + rewrite Fs in Hs. apply filter_In in Hs. destruct Hs as [_ Hs]. apply Z.leb_le in Hs.
      destruct Hmdt as [Hmdt _]. rewrite Forall_forall in Hmdt. specialize (Hmdt m Hm). cbn in Hmdt. apply Z.ltb_lt in Hmdt. lia.
  - intros pre s post Hs Hp. apply (f (sd ++ pre) s post); [|exact Hp]. rewrite Hsd, Hs, <- app_assoc. reflexivity.
  - intros m Hm. rewrite Fm in Hm. apply filter_In in Hm. destruct Hm as [Hm Hmt].
    destruct (g m Hm) as (s & Hs & Hst). exists s. split; [|assumption]. rewrite Fs. apply filter_In.
    split; [assumption|]. rewrite Hst. exact Hmt.
Qed.

Lemma step_made N n e l : node_inv c N n -> clock_ok N e -> plain e -> n_toggled n = true ->
  (match e with EvCycle _ _ _ => n_enabled n = true -> reaches_back n | _ => True end) ->
  intervals (snd (node_step pq vt c n e)) = [] -> made_of l n ->
  n_toggled (fst (node_step pq vt c n e)) = true /\
  exists l', made_of l' (fst (node_step pq vt c n e)) /\
    Permutation (l' ++ n_queue (fst (node_step pq vt c n e))) (l ++ n_queue n ++ queued (snd (node_step pq vt c n e))).
Proof.
  intros Hn Hc Hpl Htg Hrb Hiv H.
  destruct e as [warn topic stamp upd thresh prep|frame ctl stamp|on| | |stamp prep now| |cur later lookup];
    try (destruct Hpl; fail); cbn [node_step] in *.
  - destruct (sensor_fields pq warn topic stamp upd thresh prep n) as (A & B & C & _ & D & _).
    destruct (sensor_queue pq Hpq warn topic stamp upd thresh prep n) as (Q1 & _).
    cbv zeta in *. split; [rewrite D; exact Htg|]. exists l. split; [apply (made_ext l n _ H A B C)|].
    apply Permutation_app_head. exact Q1.
  - unfold enableFilterSrvCallback. cbn. split; [destruct (n_enabled n); exact Htg|].
    exists l. split; [destruct (n_enabled n); [exact H|apply (made_ext l n _ H); reflexivity]|].
    rewrite app_nil_r. destruct (n_enabled n); apply Permutation_refl.
  - cbn. split; [exact Htg|]. exists l. split; [apply (made_ext l n _ H); reflexivity|].
    rewrite app_nil_r. apply Permutation_refl.
  - destruct (n_enabled n) eqn:He.
    2:{ rewrite (cycle_disabled pq vt c _ _ _ _ He). cbn. split; [exact Htg|]. exists l. split; [exact H|].
        rewrite app_nil_r. apply Permutation_refl. }
    assert (HN : N <= cur).
    { unfold clock_ok in Hc. cbn in Hc. inversion Hc as [|x l' Hs Hf]; subst. inversion Hf; subst. assumption. }
    destruct (catch_up_made N cur n l Hn HN H (Hrb eq_refl)) as (l' & M1 & P1).
    pose proof (catch_up_inv pq vt c Hpq Hvt N cur n Hn HN) as Ci.
    pose proof (catch_up_untouched pq vt c Hpq cur n) as Cu.
    assert (Hcyc : cur <= later).
    { unfold clock_ok in Hc. cbn in Hc. inversion Hc as [|x l'' Hs Hf]; subst. inversion Hs as [|y l3 Hs2 Hf2]; subst.
      inversion Hf2; subst. assumption. }
    destruct (cycle_obs pq vt c cur later lookup n He) as (_ & O2 & O3 & _). cbv zeta in O2, O3.
    rewrite O3 in Hiv.
    rewrite O2. rewrite (cycle_eq pq vt c cur later lookup n He) in *.
    unfold working in *. rewrite Htg in *. rewrite (integrate_eq pq vt c Hpq) in *.
    destruct (catch_up_post pq vt c Hpq cur n) as [_ Hfo]. apply fuse_only_obs in Hfo.
    destruct Hfo as (Hq1 & _).
    destruct (catch_up pq vt c cur n) as [n1 o1]. cbn [fst snd] in *.
    destruct (fb_initialized (n_filter n1) && projects c cur n)%bool.
    { cbn in Hiv. rewrite intervals_app in Hiv. destruct (intervals o1); discriminate. }
    cbn [fst snd] in *.
    destruct (diff_fields cur n1) as (D1 & D2 & D3 & D4 & D5 & D6 & D7 & D8 & _).
    unfold untouched in Cu. injection Cu as _ _ _ _ _ _ _ Cu _ _ _.
    split.
    { cbn. rewrite D8, Cu. exact Htg. }
    exists l'. split.
    + apply (concluded_made cur cur).
      * eapply inv_ext; [exact Ci| | |]; assumption.
      * apply (made_ext l' n1 _ M1); assumption.
    + cbn. rewrite D2, Hq1, app_nil_r. exact P1.
Qed.

Lemma run_made es : forall N n l, node_inv c N n -> monotone_clock N es -> Forall plain es ->
  n_toggled n = true -> deep_enough pq vt c n es ->
  intervals (snd (node_run pq vt c n es)) = [] -> made_of l n ->
  exists l', made_of l' (fst (node_run pq vt c n es)) /\
    Permutation (l' ++ n_queue (fst (node_run pq vt c n es))) (l ++ n_queue n ++ queued (snd (node_run pq vt c n es))).
Proof.
  induction es as [|e es IH]; intros N n l Hn Hm Hpl Htg Hde Hiv H.
  - exists l. cbn. rewrite app_nil_r. split; [exact H|apply Permutation_refl].
  - apply monotone_cons in Hm. destruct Hm as [Hc Hm]. inversion Hpl as [|x y Hx Hy]; subst.
    destruct Hde as [Hd1 Hd2].
    pose proof (step_inv pq vt c Hpq Hvt N n e Hn Hc) as Hs.
    pose proof (step_made N n e l Hn Hc Hx Htg Hd1) as Hstep. cbn [node_run] in *.
    destruct (node_step pq vt c n e) as [n1 o1]. cbn [fst snd] in *.
    pose proof (IH (clock_after N e) n1) as IH'.
    destruct (node_run pq vt c n1 es) as [n2 o2]. cbn [fst snd] in *.
    rewrite intervals_app in Hiv. apply app_eq_nil in Hiv. destruct Hiv as [Hi1 Hi2].
    destruct (Hstep Hi1 H) as (Ht1 & l1 & M1 & P1).
    destruct (IH' l1 Hs Hm Hy Ht1 Hd2 Hi2 M1) as (l2 & M2 & P2). exists l2. split; [exact M2|].
    rewrite queued_app. eapply Permutation_trans; [exact P2|].
    rewrite !app_assoc. apply Permutation_app_tail. rewrite <- !app_assoc. exact P1.
Qed.

Lemma smoothing es N n : node_inv c N n -> n_filter n = f0 -> n_meas_hist n = [] -> n_state_hist n = [] ->
  n_toggled n = true -> monotone_clock N es -> Forall plain es -> deep_enough pq vt c n es ->
  intervals (snd (node_run pq vt c n es)) = [] ->
  exists l, in_order l /\
    Permutation (l ++ n_queue (fst (node_run pq vt c n es))) (n_queue n ++ queued (snd (node_run pq vt c n es))) /\
    same_estimate (n_filter (fst (node_run pq vt c n es))) (fold_left (processMeasurement vt) l f0).
Proof.
  intros Hn Hf Hm Hs Ht Hmo Hpl Hde Hiv.
  assert (H0 : made_of [] n).
  { constructor.
    - constructor.
    - rewrite Hf. exact R0.
    - left; reflexivity.
    - exists []. rewrite Hm. split; [reflexivity|]. intros s m _ [].
    - intros pre s post Hx. rewrite Hs in Hx. destruct pre; discriminate.
    - intros m Hx. rewrite Hm in Hx. destruct Hx. }
  destruct (run_made es N n [] Hn Hmo Hpl Ht Hde Hiv H0) as (l & M & P).
  exists l. split; [apply (mo_order _ _ M)|]. split; [exact P|]. apply R_same, (mo_filter _ _ M).
Qed.
End Smooth.


(** ** Filters that can be restored from a snapshot *)
Section Restorable.
Context {K : Scalar} {E : Type}.
Variable vt : vtbl K E.
Hypothesis Hvt : time_neutral vt.
(** settings *)
Variable A : fb K E -> Prop.
Hypothesis A_state : forall f x, A f -> A (set_state f x).
Hypothesis A_P : forall f x, A f -> A (set_P f x).
Hypothesis A_time : forall f x, A f -> A (set_last_time f x).
Hypothesis A_pred : forall f x, A f -> A (set_predicted f x).
Hypothesis A_init : forall f x, A f -> A (set_initialized f x).
Hypothesis A_predict : forall f r d, A f -> A (v_predict vt f r d).
Hypothesis A_correct : forall f m, A f -> A (v_correct vt f m).
(** prediction only depends on state and covariance *)
Definition estimate_eq (f g : fb K E) : Prop := fb_state f = fb_state g /\ fb_P f = fb_P g.
Definition full_eq (f g : fb K E) : Prop := estimate_eq f g /\ fb_ext f = fb_ext g.
Hypothesis predict_dep : forall f g r d, A f -> A g -> estimate_eq f g ->
  full_eq (v_predict vt f r d) (v_predict vt g r d).
Hypothesis correct_dep : forall f g m, A f -> A g -> full_eq f g ->
  full_eq (v_correct vt f m) (v_correct vt g m).

Definition related (f g : fb K E) : Prop := A f /\ A g /\ same_estimate f g /\ fb_ext f = fb_ext g.

Lemma related_same f g : related f g -> same_estimate f g.
Proof. intros (_ & _ & H & _). exact H. Qed.
Lemma related_inv f g : related f g -> A f.
Proof. intros (H & _). exact H. Qed.
Lemma related_refl f : A f -> related f f.
Proof. intros H. repeat split; assumption. Qed.

Lemma A_process f m : A f -> A (processMeasurement vt f m).
Proof.
  intros H. unfold processMeasurement. destruct (fb_initialized f).
  - assert (H1 : A (if m_time m - fb_last_time f >? 0
       then set_predicted (v_predict vt f (m_time m) (m_time m - fb_last_time f))
              (fb_state (v_predict vt f (m_time m) (m_time m - fb_last_time f))) else f))
      by (destruct (_ >? 0); auto).
    cbv zeta. destruct (_ >=? 0); auto.
  - apply A_time. apply A_init, A_P, A_state, H.
Qed.

Lemma process_dep f g m : A f -> A g -> same_estimate f g ->
  (fb_ext f = fb_ext g \/ (fb_initialized f = true /\ fb_last_time f < m_time m)) ->
  related (processMeasurement vt f m) (processMeasurement vt g m).
Proof.
  intros Hf Hg (E1 & E2 & E3 & E4) Hor.
  split; [apply A_process; assumption|]. split; [apply A_process; assumption|].
  destruct (process_time vt Hvt f m) as [T1 T2]. destruct (process_time vt Hvt g m) as [T3 T4].
  assert (Hx : full_eq (processMeasurement vt f m) (processMeasurement vt g m)).
  { unfold processMeasurement. rewrite <- E1, <- E4. destruct (fb_initialized f) eqn:Hi.
    - set (dl := m_time m - fb_last_time f) in *.
      set (p := if dl >? 0 then set_predicted (v_predict vt f (m_time m) dl) (fb_state (v_predict vt f (m_time m) dl)) else f).
      set (q := if dl >? 0 then set_predicted (v_predict vt g (m_time m) dl) (fb_state (v_predict vt g (m_time m) dl)) else g).
      assert (Hp : A p) by (unfold p; destruct (dl >? 0); auto).
      assert (Hq : A q) by (unfold q; destruct (dl >? 0); auto).
      assert (Hpq : full_eq p q).
      { unfold p, q. rewrite Z.gtb_ltb. destruct (Z.ltb_spec 0 dl).
        - apply (predict_dep f g (m_time m) dl Hf Hg (conj E2 E3)).
        - destruct Hor as [He|[_ Hlt]]; [|unfold dl in *; lia]. split; [split; assumption|assumption]. }
      pose proof (correct_dep p q m Hp Hq Hpq) as Hc. cbv zeta. destruct (dl >=? 0); exact Hc.
    - destruct Hor as [He|[Hz _]]; [|discriminate]. split; [|exact He]. split; cbn; [rewrite E2|rewrite E3]; reflexivity. }
  destruct Hx as [[X1 X2] X3]. split; [|exact X3].
  split; [congruence|]. split; [exact X1|]. split; [exact X2|]. rewrite T1, T3, E1, E4. reflexivity.
Qed.

Lemma related_process f g m : related f g -> related (processMeasurement vt f m) (processMeasurement vt g m).
Proof. intros (H1 & H2 & H3 & H4). apply process_dep; auto. Qed.

Lemma related_load f g m : A f -> A g -> fb_initialized f = true -> fb_initialized g = true ->
  fb_last_time g < m_time m ->
  related (processMeasurement vt (load f (snapshot g)) m) (processMeasurement vt g m).
Proof.
  intros Hf Hg H1 H2 Hlt. apply process_dep.
  - unfold load. auto.
  - assumption.
  - split; [cbn; congruence|]. repeat split.
  - right. split; [exact H1|]. exact Hlt.
Qed.

Lemma restorable_smoothing pq c es N n : pq_ok pq -> c_smooth c = true -> c_use_control c = false ->
  A (n_filter n) -> node_inv c N n -> n_meas_hist n = [] -> n_state_hist n = [] ->
  n_toggled n = true -> monotone_clock N es -> Forall plain es -> deep_enough pq vt c n es ->
  intervals (snd (node_run pq vt c n es)) = [] ->
  exists l, in_order l /\
    Permutation (l ++ n_queue (fst (node_run pq vt c n es))) (n_queue n ++ queued (snd (node_run pq vt c n es))) /\
    same_estimate (n_filter (fst (node_run pq vt c n es))) (fold_left (processMeasurement vt) l (n_filter n)).
Proof.
  intros Hpq Hsm Hnc HA Hn Hm Hs Ht Hmo Hpl Hde Hiv.
  apply (smoothing pq vt c Hpq Hvt Hsm Hnc A related related_same related_inv related_process related_load
           A_process (n_filter n) HA (related_refl _ HA) es N n Hn eq_refl Hm Hs Ht Hmo Hpl Hde Hiv).
Qed.
End Restorable.

(** *** EKF *)
Definition alike {K : Scalar} {E : Type} (f0 f : fb K E) : Prop :=
  F_ok (fb_F f) /\ fb_use_control f = false /\ fb_use_dyn f = fb_use_dyn f0 /\
  fb_control_upd f = fb_control_upd f0 /\ fb_Q f = fb_Q f0 /\
  forall i j, ((i <? 6) && (j <? 6))%nat = false -> fb_dynQ f i j = fb_dynQ f0 i j.

Lemma dynQ_entry {K : Scalar} {E : Type} (f : fb K E) x i j :
  fb_dynQ (computeDynamicProcessNoiseCovariance f x) i j =
  if ((i <? 6) && (j <? 6))%nat
  then mmul 6 (mmul 6 (velocity_matrix x) (fb_Q f)) (mT (velocity_matrix x)) i j else fb_dynQ f i j.
Proof. reflexivity. Qed.

Lemma dyn_same {K : Scalar} {E : Type} (f0 f g : fb K E) x : alike f0 f -> alike f0 g ->
  fb_dynQ (computeDynamicProcessNoiseCovariance f x) = fb_dynQ (computeDynamicProcessNoiseCovariance g x).
Proof.
  intros (_ & _ & _ & _ & A1 & A2) (_ & _ & _ & _ & B1 & B2).
  apply functional_extensionality; intros i; apply functional_extensionality; intros j.
  rewrite !dynQ_entry, A1, B1. specialize (A2 i j). specialize (B2 i j).
  destruct ((i <? 6) && (j <? 6))%nat eqn:Hb; [reflexivity|]. rewrite A2, B2 by reflexivity. reflexivity.
Qed.

Lemma ekf_alike_predict {K : Scalar} (f0 f : ekf K) r d : alike f0 f -> alike f0 (ekf_predict f r d).
Proof.
  intros (H1 & H2 & H3 & H4 & H5 & H6). pose proof (predict_other f r d) as Ho. cbv zeta in Ho.
  destruct Ho as (_ & E1 & E0 & _ & _ & _ & _ & _ & _ & _ & _ & E2 & _ & E4 & _ & _ & E3 & _).
  unfold alike. rewrite E0, E1, E2, E3, E4. repeat split; auto; [apply transfer_F_ok, H1|].
  intros i j Hij. rewrite predict_dynQ. destruct (fb_use_dyn f); [|auto].
  rewrite dynQ_entry, Hij. auto.
Qed.

Lemma ekf_alike_dep {K : Scalar} (f0 f1 f2 : ekf K) r d : alike f0 f1 -> alike f0 f2 ->
  fb_state f1 = fb_state f2 -> fb_P f1 = fb_P f2 ->
  fb_state (ekf_predict f1 r d) = fb_state (ekf_predict f2 r d) /\
  fb_P (ekf_predict f1 r d) = fb_P (ekf_predict f2 r d).
Proof.
  intros A B Ex EP. pose proof (dyn_same f0 f1 f2 (fb_state f2) A B) as Ed.
  destruct A as (A1 & A2 & A3 & A4 & A5 & A6). destruct B as (B1 & B2 & B3 & B4 & B5 & B6).
  rewrite !predict_state, !predict_P.
  assert (EF : predict_F f1 d = predict_F f2 d).
  { unfold predict_F. rewrite Ex. apply transfer_forget; assumption. }
  assert (EJ : predict_J f1 d = predict_J f2 d) by (unfold predict_J; rewrite EF, Ex; reflexivity).
  assert (EA : predict_acc f1 r = predict_acc f2 r).
  { unfold predict_acc, prepareControl, set_control_acc. cbn [fb_control_acc]. rewrite A2, B2. reflexivity. }
  rewrite EF, EJ, EA, Ex, EP, A4, B4. split; [reflexivity|].
  unfold noise_used. rewrite A3, B3, Ex, Ed, A5, B5. reflexivity.
Qed.

Lemma ekf_alike_correct {K : Scalar} eig (f0 f : ekf K) m : alike f0 f -> alike f0 (ekf_correct eig f m).
Proof. intros H. unfold ekf_correct. destruct (checkMahalanobisThreshold _ _ _ _); exact H. Qed.

Lemma ekf_correct_dep {K : Scalar} eig (f g : ekf K) m : fb_state f = fb_state g -> fb_P f = fb_P g ->
  fb_state (ekf_correct eig f m) = fb_state (ekf_correct eig g m) /\
  fb_P (ekf_correct eig f m) = fb_P (ekf_correct eig g m).
Proof.
  intros Ex EP. unfold ekf_correct. rewrite Ex, EP. destruct (checkMahalanobisThreshold _ _ _ _); cbn; [|split; assumption].
  split; reflexivity.
Qed.

Lemma ekf_neutral {K : Scalar} eig : time_neutral (@ekf_vtbl K eig).
Proof.
  split.
  - intros s r d. destruct (predict_other s r d) as (A & _ & _ & _ & B & _). split; assumption.
  - intros s m. destruct (correct_other eig s m) as (A & _ & _ & _ & B & _). split; assumption.
Qed.

Lemma ekf_smoothing {K : Scalar} eig pq (c : config K) es N n :
  pq_ok pq -> c_smooth c = true -> c_use_control c = false ->
  F_ok (fb_F (n_filter n)) -> fb_use_control (n_filter n) = false ->
  node_inv c N n -> n_meas_hist n = [] -> n_state_hist n = [] ->
  n_toggled n = true -> monotone_clock N es -> Forall plain es -> deep_enough pq (ekf_vtbl eig) c n es ->
  intervals (snd (node_run pq (ekf_vtbl eig) c n es)) = [] ->
  exists l, in_order l /\
    Permutation (l ++ n_queue (fst (node_run pq (ekf_vtbl eig) c n es)))
      (n_queue n ++ queued (snd (node_run pq (ekf_vtbl eig) c n es))) /\
    same_estimate (n_filter (fst (node_run pq (ekf_vtbl eig) c n es)))
      (fold_left (processMeasurement (ekf_vtbl eig)) l (n_filter n)).
Proof.
  intros Hpq Hsm Hnc HF Hu. set (f0 := n_filter n).
  apply (restorable_smoothing (ekf_vtbl eig) (ekf_neutral eig) (alike f0)); try assumption;
    try (intros f x H; exact H).
  - intros f r d. apply ekf_alike_predict.
  - intros f m. apply ekf_alike_correct.
  - intros f g r d A B [Ex EP]. split; [apply (ekf_alike_dep f0); assumption|].
    destruct (fb_ext (v_predict (ekf_vtbl eig) f r d)), (fb_ext (v_predict (ekf_vtbl eig) g r d)); reflexivity.
  - intros f g m A B [[Ex EP] _]. split; [apply ekf_correct_dep; assumption|].
    destruct (fb_ext (v_correct (ekf_vtbl eig) f m)), (fb_ext (v_correct (ekf_vtbl eig) g m)); reflexivity.
  - repeat split; auto.
Qed.

(** *** UKF *)
Definition alike_u {K : Scalar} (f0 f : ukf K) : Prop :=
  alike f0 f /\ u_sw (fb_ext f) = u_sw (fb_ext f0) /\ u_cw (fb_ext f) = u_cw (fb_ext f0) /\
  u_lambda (fb_ext f) = u_lambda (fb_ext f0).

Lemma ukf_predict_dynQ {K : Scalar} eig (s : ukf K) r d :
  exists x, fb_dynQ (ukf_predict eig s r d) =
    if fb_use_dyn s then fb_dynQ (computeDynamicProcessNoiseCovariance s x) else fb_dynQ s.
Proof.
  unfold ukf_predict. destruct (project_all _ _ _ _) as [F sg].
  destruct s as [i u dy a b c e f g h k l m n o p q r' s t v w]. destruct dy; [eexists; reflexivity|exists vzero; reflexivity].
Qed.

Lemma ukf_alike_predict {K : Scalar} eig (f0 f : ukf K) r d : alike_u f0 f -> alike_u f0 (ukf_predict eig f r d).
Proof.
  intros ((H1 & H2 & H3 & H4 & H5 & H9) & H6 & H7 & H8).
  destruct (ukf_predict_ctl eig f r d) as [E1 E2]. destruct (ukf_predict_settings eig f r d) as [E3 E4].
  destruct (ukf_predict_weights eig f r d) as (E5 & E6 & E7).
  unfold alike_u, alike. rewrite E1, E2, E3, E4, E5, E6, E7, ukf_predict_F. repeat split; auto.
  - apply project_all_F_ok, H1.
  - intros i j Hij. destruct (ukf_predict_dynQ eig f r d) as (x & ->). destruct (fb_use_dyn f); [|auto].
    rewrite dynQ_entry, Hij. auto.
Qed.

Lemma ukf_predict_ext {K : Scalar} eig (s : ukf K) r d :
  let e := fb_ext (generateSigmaPoints eig s) in
  fb_ext (ukf_predict eig s r d) =
  mkUkfExt (snd (project_all 31 (fb_F s) (u_sigma e) d)) (u_sqrt e) (u_sw e) (u_cw e) (u_lambda e) true.
Proof.
  cbv zeta. unfold ukf_predict.
  change (fb_F (generateSigmaPoints eig (prepareControl s r))) with (fb_F s).
  change (fb_ext (generateSigmaPoints eig (prepareControl s r))) with (fb_ext (generateSigmaPoints eig s)).
  cbv zeta. destruct (project_all _ _ _ _) as [F sg].
  destruct s as [i u dy a b c e f g h k l m n o p q r' s t v w]. destruct dy; reflexivity.
Qed.

Lemma sigma_dep {K : Scalar} eig (f1 f2 : ukf K) : fb_state f1 = fb_state f2 -> fb_P f1 = fb_P f2 ->
  u_lambda (fb_ext f1) = u_lambda (fb_ext f2) ->
  u_sigma (fb_ext (generateSigmaPoints eig f1)) = u_sigma (fb_ext (generateSigmaPoints eig f2)) /\
  u_sqrt (fb_ext (generateSigmaPoints eig f1)) = u_sqrt (fb_ext (generateSigmaPoints eig f2)).
Proof. intros Ex EP El. cbn. rewrite Ex, EP, El. split; reflexivity. Qed.

Lemma ukf_alike_dep {K : Scalar} eig (f0 f1 f2 : ukf K) r d : alike_u f0 f1 -> alike_u f0 f2 ->
  fb_state f1 = fb_state f2 -> fb_P f1 = fb_P f2 ->
  (fb_state (ukf_predict eig f1 r d) = fb_state (ukf_predict eig f2 r d) /\
   fb_P (ukf_predict eig f1 r d) = fb_P (ukf_predict eig f2 r d)) /\
  fb_ext (ukf_predict eig f1 r d) = fb_ext (ukf_predict eig f2 r d).
Proof.
  intros (A & A6 & A7 & A8) (B & B6 & B7 & B8) Ex EP.
  destruct (sigma_dep eig f1 f2 Ex EP ltac:(congruence)) as [ES EQ].
  destruct (ukf_predict_state_P eig f1 r d) as [E1 E2]. destruct (ukf_predict_state_P eig f2 r d) as [E3 E4].
  rewrite E1, E2, E3, E4, !ukf_predict_ext. clear E1 E2 E3 E4. cbv zeta. rewrite ES, EQ.
  assert (Ew : u_sw (fb_ext (generateSigmaPoints eig f1)) = u_sw (fb_ext (generateSigmaPoints eig f2))) by (cbn; congruence).
  assert (Ec : u_cw (fb_ext (generateSigmaPoints eig f1)) = u_cw (fb_ext (generateSigmaPoints eig f2))) by (cbn; congruence).
  assert (El : u_lambda (fb_ext (generateSigmaPoints eig f1)) = u_lambda (fb_ext (generateSigmaPoints eig f2))) by (cbn; congruence).
  rewrite Ew, Ec, El.
  assert (Ep : snd (project_all 31 (fb_F f1) (u_sigma (fb_ext (generateSigmaPoints eig f2))) d) =
               snd (project_all 31 (fb_F f2) (u_sigma (fb_ext (generateSigmaPoints eig f2))) d)).
  { apply project_all_forget; [apply A|apply B]. }
  rewrite Ep. rewrite (dyn_same f0 f1 f2 _ A B).
  destruct A as (A1 & A2 & A3 & A4 & A5 & A9). destruct B as (B1 & B2 & B3 & B4 & B5 & B9).
  rewrite A3, B3, A5, B5. split; [split|]; reflexivity.
Qed.

Lemma ukf_alike_correct {K : Scalar} eig (f0 f : ukf K) m : alike_u f0 f -> alike_u f0 (ukf_correct eig f m).
Proof.
  intros H. unfold ukf_correct.
  destruct (u_uncorrected (fb_ext f)); destruct (checkMahalanobisThreshold _ _ _ _); exact H.
Qed.

Lemma ukf_correct_dep {K : Scalar} eig (f g : ukf K) m :
  fb_state f = fb_state g -> fb_P f = fb_P g -> fb_ext f = fb_ext g ->
  (fb_state (ukf_correct eig f m) = fb_state (ukf_correct eig g m) /\
   fb_P (ukf_correct eig f m) = fb_P (ukf_correct eig g m)) /\
  fb_ext (ukf_correct eig f m) = fb_ext (ukf_correct eig g m).
Proof.
  intros Ex EP Ee. unfold ukf_correct. rewrite <- Ee.
  set (f1 := if u_uncorrected (fb_ext f) then f else generateSigmaPoints eig f).
  set (g1 := if u_uncorrected (fb_ext f) then g else generateSigmaPoints eig g).
  assert (H1 : fb_state f1 = fb_state g1) by (unfold f1, g1; destruct (u_uncorrected (fb_ext f)); exact Ex).
  assert (H2 : fb_P f1 = fb_P g1) by (unfold f1, g1; destruct (u_uncorrected (fb_ext f)); exact EP).
  assert (H3 : fb_ext f1 = fb_ext g1).
  { unfold f1, g1; destruct (u_uncorrected (fb_ext f)); [exact Ee|]. cbn. rewrite Ex, EP, Ee. reflexivity. }
  clearbody f1 g1. cbv zeta. rewrite H1, H2, H3.
  destruct (checkMahalanobisThreshold _ _ _ _); cbn [fb_state fb_P fb_ext set_ext wrapStateAngles set_state set_P].
  - rewrite H3. split; [split|]; reflexivity.
  - split; [split|]; assumption.
Qed.

Lemma ukf_neutral {K : Scalar} eig : time_neutral (@ukf_vtbl K eig).
Proof.
  split.
  - intros s r d. cbn [ukf_vtbl v_predict]. unfold ukf_predict. destruct (project_all _ _ _ _) as [F sg].
    destruct s as [i u dy a b c e f g h k l m n o p q r' s t v w]. destruct dy; split; reflexivity.
  - intros s m. cbn [ukf_vtbl v_correct]. unfold ukf_correct.
    destruct (u_uncorrected (fb_ext s)); destruct (checkMahalanobisThreshold _ _ _ _); split; reflexivity.
Qed.

Lemma ukf_smoothing {K : Scalar} eig pq (c : config K) es N n :
  pq_ok pq -> c_smooth c = true -> c_use_control c = false ->
  F_ok (fb_F (n_filter n)) -> fb_use_control (n_filter n) = false ->
  node_inv c N n -> n_meas_hist n = [] -> n_state_hist n = [] ->
  n_toggled n = true -> monotone_clock N es -> Forall plain es -> deep_enough pq (ukf_vtbl eig) c n es ->
  intervals (snd (node_run pq (ukf_vtbl eig) c n es)) = [] ->
  exists l, in_order l /\
    Permutation (l ++ n_queue (fst (node_run pq (ukf_vtbl eig) c n es)))
      (n_queue n ++ queued (snd (node_run pq (ukf_vtbl eig) c n es))) /\
    same_estimate (n_filter (fst (node_run pq (ukf_vtbl eig) c n es)))
      (fold_left (processMeasurement (ukf_vtbl eig)) l (n_filter n)).
Proof.
  intros Hpq Hsm Hnc HF Hu. set (f0 := n_filter n).
  apply (restorable_smoothing (ukf_vtbl eig) (ukf_neutral eig) (alike_u f0)); try assumption;
    try (intros f x H; exact H).
  - intros f r d. apply ukf_alike_predict.
  - intros f m. apply ukf_alike_correct.
  - intros f g r d A B [Ex EP]. destruct (ukf_alike_dep eig f0 f g r d A B Ex EP) as [X1 X2].
    split; assumption.
  - intros f g m A B [[Ex EP] Ee]. destruct (ukf_correct_dep eig f g m Ex EP Ee) as [X1 X2]. split; assumption.
  - repeat split; auto.
Qed.
