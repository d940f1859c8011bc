(** * Queries by ROS time see whole seconds (C60), messages reconstruct the
      filter (C73) *)

From Coq Require Import Reals ZArith List Bool Arith String Lia Lra Sorted.
From Verif Require Import Scalar Mat FilterBase StrMap Tf Estimator SpecEstimator EstimatorProofs RosFilter RosPrepare
  Listener SpecLin SpecTf SpecNode SpecOutput SpecPrepare SpecListener ListenerAnc ListenerProofs ListenerQuery OutputProofs.
Import ListNotations.

Section Stale.
Context {K : Scalar} {E : Type} (vt : vtbl K E).
Notation st m := (listener_state (fst m) (snd m)).

Lemma ros_same_second env now s1 s2 frame world (l : listener K E) c : (0 < s1)%Z -> (0 < s2)%Z -> whole_second s1 = whole_second s2 ->
  listener_getState_ros vt env now s1 frame world l c = listener_getState_ros vt env now s2 frame world l c.
Proof.
  intros H1 H2 H. unfold listener_getState_ros. rewrite (proj2 (Z.eqb_neq s1 0)), (proj2 (Z.eqb_neq s2 0)) by lia.
  rewrite !Z.quot_div_nonneg by lia. unfold whole_second in H. rewrite H. reflexivity.
Qed.

Context (Ho : order_ok K) (Hz : seconds_ok K).
Lemma run_good evs : forall (x y : listener K E * anc_cache) e, l_est (fst x) = Some e -> good_buffer (e_cap e) (e_buf e) ->
  Forall stamped32 (heard evs) -> listener_run vt evs x = Returned y ->
  exists e', l_est (fst y) = Some e' /\ good_buffer (e_cap e') (e_buf e').
Proof.
  induction evs as [|[o a|env t f w] r IH]; intros [l c] y e He Hg Sh R; cbn [listener_run heard fst] in *.
  - injection R as <-. exists e. auto.
  - cbn [listener_step fst snd] in R. apply bind_returned in R. destruct R as (x' & S & R). apply bind_returned in S. destruct S as (l' & S & Q).
    injection Q as <-. unfold odomAndAccelCallback in S. rewrite He in S. injection S as <-.
    inversion Sh as [|? ? Sm Sr]; subst.
    assert (NAN : stamped (st (o, a))) by (unfold stamped; rewrite state_time; exact (proj1 (Hz _ _ Sm Sm))).
    eapply IH in R; [exact R|reflexivity| |exact Sr]. apply (setState_ok Ho); [exact Hg|exact NAN].
  - cbn [listener_step fst snd] in R. apply bind_returned in R. destruct R as (x' & S & R). apply bind_returned in S.
    destruct S as ([[[[b v] m] l'] c'] & S & Q). injection Q as <-.
    destruct (query_keeps _ _ _ _ _ _ _ _ _ _ _ _ S) as (_ & _ & e0 & e' & E1 & E2 & E3 & E4).
    rewrite He in E1. injection E1 as <-. apply (IH (l', c') y e'); [exact E2|rewrite E3, E4; exact Hg|exact Sh|exact R].
Qed.

Lemma firsts_rise (l : list (pair_msg (K := K))) : forall last, in_order l ->
  (forall t m, last = Some t -> In m l -> (t <= whole_second (stamp_of m))%Z) ->
  StronglySorted (fun a b => (whole_second (stamp_of a) < whole_second (stamp_of b))%Z) (first_of_seconds last l) /\
  (forall t m, last = Some t -> In m (first_of_seconds last l) -> (t < whole_second (stamp_of m))%Z) /\
  incl (first_of_seconds last l) l.
Proof.
  induction l as [|m r IH]; intros last Or Hl; cbn [first_of_seconds].
  - split; [constructor|]. split; [intros t m _ []|intros x []].
  - assert (Os : forall b, In b r -> (whole_second (stamp_of m) <= whole_second (stamp_of b))%Z).
    { intros b Hb. apply Sorted_StronglySorted in Or; [|intros x y z; lia]. inversion Or as [|? ? _ F]; subst.
      rewrite Forall_forall in F. apply Z.div_le_mono; [lia|]. apply F, Hb. }
    inversion Or as [|? ? Or' _]; subst.
    assert (CASE : StronglySorted (fun a b => (whole_second (stamp_of a) < whole_second (stamp_of b))%Z) (m :: first_of_seconds (Some (whole_second (stamp_of m))) r) /\
      incl (m :: first_of_seconds (Some (whole_second (stamp_of m))) r) (m :: r)).
    { destruct (IH (Some (whole_second (stamp_of m))) Or') as (I1 & I2 & I3); [intros t x Ht Hx; injection Ht as <-; apply Os, Hx|].
      split; [constructor; [exact I1|apply Forall_forall; intros x Hx; exact (I2 _ x eq_refl Hx)]|].
      intros x [<-|Hx]; [left; reflexivity|right; apply I3, Hx]. }
    destruct last as [t|]; [destruct (Z.eqb_spec t (whole_second (stamp_of m))) as [Et|Nt]|].
    + destruct (IH (Some t) Or') as (I1 & I2 & I3); [intros t' x Ht Hx; injection Ht as <-; rewrite Et; apply Os, Hx|].
      split; [exact I1|]. split; [exact I2|]. intros x Hx. right. apply I3, Hx.
    + destruct CASE as [C1 C2]. split; [exact C1|]. split; [|exact C2].
      intros t' x Ht Hx. injection Ht as <-. pose proof (Hl t m eq_refl (or_introl eq_refl)).
      apply C2 in Hx. destruct Hx as [<-|Hx]; [lia|]. pose proof (Os _ Hx). lia.
    + destruct CASE as [C1 C2]. split; [exact C1|]. split; [discriminate|exact C2].
Qed.
Lemma rising_unique (l : list (pair_msg (K := K))) a b :
  StronglySorted (fun a b => (whole_second (stamp_of a) < whole_second (stamp_of b))%Z) l ->
  In a l -> In b l -> whole_second (stamp_of a) = whole_second (stamp_of b) -> a = b.
Proof.
  induction 1 as [|m r S IH F]; intros Ha Hb Q; [destruct Ha|]. rewrite Forall_forall in F.
  destruct Ha as [<-|Ha], Hb as [<-|Hb]; [reflexivity| | |exact (IH Ha Hb Q)].
  - specialize (F _ Hb). lia.
  - specialize (F _ Ha). lia.
Qed.
Lemma last_n_map {A B} (f : A -> B) n (l : list A) : last_n n (map f l) = map f (last_n n l).
Proof. unfold last_n. rewrite map_length. generalize (List.length l - n)%nat. intros k. revert k. induction l as [|x r IH]; intros [|k]; cbn; auto. Qed.
Lemma last_n_in {A} n (l : list A) x : In x (last_n n l) -> In x l.
Proof. unfold last_n. intros H. rewrite <- (firstn_skipn (List.length l - n) l). apply in_or_app. auto. Qed.

(** The estimate at a second that has a stored message is that message. *)
Lemma stored_estimate cap filter reparse q (l0 l : listener K E) c0 c evs m :
  listener_construct cap (Some filter) reparse q = Returned l0 ->
  Forall stamped32 (heard evs) -> in_order (heard evs) ->
  listener_run vt evs (l0, c0) = Returned (l, c) ->
  In m (last_n cap (first_of_seconds None (heard evs))) ->
  exists e, l_est l = Some e /\
  est_getState vt e (s_ofZ (whole_second (stamp_of m))) (mkEst (s_ofZ 0) vzero mzero) = (Exact, st m, e).
Proof.
  intros C S O R Hm.
  destruct (kept_states vt Ho Hz cap filter reparse q l0 c0 evs (l, c) C S O R) as (e & He & Hb). cbn [fst] in He.
  unfold listener_construct in C. destruct (Nat.ltb _ _); [discriminate|]. injection C as <-.
  assert (HG : exists e1, l_est (fst (l, c)) = Some e1 /\ good_buffer (e_cap e1) (e_buf e1)).
  { eapply (run_good evs) in R; [exact R|reflexivity| |exact S]. repeat split; [constructor|constructor|cbn; lia]. }
  destruct HG as (e1 & He1 & Hg).
  cbn [fst] in He1. rewrite He in He1. injection He1 as <-.
  exists e. split; [exact He|].
  destruct (firsts_rise (heard evs) None O ltac:(discriminate)) as (F1 & _ & F3).
  pose proof (last_n_in _ _ _ Hm) as Hm'. rewrite Forall_forall in S.
  assert (Sm : int32 (whole_second (stamp_of m))) by (apply S, F3, Hm').
  set (t := s_ofZ (whole_second (stamp_of m))).
  assert (Nt : s_isnan t = false) by (exact (proj1 (Hz _ _ Sm Sm))).
  destruct (code_iff vt Ho e t (mkEst (s_ofZ 0) vzero mzero) Hg Nt) as (_ & CE & _).
  assert (X : fst (fst (est_getState vt e t (mkEst (s_ofZ 0) vzero mzero))) = Exact).
  { apply CE. exists (st m). split.
    - rewrite Hb, last_n_map. apply in_map_iff. exists m. auto.
    - unfold same_time. rewrite state_time. change (o_stamp (fst m)) with (stamp_of m). unfold t. rewrite (proj2 (proj2 (Hz _ _ Sm Sm))). apply Z.eqb_refl. }
  destruct (getState_cases vt Ho e t (mkEst (s_ofZ 0) vzero mzero) Hg Nt) as [[_ Q]|[(s & Hin & Heq & Q)|[(l1 & p & n & l2 & _ & _ & _ & Q & _)|Q]]].
  - rewrite Q in X. discriminate X.
  - rewrite Q. f_equal. f_equal. rewrite Hb, last_n_map in Hin. apply in_map_iff in Hin. destruct Hin as (m' & <- & Hm2).
    rewrite state_time in Heq. change (o_stamp (fst m')) with (stamp_of m') in Heq.
    assert (Sm2 : int32 (whole_second (stamp_of m'))) by (apply S, F3, (last_n_in _ _ _ Hm2)).
    unfold t in Heq. rewrite (proj2 (proj2 (Hz _ _ Sm2 Sm))) in Heq. apply Z.eqb_eq in Heq.
    rewrite (rising_unique _ m' m F1 (last_n_in _ _ _ Hm2) Hm' Heq). reflexivity.
  - rewrite Q in X. discriminate X.
  - exfalso. destruct Q as [(l1 & p & _ & _ & Q & _)|(n & l2 & _ & _ & Q & _)]; rewrite Q in X; discriminate X.
Qed.

(** A query by ROS time in a second that has a stored message gets that message. *)
Theorem same_second_answer cap filter reparse q (l0 l : listener K E) c0 c evs env now stamp m world :
  listener_construct cap (Some filter) reparse q = Returned l0 ->
  Forall stamped32 (heard evs) -> in_order (heard evs) ->
  listener_run vt evs (l0, c0) = Returned (l, c) ->
  l_base l <> ""%string -> l_world l <> ""%string -> frame_or world (l_world l) = l_world l ->
  In m (last_n cap (first_of_seconds None (heard evs))) ->
  (0 < stamp)%Z -> whole_second (stamp_of m) = whole_second stamp ->
  listener_getState_ros vt env now stamp (l_base l) world l c =
    Returned (true, es_state (st m), es_cov (st m), l, c).
Proof.
  intros C S O R Nb Nw Hw Hm Hs HS. destruct (stored_estimate _ _ _ _ _ _ _ _ _ _ C S O R Hm) as (e & He & Y).
  unfold listener_getState_ros. rewrite (proj2 (Z.eqb_neq stamp 0)) by lia. rewrite Z.quot_div_nonneg by lia.
  change (stamp / 1000000000)%Z with (whole_second stamp). rewrite <- HS.
  rewrite (query_own vt env _ (l_base l) world l c e He Nb Nw eq_refl Hw).
  unfold estimate, after. rewrite Y. cbn [fst snd]. rewrite <- He. destruct l; reflexivity.
Qed.
End Stale.

(** ** What the listener stores of what the node publishes *)
Local Open Scope R_scope.
Lemma one_cycle {E : Type} (before : list (event RScalar E)) cur later lookup cur' later' lookup' after :
  [EvCycle cur later lookup] = before ++ EvCycle cur' later' lookup' :: after -> before ++ [EvCycle cur' later' lookup'] = [EvCycle cur later lookup].
Proof. destruct before as [|x [|y r]]; cbn; intros H; injection H; intros; subst; try discriminate; reflexivity. Qed.

Lemma reconstructs {E : Type} pq (vt : vtbl RScalar E) c : pq_ok pq -> forall cur later lookup n n' o m a,
  periodicUpdate pq vt c cur later lookup n = (n', o) -> In (OutOdom m) o -> In (OutAccel a) o ->
  let f := n_filter n' in let s := @listener_state RScalar m a in
  - PI < fb_state f 3%nat <= PI -> - (PI / 2) < fb_state f 4%nat < PI / 2 -> - PI < fb_state f 5%nat <= PI ->
  es_time s = IZR (whole_second (fb_last_time f)) /\
  (forall i, (i < 15)%nat -> es_state s i = fb_state f i) /\
  (forall i j, (i < 15)%nat -> (j < 15)%nat -> es_cov s i j =
     if (block_of i j 0 6 || block_of i j 6 6 || block_of i j 12 3)%bool then fb_P f i j else 0).
Proof.
  intros Hpq cur later lookup n n' o m a Q Hm Ha. cbv zeta. intros A3 A4 A5.
  assert (RUN : node_run pq vt c n [EvCycle cur later lookup] = (n', o)).
  { cbn [node_run node_step]. rewrite Q. rewrite app_nil_r. reflexivity. }
  pose proof (orientation_of_run pq vt c Hpq n [EvCycle cur later lookup] m) as OR. rewrite RUN in OR. specialize (OR Hm).
  destruct OR as (b1 & c1 & l1 & k1 & f1 & E1 & OR). rewrite (one_cycle _ _ _ _ _ _ _ _ E1), RUN in OR. cbv zeta in OR. cbn [fst] in OR.
  destruct OR as (SH & _ & RPY). specialize (RPY A3 A4 A5).
  pose proof (acceleration_of_run pq vt c Hpq n [EvCycle cur later lookup] a) as AR. rewrite RUN in AR. specialize (AR Ha).
  destruct AR as (b2 & c2 & l2 & k2 & f2 & E2 & AR). rewrite (one_cycle _ _ _ _ _ _ _ _ E2), RUN in AR. cbn [fst] in AR.
  destruct SH as (_ & St & _ & _ & Po & Li & An & Cv). destruct AR as (_ & _ & _ & Al & _ & Ac).
  set (f := n_filter n') in *. unfold listener_state, quatToRPY. rewrite RPY, Po, Li, An, Al, St. cbn [es_time es_state es_cov].
  split; [reflexivity|]. split.
  - intros i Hi. do 15 (destruct i as [|i]; [reflexivity|]). lia.
  - intros i j Hi Hj. unfold set_block, block_of. cbn [Nat.add].
    assert (C6 : forall i j, (i < 6)%nat -> (j < 6)%nat -> o_pose_cov m (i * 6 + j)%nat = fb_P f i j /\ o_twist_cov m (i * 6 + j)%nat = fb_P f (6 + i)%nat (6 + j)%nat)
      by (intros i' j' Hi' Hj'; rewrite (Nat.mul_comm i' 6); apply Cv; assumption).
    assert (C3 : forall i j, (i < 3)%nat -> (j < 3)%nat -> ac_cov a (i * 6 + j)%nat = fb_P f (12 + i)%nat (12 + j)%nat)
      by (intros i' j' Hi' Hj'; rewrite (Nat.mul_comm i' 6); apply Ac; assumption).
    do 15 (destruct i as [|i]; [do 15 (destruct j as [|j]; [cbn [Nat.leb Nat.ltb andb orb Nat.sub]; first [reflexivity | apply (C6 _ _); lia | apply (C3 _ _); lia]|]); lia|]); lia.
Qed.
