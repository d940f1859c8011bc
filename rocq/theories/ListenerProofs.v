(** * Stored states and query times of the listener (C60, C61) *)

From Coq Require Import Reals ZArith List Bool Arith String Sorted Lia Lra.
From Verif Require Import Scalar Mat FilterBase StrMap Tf Estimator SpecEstimator EstimatorProofs FloatOrder RosFilter RosPrepare
  Listener SpecTf SpecPrepare SpecListener ListenerAnc RBridge TfRot.
Import ListNotations.

Lemma bind_returned {A B : Type} (o : outcome A) (k : A -> outcome B) b :
  bind o k = Returned b -> exists a, o = Returned a /\ k a = Returned b.
Proof. destruct o as [|a]; [discriminate|]. intros H. exists a. auto. Qed.

Section Stored.
Context {K : Scalar} {E : Type} (vt : vtbl K E).
Notation st := (fun m : pair_msg (K := K) => listener_state (fst m) (snd m)).

Lemma state_time o a : es_time (listener_state o a : est_state K) = s_ofZ (whole_second (o_stamp o)).
Proof. unfold listener_state. destruct (quatToRPY _) as [[? ?] ?]. reflexivity. Qed.

Lemma state_stores (m : pair_msg (K := K)) : stores m (st m).
Proof.
  destruct m as [o a]. unfold stores, stamp_of. cbn [fst snd]. split; [apply state_time|].
  unfold listener_state. destruct (quatToRPY _) as [[r p] y]. cbn [es_state es_cov]. unfold at3.
  repeat (split; [reflexivity|] || split).
  intros i j Hi Hj. do 15 (destruct i as [|i]; [do 15 (destruct j as [|j]; [reflexivity|]); lia|]); lia.
Qed.

(** Queries leave buffer and frames alone. *)
Lemma query_keeps env t f w (l l' : listener K E) c c' b v m :
  listener_getState vt env t f w l c = Returned (b, v, m, l', c') ->
  l_base l' = l_base l /\ l_world l' = l_world l /\
  exists e e', l_est l = Some e /\ l_est l' = Some e' /\ e_buf e' = e_buf e /\ e_cap e' = e_cap e.
Proof.
  unfold listener_getState. destruct (l_est l) as [e|] eqn:He; [|discriminate].
  destruct (_ || _)%bool.
  { intros h. injection h as <- <- <- <- <-. split; [reflexivity|]. split; [reflexivity|]. exists e, e. auto. }
  destruct (est_getState vt e t _) as [[code s] e'] eqn:Q.
  pose proof (getState_buf vt e t (mkEst (s_ofZ 0) vzero mzero)) as G. rewrite Q in G. cbn [snd] in G.
  assert (KEEP : forall l2, mkListener (l_base l) (l_world l) (Some e') = l2 ->
    l_base l2 = l_base l /\ l_world l2 = l_world l /\ exists e0 e1, Some e = Some e0 /\ l_est l2 = Some e1 /\ e_buf e1 = e_buf e0 /\ e_cap e1 = e_cap e0).
  { intros l2 <-. split; [reflexivity|]. split; [reflexivity|]. exists e, e'. destruct G. auto. }
  cbv zeta. destruct (_ && _)%bool; [intros h; injection h as _ _ _ h _; apply KEEP, h|].
  intros h. apply bind_returned in h. destruct h as ([[wt|] c1] & _ & h).
  - apply bind_returned in h. destruct h as (n & _ & h). destruct (q_buffer env (l_base l) f n) as [[o q]|].
    + apply bind_returned in h. destruct h as ([[|] c2] & _ & h); cbn [fst snd] in h; injection h as _ _ _ h _; apply KEEP, h.
    + injection h as _ _ _ h _; apply KEEP, h.
  - injection h as _ _ _ h _; apply KEEP, h.
Qed.

(** Contents of the buffer over any execution. *)
Definition from_messages (ms : list (pair_msg (K := K))) (l : listener K E) : Prop :=
  forall e, l_est l = Some e -> Forall (fun s => exists m, In m ms /\ s = st m) (e_buf e).
Lemma insert_in (e : estimator K E) x s : In s (e_buf (est_setState e x)) -> s = x \/ In s (e_buf e).
Proof.
  unfold est_setState. cbn [e_buf].
  assert (PB : forall b : list (est_state K), In s (cb_push_back (e_cap e) b x) -> s = x \/ In s b).
  { intros b. unfold cb_push_back. destruct (Nat.eqb _ _); [auto|]. destruct (Nat.ltb _ _); rewrite in_app_iff; cbn.
    - intuition.
    - intros [H|[H|[]]]; [|auto]. right. destruct b; [exact H|right; exact H]. }
  destruct (e_buf e) as [|a r]; [apply PB|]. destruct (s_ltb _ _); [apply PB|].
  destruct (find_pos _ _) as [k|]; [|auto]. unfold cb_insert. destruct (Nat.ltb _ _).
  - rewrite in_app_iff. cbn [In]. change (a = s \/ In s r) with (In s (a :: r)).
    intros [H|[H|H]]; [right|left; symmetry; exact H|right].
    + rewrite <- (firstn_skipn k (a :: r)). apply in_or_app. auto.
    + rewrite <- (firstn_skipn k (a :: r)). apply in_or_app. auto.
  - destruct k as [|k]; [auto|]. cbn [tl]. rewrite in_app_iff. cbn. intros [H|[H|H]]; [right|left; symmetry; exact H|right];
      right; rewrite <- (firstn_skipn k r); apply in_or_app; auto.
Qed.

Lemma run_from_messages evs : forall (x y : listener K E * anc_cache) ms, from_messages ms (fst x) ->
  listener_run vt evs x = Returned y -> from_messages (ms ++ heard evs) (fst y).
Proof.
  induction evs as [|[o a|env t f w] r IH]; intros [l c] y ms H R; cbn [listener_run heard] in *.
  - injection R as <-. rewrite app_nil_r. exact H.
  - cbn [listener_step fst snd] in R. apply bind_returned in R. destruct R as (x' & S & R). apply bind_returned in S. destruct S as (l' & S & Q).
    injection Q as <-. unfold odomAndAccelCallback in S. destruct (l_est l) as [e|] eqn:He; [|discriminate]. injection S as <-.
    replace (ms ++ (o, a) :: heard r) with ((ms ++ [(o, a)]) ++ heard r) by (rewrite <- app_assoc; reflexivity).
    eapply IH; [|exact R]. intros e' h. cbn in h. injection h as <-. specialize (H e He). rewrite Forall_forall in *.
    intros s Hs. apply insert_in in Hs. destruct Hs as [->|Hs].
    + exists (o, a). split; [apply in_or_app; right; left; reflexivity|reflexivity].
    + destruct (H s Hs) as (m & Hm & ->). exists m. split; [apply in_or_app; auto|reflexivity].
  - cbn [listener_step fst snd] in R. apply bind_returned in R. destruct R as (x' & S & R). apply bind_returned in S.
    destruct S as ([[[[b v] m] l'] c'] & S & Q). injection Q as <-. eapply IH; [|exact R].
    destruct (query_keeps _ _ _ _ _ _ _ _ _ _ _ S) as (_ & _ & e & e' & E1 & E2 & E3 & _).
    intros e2 h. cbn [fst] in h. rewrite E2 in h. injection h as <-. rewrite E3. apply H. exact E1.
Qed.

(** Messages in order: the first of every second, the newest [cap] of them. *)
Context (Ho : order_ok K) (Hz : seconds_ok K).
Definition newest (pre : list (pair_msg (K := K))) : option Z :=
  match rev pre with [] => None | m :: _ => Some (whole_second (stamp_of m)) end.
Lemma newest_app pre m : newest (pre ++ [m]) = Some (whole_second (stamp_of m)).
Proof. unfold newest. rewrite rev_app_distr. reflexivity. Qed.
Lemma first_ordered evs : forall (x y : listener K E * anc_cache) e pre,
  l_est (fst x) = Some e -> good_buffer (e_cap e) (e_buf e) -> (0 < e_cap e)%nat ->
  e_buf e = last_n (e_cap e) (map st pre) ->
  Forall stamped32 pre -> Forall stamped32 (heard evs) ->
  in_order (heard evs) ->
  (forall a b, In a pre -> In b (heard evs) -> (stamp_of a <= stamp_of b)%Z) ->
  (forall a t, In a pre -> newest pre = Some t -> (whole_second (stamp_of a) <= t)%Z) ->
  listener_run vt evs x = Returned y ->
  exists e', l_est (fst y) = Some e' /\ e_cap e' = e_cap e /\
    e_buf e' = last_n (e_cap e) (map st (pre ++ first_of_seconds (newest pre) (heard evs))).
Proof.
  induction evs as [|[o a|env t f w] r IH]; intros [l c] y e pre He Hg Hc Hb Sp Sh Or Ab Le R; cbn [listener_run heard fst] in *.
  - injection R as <-. exists e. rewrite app_nil_r. auto.
  - cbn [listener_step fst snd] in R. apply bind_returned in R. destruct R as (x' & S & R). apply bind_returned in S. destruct S as (l' & S & Q).
    injection Q as <-. unfold odomAndAccelCallback in S. rewrite He in S. injection S as <-.
    set (m := (o, a)) in *. inversion Sh as [|? ? Sm Sr]; subst. inversion Or as [|? ? Or' Hd]; subst.
    assert (Os : forall b, In b (heard r) -> (stamp_of m <= stamp_of b)%Z).
    { intros b Hb'. clear - Or Hb'. apply Sorted_StronglySorted in Or; [|intros x y z; lia]. inversion Or as [|? ? _ F]; subst.
      rewrite Forall_forall in F. apply F, Hb'. }
    assert (Tm : es_time (st m) = s_ofZ (whole_second (stamp_of m))) by apply state_time.
    assert (NAN : stamped (st m)) by (unfold stamped; rewrite Tm; exact (proj1 (Hz _ _ Sm Sm))).
    match type of R with listener_run _ _ ?x = _ => pose (x1 := x); change x with x1 in R end.
    assert (He1 : l_est (fst x1) = Some (est_setState e (st m))) by reflexivity. clearbody x1.
    cbn [first_of_seconds].
    destruct pre as [|p0 pre0 _] using rev_ind.
    + (* nothing yet *)
      cbn [newest rev]. cbn [map] in Hb. replace (last_n (e_cap e) (@nil (est_state K))) with (@nil (est_state K)) in Hb by reflexivity.
      destruct (IH x1 y (est_setState e (st m)) [m]) with (10 := R) as (e' & E1 & E2 & E3); try assumption; try reflexivity.
      * apply setState_ok; assumption.
      * rewrite insert_newest; [rewrite Hb; reflexivity|exact Hg|rewrite Hb; intros z []].
      * constructor; [exact Sm|constructor].
      * intros a1 b1 [<-|[]] H1. apply Os, H1.
      * intros a1 t1 [<-|[]] H1. injection H1 as <-. lia.
      * exists e'. split; [exact E1|]. split; [exact E2|]. exact E3.
    + rewrite newest_app. pose proof (Le p0 _ ltac:(apply in_or_app; right; left; reflexivity) (newest_app pre0 p0)) as _.
      assert (M0 : (whole_second (stamp_of p0) <= whole_second (stamp_of m))%Z).
      { apply Z.div_le_mono; [lia|]. apply Ab; [apply in_or_app; right; left; reflexivity|left; reflexivity]. }
      assert (S0 : int32 (whole_second (stamp_of p0))) by (rewrite Forall_forall in Sp; apply Sp, in_or_app; right; left; reflexivity).
      assert (B1 : exists l1, e_buf e = l1 ++ [st p0]).
      { rewrite Hb, map_app. cbn [map]. exists (skipn (List.length (map st pre0) + 1 - e_cap e) (map st pre0)). unfold last_n.
        rewrite app_length. cbn [List.length]. rewrite skipn_app.
        replace (List.length (map st pre0) + 1 - e_cap e - List.length (map st pre0))%nat with O by lia. reflexivity. }
      destruct (Z.eqb_spec (whole_second (stamp_of p0)) (whole_second (stamp_of m))) as [Eq|Ne].
      * (* same second: dropped *)
        assert (SAME : est_setState e (st m) = e).
        { destruct B1 as [l1 B1]. destruct (e_buf e) as [|b0 br] eqn:Eb; [destruct l1; discriminate|].
          apply (insert_equal_newest Ho e (st m) b0 br); [rewrite <- Eb in Hg; exact Hg|exact NAN|exact Eb|].
          destruct (back_last b0 br) as [l2 B2]. rewrite B1 in B2. apply app_inj_tail in B2. destruct B2 as [_ <-].
          rewrite Tm. cbn beta. rewrite state_time. change (o_stamp (fst p0)) with (stamp_of p0).
          rewrite (proj2 (proj2 (Hz _ _ S0 Sm))). apply Z.eqb_eq, Eq. }
        assert (He2 : l_est (fst x1) = Some e) by (rewrite He1; f_equal; exact SAME). clear He1. destruct (IH x1 y e (pre0 ++ [p0])) with (10 := R) as (e' & E1 & E2 & E3); try assumption; try reflexivity.
        -- intros a1 b1 H1 H2. apply Ab; [exact H1|right; exact H2].
        -- exists e'. rewrite newest_app in E3. auto.
      * assert (Lt : (whole_second (stamp_of p0) < whole_second (stamp_of m))%Z) by lia.
        destruct (IH x1 y (est_setState e (st m)) ((pre0 ++ [p0]) ++ [m])) with (10 := R) as (e' & E1 & E2 & E3); try assumption; try reflexivity.
        -- apply setState_ok; assumption.
        -- change (e_cap (est_setState e (st m))) with (e_cap e). rewrite insert_newest; [|exact Hg|].
           ++ rewrite Hb, last_n_app_tail by exact Hc. rewrite (map_app st (pre0 ++ [p0])). reflexivity.
           ++ intros z Hz'. rewrite Hb in Hz'. unfold last_n in Hz'.
              assert (Hin : In z (map st (pre0 ++ [p0]))).
              { rewrite <- (firstn_skipn (List.length (map st (pre0 ++ [p0])) - e_cap e) (map st (pre0 ++ [p0]))). apply in_or_app. auto. }
              apply in_map_iff in Hin. destruct Hin as (q & <- & Hq). unfold before. cbn beta. rewrite !state_time.
              change (o_stamp (fst q)) with (stamp_of q). change (o_stamp (fst m)) with (stamp_of m).
              assert (Sq : int32 (whole_second (stamp_of q))) by (rewrite Forall_forall in Sp; apply Sp, Hq).
              rewrite (proj1 (proj2 (Hz _ _ Sq Sm))). apply Z.ltb_lt.
              pose proof (Le q _ Hq (newest_app pre0 p0)). lia.
        -- apply Forall_app. split; [exact Sp|constructor; [exact Sm|constructor]].
        -- intros a1 b1 H1 H2. apply in_app_or in H1. destruct H1 as [H1|[<-|[]]]; [apply Ab; [exact H1|right; exact H2]|apply Os, H2].
        -- intros a1 t1 H1 H2. rewrite newest_app in H2. injection H2 as <-. apply in_app_or in H1. destruct H1 as [H1|[<-|[]]]; [|lia].
           pose proof (Le a1 _ H1 (newest_app pre0 p0)). lia.
        -- exists e'. split; [exact E1|]. split; [exact E2|]. rewrite E3, newest_app. rewrite <- !app_assoc. reflexivity.
  - cbn [listener_step fst snd] in R. apply bind_returned in R. destruct R as (x' & S & R). apply bind_returned in S.
    destruct S as ([[[[b v] m] l'] c'] & S & Q). injection Q as <-.
    destruct (query_keeps _ _ _ _ _ _ _ _ _ _ _ S) as (_ & _ & e0 & e' & E1 & E2 & E3 & E4).
    rewrite He in E1. injection E1 as <-. rewrite <- E4. apply (IH (l', c') y e' pre); cbn [fst]; rewrite ?E3, ?E4; assumption.
Qed.
Lemma empty_capacity evs : forall (x y : listener K E * anc_cache) e,
  l_est (fst x) = Some e -> e_cap e = 0%nat -> e_buf e = [] -> listener_run vt evs x = Returned y ->
  exists e', l_est (fst y) = Some e' /\ e_cap e' = 0%nat /\ e_buf e' = [].
Proof.
  induction evs as [|[o a|env t f w] r IH]; intros [l c] y e He Hc Hb R; cbn [listener_run fst] in *.
  - injection R as <-. exists e. auto.
  - cbn [listener_step fst snd] in R. apply bind_returned in R. destruct R as (x' & S & R). apply bind_returned in S. destruct S as (l' & S & Q).
    injection Q as <-. unfold odomAndAccelCallback in S. rewrite He in S. injection S as <-.
    eapply IH in R; [exact R|reflexivity|exact Hc|].
    unfold est_setState. rewrite Hb, Hc. reflexivity.
  - cbn [listener_step fst snd] in R. apply bind_returned in R. destruct R as (x' & S & R). apply bind_returned in S.
    destruct S as ([[[[b v] m] l'] c'] & S & Q). injection Q as <-.
    destruct (query_keeps _ _ _ _ _ _ _ _ _ _ _ S) as (_ & _ & e0 & e' & E1 & E2 & E3 & E4).
    rewrite He in E1. injection E1 as <-. apply (IH (l', c') y e'); [exact E2|congruence|congruence|exact R].
Qed.

Lemma kept_states cap filter reparse q (l0 : listener K E) c evs y :
  listener_construct cap (Some filter) reparse q = Returned l0 ->
  Forall stamped32 (heard evs) -> in_order (heard evs) ->
  listener_run vt evs (l0, c) = Returned y ->
  exists e, l_est (fst y) = Some e /\ e_buf e = last_n cap (map st (first_of_seconds None (heard evs))).
Proof.
  intros C S O R. unfold listener_construct in C. destruct (Nat.ltb _ _); [discriminate|]. injection C as <-.
  destruct cap as [|cap].
  - eapply empty_capacity in R; [|reflexivity|reflexivity|reflexivity]. destruct R as (e & E1 & E2 & E3).
    exists e. split; [exact E1|]. rewrite last_n_0. exact E3.
  - eapply (first_ordered evs) with (pre := @nil (pair_msg (K := K))) in R; [destruct R as (e & E1 & E2 & E3)|reflexivity|..]; try assumption.
    + exists e. split; [exact E1|exact E3].
    + repeat split; [constructor|constructor|cbn; lia].
    + cbn. lia.
    + reflexivity.
    + constructor.
    + intros a b [].
    + intros a t [].
Qed.
End Stored.

(** ** Times *)
Lemma seconds_R : seconds_ok RScalar.
Proof.
  intros a b _ _. split; [reflexivity|]. split.
  - destruct (Z.ltb_spec a b) as [h|h]; [apply Rltb_true, IZR_lt, h|apply Rltb_false, IZR_le, h].
  - destruct (Z.eqb_spec a b) as [->|h]; [apply RBridge.Reqb_true; reflexivity|].
    change (Reqb (IZR a) (IZR b) = false). unfold Reqb. destruct (Req_EM_T (IZR a) (IZR b)) as [Q|]; [|reflexivity].
    apply eq_IZR in Q. contradiction.
Qed.

Local Open Scope R_scope.
Lemma to_int_R (x : R) : @to_int RScalar x = if Rlt_dec (-2147483649) x then if Rlt_dec x 2147483648 then Returned (Rtrunc x) else Undefined else Undefined.
Proof.
  unfold to_int. change (s_isnan (s := RScalar) x) with false. cbn [negb andb].
  change (@s_ltb RScalar) with Rltb. change (@s_ofZ RScalar) with IZR. change (@s_trunc RScalar) with Rtrunc. unfold Rltb.
  destruct (Rlt_dec (-2147483649) x); [|reflexivity]. destruct (Rlt_dec x 2147483648); reflexivity.
Qed.
Lemma nanoseconds_defined (time : R) : (exists n, @query_nanoseconds RScalar time = Returned n) <-> int_nanoseconds time.
Proof.
  unfold query_nanoseconds, int_nanoseconds. change (s_mul (s := RScalar)) with Rmult. change (@s_ofZ RScalar 1000000000) with 1000000000.
  rewrite to_int_R. destruct (Rlt_dec (-2147483649) (time * 1000000000)); [destruct (Rlt_dec (time * 1000000000) 2147483648)|];
    (split; [intros [k h]|intros [h1 h2]]); try discriminate h; try lra; eauto.
Qed.
Lemma nanoseconds_undefined (time : R) : ~ int_nanoseconds time -> @query_nanoseconds RScalar time = Undefined.
Proof. intros H. rewrite <- nanoseconds_defined in H. destruct (query_nanoseconds _); [reflexivity|]. exfalso. eauto. Qed.
