(** * State buffer: ordering, retention, queries (C21-C24) *)

From Coq Require Import Reals ZArith List Bool Arith Sorted Lra Lia Floats.
From Verif Require Import Scalar FloatScalar Mat FilterBase Estimator SpecEstimator.
Import ListNotations.

(** ** Lists *)

Section Lists.
Context {A : Type}.

Lemma last_n_all n (l : list A) : length l <= n -> last_n n l = l.
Proof. intros H. unfold last_n. replace (length l - n) with 0 by lia. reflexivity. Qed.

Lemma skipn_add a b (l : list A) : skipn a (skipn b l) = skipn (a + b) l.
Proof.
  revert l; induction b; intros l; [rewrite Nat.add_0_r; reflexivity|].
  rewrite Nat.add_succ_r. destruct l; [rewrite !skipn_nil; reflexivity|apply IHb].
Qed.

Lemma last_n_app_tail n (l : list A) x : 0 < n -> last_n n (last_n n l ++ [x]) = last_n n (l ++ [x]).
Proof.
  intros Hn. unfold last_n. rewrite !app_length, skipn_length. cbn [length].
  destruct (Nat.le_gt_cases (length l) n) as [H|H].
  - replace (length l - n) with 0 by lia. cbn [skipn]. f_equal. lia.
  - replace (length l - (length l - n) + 1 - n) with 1 by lia.
    replace (length l + 1 - n) with (length l - n + 1) by lia.
    rewrite !skipn_app, !skipn_length.
    replace (1 - (length l - (length l - n))) with 0 by lia.
    replace (length l - n + 1 - length l) with 0 by lia.
    rewrite skipn_add. replace (1 + (length l - n)) with (length l - n + 1) by lia.
    reflexivity.
Qed.

Lemma last_n_0 (l : list A) : last_n 0 l = [].
Proof. unfold last_n. rewrite Nat.sub_0_r. apply skipn_all. Qed.

Lemma last_n_length n (l : list A) : length (last_n n l) = Nat.min n (length l).
Proof. unfold last_n. rewrite skipn_length. lia. Qed.

Lemma last_n_tl n (l : list A) : length l = S n -> last_n n l = tl l.
Proof. intros H. unfold last_n. rewrite H. replace (S n - n) with 1 by lia. destruct l; reflexivity. Qed.

Lemma SSorted_app (R : A -> A -> Prop) l1 l2 :
  StronglySorted R (l1 ++ l2) <->
  StronglySorted R l1 /\ StronglySorted R l2 /\ (forall a b, In a l1 -> In b l2 -> R a b).
Proof.
  induction l1 as [|x l1 IH]; cbn [app].
  - split; [intros H; repeat split; [constructor|exact H|intros a b []]|tauto].
  - split.
    + intros H. apply StronglySorted_inv in H. destruct H as [H F]. apply IH in H.
      destruct H as (H1 & H2 & H3). rewrite Forall_forall in F.
      repeat split; [constructor; [exact H1|]|exact H2|].
      * apply Forall_forall. intros a Ha. apply F, in_or_app. auto.
      * intros a b [<-|Ha] Hb; [apply F, in_or_app; auto|apply H3; assumption].
    + intros (H1 & H2 & H3). apply StronglySorted_inv in H1. destruct H1 as [H1 F].
      constructor; [apply IH; repeat split; auto; intros; apply H3; cbn; auto|].
      rewrite Forall_forall in *. intros a Ha. apply in_app_or in Ha.
      destruct Ha; [apply F; assumption|apply H3; cbn; auto].
Qed.

Lemma SSorted_skipn (R : A -> A -> Prop) n l : StronglySorted R l -> StronglySorted R (skipn n l).
Proof. intros H. rewrite <- (firstn_skipn n l) in H. apply SSorted_app in H. tauto. Qed.
Lemma SSorted_firstn (R : A -> A -> Prop) n l : StronglySorted R l -> StronglySorted R (firstn n l).
Proof. intros H. rewrite <- (firstn_skipn n l) in H. apply SSorted_app in H. tauto. Qed.

Lemma Forall_skipn (P : A -> Prop) n l : Forall P l -> Forall P (skipn n l).
Proof. intros H. rewrite <- (firstn_skipn n l) in H. apply Forall_app in H. tauto. Qed.
Lemma Forall_firstn (P : A -> Prop) n l : Forall P l -> Forall P (firstn n l).
Proof. intros H. rewrite <- (firstn_skipn n l) in H. apply Forall_app in H. tauto. Qed.
End Lists.

(** ** The buffer *)

Section Buffer.
Context {K : Scalar} {E : Type} (vt : vtbl K E).
Hypothesis ord : order_ok K.
Notation st := (est_state K).
Notation est := (estimator K E).

Lemma ltb_leb (a b : K) : s_isnan a = false -> s_isnan b = false -> s_ltb a b = negb (s_leb b a).
Proof. apply ord. Qed.

Lemma ltb_irrefl (a : K) : s_isnan a = false -> s_ltb a a = false.
Proof.
  intros H. rewrite ltb_leb by assumption. destruct ord as (T & _). destruct (T a a H H) as [->| ->]; reflexivity.
Qed.

Lemma ltb_le (a b : K) : s_isnan a = false -> s_isnan b = false -> s_ltb a b = true -> s_leb a b = true.
Proof.
  intros Ha Hb H. rewrite ltb_leb in H by assumption. apply negb_true_iff in H.
  destruct ord as (T & _). destruct (T a b Ha Hb); congruence.
Qed.

Lemma nltb_le (a b : K) : s_isnan a = false -> s_isnan b = false -> s_ltb a b = false -> s_leb b a = true.
Proof. intros Ha Hb H. rewrite ltb_leb in H by assumption. apply negb_false_iff in H. exact H. Qed.

Lemma le_ltb_trans (a b c : K) : s_isnan a = false -> s_isnan b = false -> s_isnan c = false ->
  s_leb a b = true -> s_ltb b c = true -> s_ltb a c = true.
Proof.
  intros Ha Hb Hc H1 H2. rewrite ltb_leb in * by assumption. apply negb_true_iff in H2.
  apply negb_true_iff. destruct (s_leb c a) eqn:Eca; [|reflexivity].
  destruct ord as (_ & T & _). rewrite (T c a b) in H2; auto.
Qed.
Lemma ltb_le_trans (a b c : K) : s_isnan a = false -> s_isnan b = false -> s_isnan c = false ->
  s_ltb a b = true -> s_leb b c = true -> s_ltb a c = true.
Proof.
  intros Ha Hb Hc H1 H2. rewrite ltb_leb in * by assumption. apply negb_true_iff in H1.
  apply negb_true_iff. destruct (s_leb c a) eqn:Eca; [|reflexivity].
  destruct ord as (_ & T & _). rewrite (T b c a) in H1; auto.
Qed.
Lemma leb_trans (a b c : K) : s_isnan a = false -> s_isnan b = false -> s_isnan c = false ->
  s_leb a b = true -> s_leb b c = true -> s_leb a c = true.
Proof. apply ord. Qed.
Lemma leb_refl (a : K) : s_isnan a = false -> s_leb a a = true.
Proof. intros H. destruct ord as (T & _). destruct (T a a H H); assumption. Qed.
Lemma eqb_leb (a b : K) : s_isnan a = false -> s_isnan b = false -> s_eqb a b = (s_leb a b && s_leb b a)%bool.
Proof. apply ord. Qed.

Lemma find_pos_some p (l : list st) k : find_pos p l = Some k ->
  exists y l2, l = firstn k l ++ y :: l2 /\ length (firstn k l) = k /\ p y = true /\
    forall z, In z (firstn k l) -> p z = false.
Proof.
  revert k; induction l as [|a r IH]; intros k H; cbn in H; [discriminate|].
  destruct (p a) eqn:Ea.
  - injection H as <-. exists a, r. cbn. repeat split; auto. intros z [].
  - destruct (find_pos p r) as [j|] eqn:Ej; [|discriminate]. injection H as <-.
    destruct (IH j eq_refl) as (y & l2 & E1 & E2 & E3 & E4).
    exists y, l2. cbn [firstn app length]. rewrite <- E1, E2. repeat split; auto.
    intros z [<-|Hz]; auto.
Qed.
Lemma find_pos_none p (l : list st) : find_pos p l = None -> forall z, In z l -> p z = false.
Proof.
  induction l as [|a r IH]; cbn; [intros _ z []|].
  destruct (p a) eqn:Ea; [discriminate|]. destruct (find_pos p r); [discriminate|].
  intros _ z [<-|Hz]; auto.
Qed.

Lemma back_in (a : st) l : In (back a l) (a :: l).
Proof. revert a; induction l as [|b r IH]; intros a; cbn; [auto|]. right. exact (IH b). Qed.

Lemma back_app (a x : st) l : back a (l ++ [x]) = x.
Proof. revert a; induction l as [|b r IH]; intros a; cbn; [reflexivity|apply IH]. Qed.

Lemma back_max (a : st) l : Forall stamped (a :: l) -> time_ordered (a :: l) ->
  forall z, In z (a :: l) -> before_eq z (back a l).
Proof.
  revert a; induction l as [|b r IH]; intros a Hs Ho z Hz.
  - destruct Hz as [<-|[]]. inversion Hs. apply leb_refl. assumption.
  - apply StronglySorted_inv in Ho. destruct Ho as [Ho F]. inversion Hs as [|? ? Ha Hr]; subst.
    destruct Hz as [<-|Hz]; [|apply (IH b Hr Ho z Hz)].
    rewrite Forall_forall in F. apply F. exact (back_in b r).
Qed.

(** Wellformed buffers. *)
Definition buf_ok (e : est) : Prop := good_buffer (e_cap e) (e_buf e).

(** Splitting of an ordered list at a time. *)
Lemma split_unique (l1 l2 l1' l2' : list st) (x : st) :
  l1 ++ l2 = l1' ++ l2' ->
  (forall z, In z l1 -> s_ltb (es_time x) (es_time z) = false) ->
  (forall z, In z l2 -> s_ltb (es_time x) (es_time z) = true) ->
  (forall z, In z l1' -> s_ltb (es_time x) (es_time z) = false) ->
  (forall z, In z l2' -> s_ltb (es_time x) (es_time z) = true) ->
  l1 = l1' /\ l2 = l2'.
Proof.
  revert l1'; induction l1 as [|a r IH]; intros l1' Hl H1 H2 H1' H2'; cbn in Hl.
  - destruct l1' as [|b r']; [split; [reflexivity|exact Hl]|].
    exfalso. specialize (H1' b (or_introl eq_refl)). rewrite (H2 b) in H1'; [discriminate|].
    rewrite Hl. left. reflexivity.
  - destruct l1' as [|b r'].
    + exfalso. cbn in Hl. specialize (H1 a (or_introl eq_refl)). rewrite (H2' a) in H1; [discriminate|].
      rewrite <- Hl. left. reflexivity.
    + cbn in Hl. injection Hl as -> Hl.
      destruct (IH r' Hl) as [-> ->]; auto; intros z Hz; [apply H1|apply H1']; right; exact Hz.
Qed.

Lemma find_pos_split (l1 l2 : list st) (x : st) : l2 <> [] ->
  (forall z, In z l1 -> s_ltb (es_time x) (es_time z) = false) ->
  (forall z, In z l2 -> s_ltb (es_time x) (es_time z) = true) ->
  find_pos (fun it => s_ltb (es_time x) (es_time it)) (l1 ++ l2) = Some (length l1).
Proof.
  intros Hne H1 H2. induction l1 as [|a r IH]; cbn.
  - destruct l2 as [|b r]; [congruence|]. cbn. rewrite (H2 b) by (left; reflexivity). reflexivity.
  - rewrite (H1 a) by (left; reflexivity). rewrite IH; [reflexivity|]. intros z Hz. apply H1. right. exact Hz.
Qed.

(** An older or equal state, some buffered state being later. *)
Lemma insert_middle (e : est) (x : st) (l1 l2 : list st) :
  buf_ok e -> stamped x -> e_buf e = l1 ++ l2 -> l2 <> [] ->
  (forall z, In z l1 -> before_eq z x) -> (forall z, In z l2 -> before x z) ->
  e_buf (est_setState e x) = last_n (e_cap e) (l1 ++ x :: l2).
Proof.
  intros (Hs & Ho & Hl) Hx Hb Hne H1 H2.
  unfold est_setState. cbn [e_buf].
  assert (H1' : forall z, In z l1 -> s_ltb (es_time x) (es_time z) = false).
  { intros z Hz. rewrite ltb_leb; [|exact Hx|].
    - unfold before_eq in H1. rewrite (H1 z Hz). reflexivity.
    - rewrite Forall_forall in Hs. apply Hs. rewrite Hb. apply in_or_app. auto. }
  pose proof (find_pos_split l1 l2 x Hne H1' H2) as Hf.
  rewrite <- Hb in Hf.
  destruct (e_buf e) as [|a r] eqn:Eb; [destruct l1, l2; cbn in Hb; congruence|].
  assert (Hnb : s_ltb (es_time (back a r)) (es_time x) = false).
  { destruct (exists_last Hne) as (l' & y & Ey).
    assert (Hy : In y l2) by (rewrite Ey; apply in_or_app; right; left; reflexivity).
    assert (Hya : In y (a :: r)) by (rewrite Hb; apply in_or_app; right; exact Hy).
    pose proof (back_max a r Hs Ho y Hya) as Hm.
    pose proof (back_in a r) as Hbi. rewrite Forall_forall in Hs.
    rewrite ltb_leb; [|apply Hs, Hbi|exact Hx].
    apply negb_false_iff. apply (leb_trans _ (es_time y)); [exact Hx|apply Hs, Hya|apply Hs, Hbi| |exact Hm].
    apply ltb_le; [exact Hx|apply Hs, Hya|apply H2, Hy]. }
  rewrite Hnb, Hf. unfold cb_insert.
  pose proof (f_equal (@length _) Hb) as Hlen. rewrite app_length in Hlen.
  destruct (Nat.ltb_spec (length (a :: r)) (e_cap e)) as [Hc|Hc].
  - rewrite last_n_all; [|rewrite app_length; cbn [length] in *; lia].
    rewrite Hb, firstn_app, Nat.sub_diag, firstn_all, skipn_app, Nat.sub_diag, skipn_all.
    cbn [firstn skipn app]. rewrite app_nil_r. reflexivity.
  - assert (Hc' : length (a :: r) = e_cap e) by lia.
    rewrite last_n_tl; [|rewrite app_length; cbn [length] in *; lia].
    destruct l1 as [|b l1]; cbn [length app tl].
    + exact Hb.
    + cbn [app] in Hb. injection Hb as -> ->.
      rewrite firstn_app, Nat.sub_diag, firstn_all, skipn_app, Nat.sub_diag, skipn_all.
      cbn [firstn skipn app tl]. rewrite app_nil_r. reflexivity.
Qed.

(** A state newer than all buffered ones. *)
Lemma insert_newest (e : est) (x : st) :
  buf_ok e -> (forall z, In z (e_buf e) -> before z x) ->
  e_buf (est_setState e x) = last_n (e_cap e) (e_buf e ++ [x]).
Proof.
  intros (Hs & Ho & Hl) H. unfold est_setState. cbn [e_buf].
  assert (Hp : cb_push_back (e_cap e) (e_buf e) x = last_n (e_cap e) (e_buf e ++ [x])).
  { unfold cb_push_back. destruct (Nat.eqb_spec (e_cap e) 0) as [E0|E0].
    - rewrite E0, last_n_0. rewrite E0 in Hl. destruct (e_buf e); [reflexivity|cbn in Hl; lia].
    - destruct (Nat.ltb_spec (length (e_buf e)) (e_cap e)) as [Hc|Hc].
      + rewrite last_n_all; [reflexivity|rewrite app_length; cbn; lia].
      + rewrite last_n_tl; [|rewrite app_length; cbn; lia].
        destruct (e_buf e); [cbn in Hc; lia|reflexivity]. }
  destruct (e_buf e) as [|a r] eqn:Eb; [exact Hp|].
  pose proof (H _ (back_in a r)) as Hb. unfold before in Hb. rewrite Hb. exact Hp.
Qed.

(** Same stamp as the newest buffered state: dropped. *)
Lemma insert_equal_newest (e : est) (x : st) a r :
  buf_ok e -> stamped x -> e_buf e = a :: r ->
  s_eqb (es_time (back a r)) (es_time x) = true -> est_setState e x = e.
Proof.
  intros (Hs & Ho & Hl) Hx Eb Heq. unfold est_setState. rewrite Eb in *.
  pose proof (back_in a r) as Hbi. pose proof (back_max a r Hs Ho) as Hm. rewrite Forall_forall in Hs.
  rewrite eqb_leb in Heq; [|apply Hs, Hbi|exact Hx]. apply andb_true_iff in Heq. destruct Heq as [H1 H2].
  rewrite ltb_leb, H2; [|apply Hs, Hbi|exact Hx]. cbn [negb].
  destruct (find_pos _ _) as [k|] eqn:Ek.
  - exfalso. apply find_pos_some in Ek. destruct Ek as (y & l2 & E1 & _ & Ey & _).
    assert (Hy : In y (a :: r)) by (rewrite E1; apply in_or_app; right; left; reflexivity).
    rewrite ltb_leb in Ey; [|exact Hx|apply Hs, Hy]. apply negb_true_iff in Ey.
    rewrite (leb_trans _ (es_time (back a r)) _) in Ey; [discriminate|apply Hs, Hy|apply Hs, Hbi|exact Hx| |exact H1].
    apply Hm, Hy.
  - destruct e as [b c f]. cbn in *. rewrite Eb. reflexivity.
Qed.

(** Every case. *)
Lemma insert_cases (e : est) (x : st) : buf_ok e -> stamped x ->
  (forall z, In z (e_buf e) -> before z x) \/
  (exists a r, e_buf e = a :: r /\ s_eqb (es_time (back a r)) (es_time x) = true) \/
  (exists l1 l2, e_buf e = l1 ++ l2 /\ l2 <> [] /\
     (forall z, In z l1 -> before_eq z x) /\ (forall z, In z l2 -> before x z)).
Proof.
  intros (Hs & Ho & Hl) Hx.
  destruct (e_buf e) as [|a r] eqn:Eb; [left; intros z []|].
  pose proof (back_in a r) as Hbi. pose proof (back_max a r Hs Ho) as Hm.
  pose proof Hs as Hs'. rewrite Forall_forall in Hs'.
  destruct (s_ltb (es_time (back a r)) (es_time x)) eqn:E1.
  { left. intros z Hz. apply (le_ltb_trans _ (es_time (back a r))); auto; try (apply Hs'; auto). apply Hm, Hz. }
  destruct (find_pos (fun it => s_ltb (es_time x) (es_time it)) (a :: r)) as [k|] eqn:Ek.
  - right. right. apply find_pos_some in Ek. destruct Ek as (y & l2 & E2 & _ & Ey & Hp).
    exists (firstn k (a :: r)), (y :: l2). split; [exact E2|]. split; [discriminate|]. split.
    + intros z Hz. apply nltb_le; [exact Hx| |apply Hp, Hz].
      apply Hs'. rewrite E2. apply in_or_app. auto.
    + intros z Hz. assert (Hz' : In z (a :: r)) by (rewrite E2; apply in_or_app; auto).
      destruct Hz as [<-|Hz]; [exact Ey|].
      assert (Hy : In y (a :: r)) by (rewrite E2; apply in_or_app; right; left; reflexivity).
      apply (ltb_le_trans _ (es_time y)); auto; try (apply Hs'; auto).
      rewrite E2 in Ho. apply SSorted_app in Ho. destruct Ho as (_ & Ho & _).
      apply StronglySorted_inv in Ho. destruct Ho as [_ F]. rewrite Forall_forall in F. apply F, Hz.
  - right. left. exists a, r. split; [reflexivity|].
    pose proof (find_pos_none _ _ Ek _ Hbi) as E3. cbn beta in E3.
    rewrite eqb_leb; [|apply Hs', Hbi|exact Hx].
    rewrite (nltb_le _ _ Hx (Hs' _ Hbi) E3), (nltb_le _ _ (Hs' _ Hbi) Hx E1). reflexivity.
Qed.

Lemma back_last (a : st) r : exists l, a :: r = l ++ [back a r].
Proof.
  revert a; induction r as [|b r IH]; intros a; [exists []; reflexivity|].
  destruct (IH b) as [l El]. exists (a :: l). cbn [back app]. rewrite <- El. reflexivity.
Qed.

Lemma insert_cases_last (e : est) (x : st) : buf_ok e -> stamped x ->
  (forall z, In z (e_buf e) -> before z x) \/
  (exists l y, e_buf e = l ++ [y] /\ same_time y (es_time x)) \/
  (exists l1 l2, e_buf e = l1 ++ l2 /\ l2 <> [] /\
     (forall z, In z l1 -> before_eq z x) /\ (forall z, In z l2 -> before x z)).
Proof.
  intros H Hx. destruct (insert_cases e x H Hx) as [Hn|[(a & r & Eb & Heq)|Hm]]; [left; exact Hn| |right; right; exact Hm].
  right. left. destruct (back_last a r) as [l El]. exists l, (back a r). rewrite Eb. split; [exact El|exact Heq].
Qed.

Lemma setState_ok (e : est) (x : st) : buf_ok e -> stamped x -> buf_ok (est_setState e x).
Proof.
  intros H Hx. pose proof H as (Hs & Ho & Hl).
  destruct (insert_cases e x H Hx) as [Hn|[(a & r & Eb & Heq)|(l1 & l2 & Eb & Hne & H1 & H2)]].
  - unfold buf_ok, good_buffer. rewrite (insert_newest e x H Hn). change (e_cap (est_setState e x)) with (e_cap e).
    split; [|split].
    + apply Forall_skipn, Forall_app. split; [exact Hs|auto].
    + apply SSorted_skipn, SSorted_app. split; [exact Ho|split].
      * constructor; constructor.
      * intros a b Ha [<-|[]]. apply ltb_le; [|exact Hx|apply Hn, Ha].
        rewrite Forall_forall in Hs. apply Hs, Ha.
    + rewrite last_n_length. lia.
  - rewrite (insert_equal_newest e x a r H Hx Eb Heq). exact H.
  - unfold buf_ok, good_buffer. rewrite (insert_middle e x l1 l2 H Hx Eb Hne H1 H2).
    change (e_cap (est_setState e x)) with (e_cap e).
    rewrite Eb in Hs, Ho. apply Forall_app in Hs. destruct Hs as [Hs1 Hs2].
    apply SSorted_app in Ho. destruct Ho as (Ho1 & Ho2 & Ho3).
    split; [|split].
    + apply Forall_skipn, Forall_app. split; [exact Hs1|constructor; assumption].
    + apply SSorted_skipn, SSorted_app. split; [exact Ho1|split].
      * constructor; [exact Ho2|]. rewrite Forall_forall in *. intros z Hz.
        apply ltb_le; [exact Hx|apply Hs2, Hz|apply H2, Hz].
      * intros a b Ha [<-|Hb]; [apply H1, Ha|apply Ho3; assumption].
    + rewrite last_n_length. lia.
Qed.

(** Queries do not touch the buffer. *)
Lemma getState_buf (e : est) t o :
  e_buf (snd (est_getState vt e t o)) = e_buf e /\ e_cap (snd (est_getState vt e t o)) = e_cap e.
Proof.
  unfold est_getState. destruct (e_buf e) as [|a r] eqn:Eb; [cbn; rewrite Eb; auto|].
  destruct (est_scan t (rev (a :: r)) None) as [s|[p|] [n|]]; cbn [snd]; auto;
    destruct (est_extrapolate vt (e_filter e) _ t); cbn; auto.
Qed.

Lemma exec_ok (e : est) o : buf_ok e -> op_stamped o -> buf_ok (est_exec vt e o).
Proof.
  intros H Ho. destruct o as [x|t|n|]; cbn [est_exec].
  - apply setState_ok; assumption.
  - unfold buf_ok, good_buffer. destruct (getState_buf e t (mkEst (s_ofZ 0) vzero mzero)) as [-> ->]. exact H.
  - destruct H as (H1 & H2 & H3). unfold buf_ok, good_buffer, est_setBufferCapacity, cb_set_capacity. cbn [e_buf e_cap].
    split; [apply Forall_firstn, H1|]. split; [apply SSorted_firstn, H2|].
    rewrite firstn_length. lia.
  - repeat split; [constructor|constructor|cbn; lia].
Qed.

Lemma run_ok (ops : list (est_op K)) : forall e : est, buf_ok e -> Forall op_stamped ops -> buf_ok (est_run vt e ops).
Proof.
  induction ops as [|o r IH]; intros e H Ho; [exact H|]. inversion Ho; subst.
  apply IH; [apply exec_ok|]; assumption.
Qed.

Lemma construct_ok cap f Q (e : est) : est_construct cap f Q = Some e -> buf_ok e.
Proof.
  destruct f; [|discriminate]. intros H. injection H as <-. repeat split; [constructor|constructor|cbn; lia].
Qed.

Lemma buffer_reachable cap f Q (e0 : est) ops :
  est_construct cap f Q = Some e0 -> Forall op_stamped ops -> buf_ok (est_run vt e0 ops).
Proof. intros H Ho. apply run_ok; [eapply construct_ok, H|exact Ho]. Qed.

(** Strictly increasing inputs. *)
Lemma increasing_keeps_latest (xs : list st) : forall (e : est) pre,
  buf_ok e -> e_buf e = last_n (e_cap e) pre -> 
  Forall stamped (pre ++ xs) -> StronglySorted before (pre ++ xs) ->
  e_buf (est_run vt e (map EstSet xs)) = last_n (e_cap e) (pre ++ xs).
Proof.
  induction xs as [|x xs IH]; intros e pre H Hb Hs Ho; [rewrite app_nil_r; exact Hb|].
  assert (Hx : stamped x) by (rewrite Forall_forall in Hs; apply Hs, in_or_app; right; left; reflexivity).
  change (est_run vt e (map EstSet (x :: xs))) with (est_run vt (est_setState e x) (map EstSet xs)).
  replace (pre ++ x :: xs) with ((pre ++ [x]) ++ xs) in * by (rewrite <- app_assoc; reflexivity).
  change (e_cap e) with (e_cap (est_setState e x)).
  apply IH; auto.
  - apply setState_ok; assumption.
  - change (e_cap (est_setState e x)) with (e_cap e). rewrite insert_newest; auto.
    + destruct (Nat.eq_dec (e_cap e) 0) as [E0|E0].
      * rewrite E0, !last_n_0. reflexivity.
      * rewrite Hb, last_n_app_tail by lia. reflexivity.
    + intros z Hz. apply SSorted_app in Ho. destruct Ho as (Ho & _). apply SSorted_app in Ho.
      destruct Ho as (_ & _ & Ho). apply Ho; [|left; reflexivity].
      rewrite Hb in Hz. unfold last_n in Hz. rewrite <- (firstn_skipn (length pre - e_cap e) pre).
      apply in_or_app. auto.
Qed.

Lemma increasing_from_construct cap f Q (e0 : est) xs : est_construct cap f Q = Some e0 ->
  Forall stamped xs -> StronglySorted before xs ->
  e_buf (est_run vt e0 (map EstSet xs)) = last_n cap xs.
Proof.
  intros H0 Hs Ho. pose proof (construct_ok cap f Q e0 H0) as Hok.
  destruct f as [f|]; [|discriminate]. injection H0 as <-.
  apply (increasing_keeps_latest xs (mkEstimator [] cap (setProcessNoiseCovariance f Q)) []); auto.
Qed.

(** ** Queries *)

Lemma scan_spec t : s_isnan t = false -> forall (l : list st) next,
  Forall stamped l ->
  match est_scan t (rev l) next with
  | ScanExact s => In s l /\ s_eqb (es_time s) t = true
  | ScanDone prev next' =>
    match prev with
    | Some p => exists l1 l2, l = l1 ++ p :: l2 /\ s_ltb (es_time p) t = true /\
        (forall z, In z l2 -> s_ltb t (es_time z) = true) /\ next' = hd_error (l2 ++ match next with Some n => [n] | None => [] end)
    | None => (forall z, In z l -> s_ltb t (es_time z) = true) /\
        next' = hd_error (l ++ match next with Some n => [n] | None => [] end)
    end
  end.
Proof.
  intros Ht l. induction l as [|x l IH] using rev_ind; intros next Hs; cbn [rev].
  - cbn. destruct next; auto.
  - apply Forall_app in Hs. destruct Hs as [Hs Hx]. inversion Hx as [|? ? Hx' _]; subst.
    rewrite rev_app_distr. cbn [rev app est_scan].
    rewrite eqb_leb by assumption.
    destruct (s_leb (es_time x) t) eqn:E1; [destruct (s_leb t (es_time x)) eqn:E2|]; cbn [andb].
    + split; [apply in_or_app; right; left; reflexivity|]. rewrite eqb_leb, E1, E2 by assumption. reflexivity.
    + exists l, []. split; [reflexivity|]. split; [rewrite ltb_leb, E2 by assumption; reflexivity|].
      split; [intros z []|]. destruct next; reflexivity.
    + assert (Hlt : s_ltb t (es_time x) = true) by (rewrite ltb_leb, E1 by assumption; reflexivity).
      specialize (IH (Some x) Hs). destruct (est_scan t (rev l) (Some x)) as [s|[p|] nx].
      * destruct IH as [H1 H2]. split; [apply in_or_app; auto|exact H2].
      * destruct IH as (l1 & l2 & E3 & H1 & H2 & H3). exists l1, (l2 ++ [x]).
        split; [rewrite E3, <- app_assoc; reflexivity|]. split; [exact H1|]. split.
        -- intros z Hz. apply in_app_or in Hz. destruct Hz as [Hz|[<-|[]]]; auto.
        -- rewrite H3, <- app_assoc. destruct l2; reflexivity.
      * destruct IH as [H1 H2]. split.
        -- intros z Hz. apply in_app_or in Hz. destruct Hz as [Hz|[<-|[]]]; auto.
        -- rewrite H2, <- app_assoc. destruct l; reflexivity.
Qed.

(** The answer of a query: code and value. *)
Definition answer (e : est) (t : K) (o : st) : est_result * st := fst (est_getState vt e t o).

Lemma hd_error_one (l : list st) n : hd_error (l ++ []) = Some n -> exists r, l = n :: r.
Proof. rewrite app_nil_r. destruct l; cbn; [discriminate|]. intros [= ->]. eexists; reflexivity. Qed.

Lemma getState_cases (e : est) t o : buf_ok e -> s_isnan t = false ->
  (e_buf e = [] /\ est_getState vt e t o = (EmptyBuffer, o, e)) \/
  (exists s, In s (e_buf e) /\ s_eqb (es_time s) t = true /\ est_getState vt e t o = (Exact, s, e)) \/
  (exists l1 p n l2, e_buf e = l1 ++ p :: n :: l2 /\ s_ltb (es_time p) t = true /\
     (forall z, In z (n :: l2) -> s_ltb t (es_time z) = true) /\
     fst (est_getState vt e t o) = (Interpolation, snd (est_extrapolate vt (e_filter e) p t)) /\
     e_filter (snd (est_getState vt e t o)) = fst (est_extrapolate vt (e_filter e) p t)) \/
  (exists l1 p, e_buf e = l1 ++ [p] /\ s_ltb (es_time p) t = true /\
     fst (est_getState vt e t o) = (ExtrapolationIntoFuture, snd (est_extrapolate vt (e_filter e) p t)) /\
     e_filter (snd (est_getState vt e t o)) = fst (est_extrapolate vt (e_filter e) p t)) \/
  (exists n l2, e_buf e = n :: l2 /\ (forall z, In z (n :: l2) -> s_ltb t (es_time z) = true) /\
     fst (est_getState vt e t o) = (ExtrapolationIntoPast, snd (est_extrapolate vt (e_filter e) n t)) /\
     e_filter (snd (est_getState vt e t o)) = fst (est_extrapolate vt (e_filter e) n t)).
Proof.
  intros (Hs & Ho & Hl) Ht.
  destruct (e_buf e) as [|a r] eqn:Eb.
  { left. split; [reflexivity|]. unfold est_getState. rewrite Eb. reflexivity. }
  right. pose proof (scan_spec t Ht (a :: r) None Hs) as Hc.
  unfold est_getState. rewrite Eb.
  destruct (est_scan t (rev (a :: r)) None) as [s|[p|] nx].
  - left. exists s. destruct Hc. auto.
  - right. destruct Hc as (l1 & l2 & E1 & H1 & H2 & H3). destruct nx as [n|].
    + left. symmetry in H3. apply hd_error_one in H3. destruct H3 as [r2 ->].
      exists l1, p, n, r2. repeat split; auto; destruct (est_extrapolate vt (e_filter e) p t); reflexivity.
    + right. left. exists l1, p. rewrite app_nil_r in H3. destruct l2; [|discriminate].
      repeat split; auto; destruct (est_extrapolate vt (e_filter e) p t); reflexivity.
  - right. right. right. destruct Hc as [H1 H2]. rewrite app_nil_r in H2. cbn in H2. subst nx.
    exists a, r. repeat split; auto; destruct (est_extrapolate vt (e_filter e) a t); reflexivity.
Qed.
End Buffer.

(** ** Classification *)
Section Classify.
Context {K : Scalar} {E : Type} (vt : vtbl K E).
Hypothesis ord : order_ok K.
Notation st := (est_state K).
Notation est := (estimator K E).

Lemma not_both (s : st) (t : K) : stamped s -> s_isnan t = false ->
  ~ (earlier s t /\ later s t) /\ ~ (earlier s t /\ same_time s t) /\ ~ (later s t /\ same_time s t).
Proof.
  intros Hs Ht. unfold earlier, later, same_time. unfold stamped in Hs.
  rewrite !(ltb_leb ord) by assumption. rewrite (eqb_leb ord) by assumption.
  destruct ord as (T & _). destruct (T (es_time s) t Hs Ht) as [H|H]; rewrite H;
  [destruct (s_leb t (es_time s))|destruct (s_leb (es_time s) t)]; cbn; intuition congruence.
Qed.

Lemma trichotomy (s : st) (t : K) : stamped s -> s_isnan t = false ->
  earlier s t \/ same_time s t \/ later s t.
Proof.
  intros Hs Ht. unfold earlier, later, same_time. unfold stamped in Hs.
  destruct ord as (T & _). destruct (T (es_time s) t Hs Ht) as [H|H];
  rewrite !(ltb_leb ord) by assumption; rewrite (eqb_leb ord) by assumption; rewrite H;
  [destruct (s_leb t (es_time s))|destruct (s_leb (es_time s) t)]; cbn; auto.
Qed.

Ltac NBtac NB s Hin :=
  destruct (NB s Hin) as (N1 & N2 & N3);
  repeat match goal with H : forall s, In s _ -> _ |- _ => generalize (H s Hin); clear H end;
  unfold same_time, earlier, later in *; tauto.

Lemma code_iff (e : est) t o : buf_ok e -> s_isnan t = false ->
  let c := fst (fst (est_getState vt e t o)) in
  (c = EmptyBuffer <-> e_buf e = []) /\
  (c = Exact <-> exists s, In s (e_buf e) /\ same_time s t) /\
  (c = ExtrapolationIntoPast <-> e_buf e <> [] /\ forall s, In s (e_buf e) -> later s t) /\
  (c = ExtrapolationIntoFuture <-> e_buf e <> [] /\ forall s, In s (e_buf e) -> earlier s t) /\
  (c = Interpolation <-> (exists s, In s (e_buf e) /\ earlier s t) /\
     (exists s, In s (e_buf e) /\ later s t) /\ (forall s, In s (e_buf e) -> ~ same_time s t)) /\
  c <> Failed.
Proof.
  intros Hok Ht. pose proof Hok as (Hs & Ho & Hl). cbv zeta.
  pose proof Hs as Hs'. rewrite Forall_forall in Hs'.
  assert (NB : forall s, In s (e_buf e) ->
     ~ (earlier s t /\ later s t) /\ ~ (earlier s t /\ same_time s t) /\ ~ (later s t /\ same_time s t))
    by (intros s Hin; apply not_both; auto; apply Hs'; assumption).
  destruct (getState_cases vt ord e t o Hok Ht)
    as [(Eb & G)|[(s & Hin & He & G)|[(l1 & p & n & l2 & Eb & Hp & Hn & G & _)|[(l1 & p & Eb & Hp & G & _)|(n & l2 & Eb & Hn & G & _)]]]];
    rewrite G; cbn [fst].
  - rewrite Eb. repeat split; try congruence; try tauto;
      try (intros (s & [] & _)); try (intros (H & _); congruence);
      try (intros ((s & [] & _) & _)).
    destruct H as [[] _].
  - assert (Hne : e_buf e <> []) by (intros H; rewrite H in Hin; destruct Hin).
    repeat split; try congruence.
    + exists s. auto.
    + intros (_ & H). exfalso. NBtac NB s Hin.
    + intros (_ & H). exfalso. NBtac NB s Hin.
    + intros (_ & _ & H). exfalso. apply (H s Hin), He.
  - assert (Hpin : In p (e_buf e)) by (rewrite Eb; apply in_or_app; right; left; reflexivity).
    assert (Hnin : In n (e_buf e)) by (rewrite Eb; apply in_or_app; right; right; left; reflexivity).
    assert (Hln : later n t) by (apply Hn; left; reflexivity).
    assert (Hall : forall s, In s (e_buf e) -> earlier s t \/ later s t).
    { intros s Hin. rewrite Eb in Hin. apply in_app_or in Hin. destruct Hin as [Hin|[<-|Hin]].
      - left. rewrite Eb in Ho. apply SSorted_app in Ho. destruct Ho as (_ & _ & Ho).
        apply (le_ltb_trans ord _ (es_time p)); auto.
        + apply Hs'. rewrite Eb. apply in_or_app. auto.
        + apply Hs', Hpin.
        + apply Ho; [exact Hin|left; reflexivity].
      - left. exact Hp.
      - right. apply Hn, Hin. }
    repeat split; try congruence.
    + intros H. rewrite H in Hpin. destruct Hpin.
    + intros (s & Hin & He). exfalso. destruct (Hall s Hin); NBtac NB s Hin.
    + intros (_ & H). exfalso. NBtac NB p Hpin.
    + intros (_ & H). exfalso. NBtac NB n Hnin.
    + exists p. auto.
    + exists n. auto.
    + intros s Hin He. destruct (Hall s Hin); NBtac NB s Hin.
  - assert (Hpin : In p (e_buf e)) by (rewrite Eb; apply in_or_app; right; left; reflexivity).
    assert (Hall : forall s, In s (e_buf e) -> earlier s t).
    { intros s Hin. rewrite Eb in Hin. apply in_app_or in Hin. destruct Hin as [Hin|[<-|[]]]; [|exact Hp].
      rewrite Eb in Ho. apply SSorted_app in Ho. destruct Ho as (_ & _ & Ho).
      apply (le_ltb_trans ord _ (es_time p)); auto.
      + apply Hs'. rewrite Eb. apply in_or_app. auto.
      + apply Hs', Hpin.
      + apply Ho; [exact Hin|left; reflexivity]. }
    repeat split; try congruence.
    + intros H. rewrite H in Hpin. destruct Hpin.
    + intros (s & Hin & He). exfalso. NBtac NB s Hin.
    + intros (_ & H). exfalso. NBtac NB p Hpin.
    + intros H0; rewrite H0 in Hpin; destruct Hpin.
    + exact Hall.
    + intros (_ & (s & Hin & Hlat) & _). exfalso. NBtac NB s Hin.
  - assert (Hnin : In n (e_buf e)) by (rewrite Eb; left; reflexivity).
    rewrite <- Eb in Hn.
    repeat split; try congruence.
    + intros (s & Hin & He). exfalso. NBtac NB s Hin.
    + exact Hn.
    + intros (_ & H). exfalso. NBtac NB n Hnin.
    + intros ((s & Hin & Hea) & _). exfalso. NBtac NB s Hin.
Qed.

Lemma answer_verdict (e : est) t o : buf_ok e -> s_isnan t = false ->
  exists v, query_verdict (e_buf e) t v /\
  match v with
  | VEmpty => fst (est_getState vt e t o) = (EmptyBuffer, o)
  | VExact s => fst (est_getState vt e t o) = (Exact, s)
  | VAnchored c p => fst (est_getState vt e t o) = (c, snd (est_extrapolate vt (e_filter e) p t))
  end.
Proof.
  intros Hok Ht.
  destruct (getState_cases vt ord e t o Hok Ht)
    as [(Eb & G)|[(s & Hin & He & G)|[(l1 & p & n & l2 & Eb & Hp & Hn & G & _)|[(l1 & p & Eb & Hp & G & _)|(n & l2 & Eb & Hn & G & _)]]]].
  - exists VEmpty. rewrite G. auto.
  - exists (VExact s). rewrite G. repeat split; auto.
  - exists (VAnchored Interpolation p). split; [exists l1, n, l2; auto|exact G].
  - exists (VAnchored ExtrapolationIntoFuture p). split; [exists l1; auto|exact G].
  - exists (VAnchored ExtrapolationIntoPast n). split; [exists l2; rewrite Eb; auto|exact G].
Qed.

Lemma exact_verbatim (e : est) t o x : buf_ok e -> s_isnan t = false ->
  fst (est_getState vt e t o) = (Exact, x) -> In x (e_buf e) /\ same_time x t.
Proof.
  intros Hok Ht Hx. destruct (answer_verdict e t o Hok Ht) as ([|s|c p] & Hv & He); rewrite He in Hx.
  - discriminate.
  - injection Hx as <-. exact Hv.
  - injection Hx as -> _. destruct Hv.
Qed.
End Classify.

(** ** A state without a usable stamp blocks the buffer *)
Lemma sf_nan (a : float) : PrimFloat.is_nan a = true -> Prim2SF a = S754_nan.
Proof.
  unfold PrimFloat.is_nan. intros H. apply negb_true_iff in H. rewrite FloatAxioms.eqb_spec in H.
  destruct (Prim2SF a) as [s|s| |s m e]; unfold SFeqb, SFcompare in H; try reflexivity.
  - discriminate.
  - destruct s; discriminate.
  - exfalso. destruct s; rewrite Z.compare_refl in H; rewrite Pos.compare_cont_refl in H; discriminate.
Qed.

Lemma nan_stamp_blocks lm {E} (e : estimator (FScalar lm) E) x y :
  e_buf e = [x] -> PrimFloat.is_nan (es_time x) = true -> est_setState e y = e.
Proof.
  intros Eb Hn. apply sf_nan in Hn. unfold est_setState. rewrite Eb. cbn [back find_pos].
  assert (L : forall a b : float, Prim2SF a = S754_nan \/ Prim2SF b = S754_nan -> PrimFloat.ltb a b = false).
  { intros a b H. rewrite FloatAxioms.ltb_spec. unfold SFltb. destruct H as [H|H]; rewrite H; [reflexivity|].
    destruct (Prim2SF a); reflexivity. }
  assert (E1 : @s_ltb (FScalar lm) (es_time x) (es_time y) = false) by (apply L; auto).
  assert (E2 : @s_ltb (FScalar lm) (es_time y) (es_time x) = false) by (apply L; auto).
  rewrite E1, E2. cbn [option_map]. destruct e. cbn in *. subst. reflexivity.
Qed.
