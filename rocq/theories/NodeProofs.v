(** * Lemmas about the node's queue, history and update cycle *)

From Coq Require Import ZArith List Permutation Sorting.Sorted Bool Lia String Arith.
From Verif Require Import Scalar Mat FilterBase Tf StrMap Diagnostics RosFilter SpecNode.
Import ListNotations.
Local Open Scope Z_scope.

Section Obs.
Context {K : Scalar} {E : Type}.

Lemma fused_app (a b : list (output K E)) : fused (a ++ b) = fused a ++ fused b.
Proof. induction a as [|x a IH]; [reflexivity|]. destruct x; cbn; rewrite ?IH; reflexivity. Qed.
Lemma queued_app (a b : list (output K E)) : queued (a ++ b) = queued a ++ queued b.
Proof. induction a as [|x a IH]; [reflexivity|]. destruct x; cbn; rewrite ?IH; reflexivity. Qed.
Lemma odoms_app (a b : list (output K E)) : odoms (a ++ b) = odoms a ++ odoms b.
Proof. induction a as [|x a IH]; [reflexivity|]. destruct x; cbn; rewrite ?IH; reflexivity. Qed.
Lemma accels_app (a b : list (output K E)) : accels (a ++ b) = accels a ++ accels b.
Proof. induction a as [|x a IH]; [reflexivity|]. destruct x; cbn; rewrite ?IH; reflexivity. Qed.
Lemma tfs_app (a b : list (output K E)) : tfs (a ++ b) = tfs a ++ tfs b.
Proof. induction a as [|x a IH]; [reflexivity|]. destruct x; cbn; rewrite ?IH; reflexivity. Qed.
Lemma intervals_app (a b : list (output K E)) : intervals (a ++ b) = intervals a ++ intervals b.
Proof. induction a as [|x a IH]; [reflexivity|]. destruct x; cbn; rewrite ?IH; reflexivity. Qed.

(** outputs of the loop are only [OutFused] *)
Definition fuse_only (os : list (output K E)) : Prop :=
  exists l, os = map (fun p => OutFused (fst p) (snd p)) l.

Lemma fuse_only_nil : fuse_only [].
Proof. exists []; reflexivity. Qed.
Lemma fuse_only_cons f m os : fuse_only os -> fuse_only (OutFused f m :: os).
Proof. intros [l ->]. exists ((f, m) :: l); reflexivity. Qed.
Lemma fuse_only_obs os : fuse_only os ->
  queued os = [] /\ odoms os = [] /\ accels os = [] /\ tfs os = [] /\ intervals os = [].
Proof.
  intros [l ->]. induction l as [|x l IH]; [repeat split; reflexivity|].
  destruct IH as (a & b & c & d & e). repeat split; assumption.
Qed.

(** fields the update loop never touches *)
Definition untouched (n : node K E) :=
  (n_streams n, n_last_msg n, n_set_pose n, n_last_diag n, n_ctl n, n_ctl_time n,
   n_last_pub n, n_toggled n, n_enabled n, n_ang n, n_diag n).
End Obs.

Section Loop.
Context {K : Scalar} {E : Type}.
Variable pq : pqueue K.
Variable vt : vtbl K E.
Variable c : config K.
Hypothesis Hpq : pq_ok pq.

Lemma pop_none q : pq_pop pq q = None -> q = [].
Proof. destruct Hpq as (_ & H & _). apply H. Qed.
Lemma pop_nil : pq_pop pq [] = None.
Proof. destruct Hpq as (_ & H & _). apply H; reflexivity. Qed.
Lemma pop_perm q m r : pq_pop pq q = Some (m, r) -> Permutation q (m :: r).
Proof. destruct Hpq as (_ & _ & H). intros e. apply (H _ _ _ e). Qed.
Lemma pop_min q m r : pq_pop pq q = Some (m, r) -> forall x, In x q -> m_time m <= m_time x.
Proof.
  destruct Hpq as (_ & _ & H). intros e x Hx. apply (proj2 (H _ _ _ e)) in Hx.
  unfold meas_later in Hx. destruct (Z.gtb_spec (m_time m) (m_time x)); [discriminate|lia].
Qed.
Lemma push_perm m q : Permutation (pq_push pq m q) (m :: q).
Proof. destruct Hpq as (H & _). apply H. Qed.

(** one iteration of the loop *)
Definition loop_control (restored : Z) : bool := (c_use_control c && Z.gtb restored 0)%bool.
Definition loop_filter (restored : Z) (f : fb K E) (m : meas K) : fb K E :=
  if loop_control restored then setControl f (m_control m) (m_control_time m) else f.
Definition loop_count (restored : Z) : Z :=
  if loop_control restored then restored - 1 else restored.
Definition loop_saves (rest : list (meas K)) (f : fb K E) : bool :=
  match pq_pop pq rest with
  | None => true
  | Some (top, _) => negb (Z.eqb (m_time top) (fb_last_time f))
  end.
Definition snapshot (f : fb K E) : fstate K :=
  mkFs (fb_state f) (fb_P f) (fb_last_time f) (fb_control f) (fb_control_time f).
Definition loop_node (restored : Z) (n : node K E) (m : meas K) (rest : list (meas K)) : node K E :=
  let f2 := processMeasurement vt (loop_filter restored (n_filter n) m) m in
  mkNode f2 rest
    (if c_smooth c then n_meas_hist n ++ [m] else n_meas_hist n)
    (if (c_smooth c && loop_saves rest f2)%bool then n_state_hist n ++ [snapshot f2] else n_state_hist n)
    (n_streams n) (n_last_msg n) (n_set_pose n) (n_last_diag n) (n_ctl n) (n_ctl_time n)
    (n_last_pub n) (n_toggled n) (n_enabled n) (n_ang n) (n_diag n).

Lemma loop_step fuel now restored n :
  integrate_loop pq vt c (S fuel) now restored n =
  match pq_pop pq (n_queue n) with
  | None => (n, [])
  | Some (m, rest) =>
      if Z.ltb now (m_time m) then (n, [])
      else let '(n3, o) := integrate_loop pq vt c fuel now (loop_count restored) (loop_node restored n m rest) in
           (n3, OutFused (loop_filter restored (n_filter n) m) m :: o)
  end.
Proof.
  cbn [integrate_loop]. destruct (pq_pop pq (n_queue n)) as [[m rest]|]; [|reflexivity].
  destruct (now <? m_time m); [reflexivity|].
  assert (He : (if c_smooth c
           then
            let n1' :=
              with_meas_hist
                (with_filter (with_queue n rest)
                   (processMeasurement vt
                      (if (c_use_control c && (restored >? 0))%bool
                       then setControl (n_filter n) (m_control m) (m_control_time m)
                       else n_filter n) m))
                (n_meas_hist
                   (with_filter (with_queue n rest)
                      (processMeasurement vt
                         (if (c_use_control c && (restored >? 0))%bool
                          then setControl (n_filter n) (m_control m) (m_control_time m)
                          else n_filter n) m)) ++ [m]) in
            match pq_pop pq rest with
            | Some (top, _) =>
                if negb (m_time top =? fb_last_time (n_filter n1'))
                then saveFilterState n1'
                else n1'
            | None => saveFilterState n1'
            end
           else
            with_filter (with_queue n rest)
              (processMeasurement vt
                 (if (c_use_control c && (restored >? 0))%bool
                  then setControl (n_filter n) (m_control m) (m_control_time m)
                  else n_filter n) m)) = loop_node restored n m rest).
  { unfold loop_node, loop_saves, loop_filter, loop_control. destruct n as [f q mh sh st lm sp ld ct cti lp tg en an dg].
    destruct (c_smooth c); [|reflexivity]. cbn [andb].
    destruct (pq_pop pq rest) as [[top r]|]; [|reflexivity].
    cbn. destruct (m_time top =? _); reflexivity. }
  cbv zeta in He |- *. rewrite He. reflexivity.
Qed.

Definition loop_post (now : Z) (n n' : node K E) (o : list (output K E)) : Prop :=
  Permutation (fused o ++ n_queue n') (n_queue n) /\
  Forall (fun m => m_time m <= now) (fused o) /\
  Forall (fun m => now < m_time m) (n_queue n') /\
  in_order (fused o) /\
  fuse_only o /\
  untouched n' = untouched n /\
  n_meas_hist n' = (if c_smooth c then n_meas_hist n ++ fused o else n_meas_hist n).

Lemma loop_spec fuel : forall now restored n n' o,
  (List.length (n_queue n) <= fuel)%nat ->
  integrate_loop pq vt c fuel now restored n = (n', o) ->
  loop_post now n n' o.
Proof.
  assert (Hstop : forall now n, (n_queue n = [] \/ exists m r, pq_pop pq (n_queue n) = Some (m, r) /\ now < m_time m) ->
            loop_post now n n []).
  { intros now n Hc. unfold loop_post; cbn.
    split; [apply Permutation_refl|]. split; [constructor|].
    split; [|split; [constructor|split; [apply fuse_only_nil|split; [reflexivity|]]]].
    - destruct Hc as [->|(m & r & Hp & Hlt)]; [constructor|].
      apply Forall_forall. intros x Hx. pose proof (pop_min _ _ _ Hp x Hx). lia.
    - destruct (c_smooth c); [rewrite app_nil_r|]; reflexivity. }
  induction fuel as [|fuel IH]; intros now restored n n' o Hlen Hrun.
  - cbn in Hrun. injection Hrun as <- <-. apply Hstop. left.
    destruct (n_queue n); [reflexivity|cbn in Hlen; lia].
  - rewrite loop_step in Hrun.
    destruct (pq_pop pq (n_queue n)) as [[m rest]|] eqn:Hpop.
    2:{ injection Hrun as <- <-. apply Hstop. left. apply pop_none; assumption. }
    destruct (now <? m_time m) eqn:Hlt.
    { injection Hrun as <- <-. apply Hstop. right. exists m, rest. split; [assumption|].
      apply Z.ltb_lt; assumption. }
    destruct (integrate_loop pq vt c fuel now (loop_count restored) (loop_node restored n m rest))
      as [n3 o3] eqn:Hrec. injection Hrun as <- <-.
    pose proof (pop_perm _ _ _ Hpop) as Hperm.
    assert (Hl : (List.length (n_queue (loop_node restored n m rest)) <= fuel)%nat).
    { cbn. apply Permutation_length in Hperm. cbn in Hperm. lia. }
    destruct (IH _ _ _ _ _ Hl Hrec) as (Hp & Hle & Hgt & Hord & Hfo & Hun & Hmh).
    unfold loop_post. cbn [fused].
    split; [|split; [|split; [|split; [|split; [|split]]]]].
    + cbn. apply Permutation_sym. eapply Permutation_trans; [exact Hperm|].
      apply perm_skip. apply Permutation_sym. exact Hp.
    + constructor; [apply Z.ltb_ge; assumption|assumption].
    + assumption.
    + constructor; [assumption|]. apply Forall_forall. intros x Hx. unfold no_later.
      apply (pop_min _ _ _ Hpop). eapply Permutation_in; [apply Permutation_sym, Hperm|].
      right. eapply Permutation_in; [exact Hp|]. apply in_or_app; left; assumption.
    + apply fuse_only_cons; assumption.
    + rewrite Hun. reflexivity.
    + rewrite Hmh. cbn. destruct (c_smooth c); [|reflexivity]. rewrite <- app_assoc. reflexivity.
Qed.
End Loop.

(** ** Deques *)
Section Deque.
Context {A : Type}.
Variable p : A -> bool.

Lemma pop_while_spec l k d : pop_while p l = (k, d) ->
  l = d ++ k /\ Forall (fun x => p x = true) d /\ match k with [] => True | x :: _ => p x = false end.
Proof.
  revert k d. induction l as [|x l IH]; cbn; intros k d H.
  - injection H as <- <-. repeat split; constructor.
  - destruct (p x) eqn:Hx.
    + destruct (pop_while p l) as [k' d'] eqn:Hr. injection H as <- <-.
      destruct (IH _ _ eq_refl) as (-> & Hf & Hk).
      split; [reflexivity|]. split; [constructor; assumption|assumption].
    + injection H as <- <-. split; [reflexivity|]. split; [constructor|assumption].
Qed.

Lemma pop_back_while_spec l k d : pop_back_while p l = (k, d) ->
  l = k ++ rev d /\ Forall (fun x => p x = true) d /\
  (k = [] \/ exists k' x, k = k' ++ [x] /\ p x = false).
Proof.
  unfold pop_back_while. destruct (pop_while p (rev l)) as [k0 d0] eqn:H.
  intros Hq; injection Hq as <- <-. apply pop_while_spec in H. destruct H as (Hl & Hd & Hk).
  split; [|split; [assumption|]].
  - rewrite <- (rev_involutive l), Hl, rev_app_distr. reflexivity.
  - destruct k0 as [|x k0]; [left; reflexivity|right]. exists (rev k0), x. split; [reflexivity|assumption].
Qed.

Lemma pop_front_while_suffix l : exists d, l = d ++ pop_front_while p l /\
  Forall (fun x => p x = true) d /\
  match pop_front_while p l with [] => True | x :: _ => p x = false end.
Proof.
  unfold pop_front_while. destruct (pop_while p l) as [k d] eqn:H.
  apply pop_while_spec in H. destruct H as (H1 & H2 & H3). exists d. auto.
Qed.

Lemma pop_front_while_incl l x : In x (pop_front_while p l) -> In x l.
Proof.
  destruct (pop_front_while_suffix l) as (d & Hl & _). intros H. rewrite Hl.
  apply in_or_app; right; assumption.
Qed.

Lemma last_opt_snoc (l : list A) x : last_opt (l ++ [x]) = Some x.
Proof. unfold last_opt. rewrite rev_app_distr. reflexivity. Qed.
Lemma last_opt_none (l : list A) : last_opt l = None -> l = [].
Proof.
  unfold last_opt. destruct (rev l) eqn:H; [|discriminate]. intros _.
  rewrite <- (rev_involutive l), H. reflexivity.
Qed.
Lemma last_opt_some (l : list A) x : last_opt l = Some x -> exists l', l = l' ++ [x].
Proof.
  unfold last_opt. destruct (rev l) as [|y r] eqn:H; [discriminate|]. intros He; injection He as ->.
  exists (rev r). rewrite <- (rev_involutive l), H. reflexivity.
Qed.
End Deque.

Section SortedLists.
Context {A : Type}.
Variable key : A -> Z.
Definition by_key (a b : A) : Prop := key a <= key b.

Lemma SS_app l1 l2 : StronglySorted by_key (l1 ++ l2) <->
  StronglySorted by_key l1 /\ StronglySorted by_key l2 /\
  (forall a b, In a l1 -> In b l2 -> key a <= key b).
Proof.
  induction l1 as [|x l1 IH]; cbn.
  - split; [intros H; split; [constructor|split; [exact H|intros a b []]]|intros (_ & H & _); exact H].
  - split.
    + intros H. inversion H as [|x' l' Hs Hf]; subst. apply IH in Hs. destruct Hs as (H1 & H2 & H3).
      rewrite Forall_app in Hf. destruct Hf as [Hf1 Hf2].
      split; [constructor; assumption|]. split; [assumption|].
      intros a b [<-|Ha] Hb; [rewrite Forall_forall in Hf2; apply Hf2; assumption|apply H3; assumption].
    + intros (H1 & H2 & H3). inversion H1 as [|x' l' Hs Hf]; subst. constructor.
      * apply IH. split; [assumption|]. split; [assumption|]. intros a b Ha Hb. apply H3; [right|]; assumption.
      * rewrite Forall_app. split; [assumption|]. apply Forall_forall. intros b Hb. apply H3; [left; reflexivity|assumption].
Qed.

Lemma SS_snoc l x : StronglySorted by_key l -> (forall a, In a l -> key a <= key x) ->
  StronglySorted by_key (l ++ [x]).
Proof.
  intros H Hx. apply SS_app. split; [assumption|]. split; [repeat constructor|].
  intros a b Ha [<-|[]]. apply Hx; assumption.
Qed.

Lemma pop_front_sorted t l : StronglySorted by_key l ->
  pop_front_while (fun x => key x <? t) l = filter (fun x => t <=? key x) l.
Proof.
  intros H. destruct (pop_front_while_suffix (fun x => key x <? t) l) as (d & Hl & Hd & Hh).
  rewrite Hl at 2. rewrite filter_app.
  assert (Hf1 : filter (fun x => t <=? key x) d = []).
  { clear Hl. induction Hd as [|x d Hx Hd IH]; [reflexivity|]. cbn.
    apply Z.ltb_lt in Hx. destruct (Z.leb_spec t (key x)); [lia|exact IH]. }
  rewrite Hf1. cbn. rewrite Hl in H. apply SS_app in H. destruct H as (_ & H2 & _).
  destruct (pop_front_while (fun x => key x <? t) l) as [|y k]; [reflexivity|].
  apply Z.ltb_ge in Hh. inversion H2 as [|y' k' Hs Hf]; subst.
  cbn. destruct (Z.leb_spec t (key y)); [|lia]. f_equal.
  clear - Hf Hh. induction Hf as [|x k Hx Hf IH]; [reflexivity|]. cbn.
  unfold by_key in Hx. destruct (Z.leb_spec t (key x)); [|lia]. f_equal. exact IH.
Qed.

Lemma pop_back_sorted t l k d : StronglySorted by_key l ->
  pop_back_while (fun x => key x >? t) l = (k, d) ->
  k = filter (fun x => key x <=? t) l /\ rev d = filter (fun x => t <? key x) l.
Proof.
  intros H Hp. apply pop_back_while_spec in Hp. destruct Hp as (Hl & Hd & Hk). subst l.
  assert (Hk' : Forall (fun x => key x <= t) k).
  { destruct Hk as [->|(k' & x & -> & Hx)]; [constructor|].
    apply SS_app in H. destruct H as (H1 & _). apply SS_app in H1. destruct H1 as (_ & _ & H1).
    rewrite Z.gtb_ltb in Hx. apply Z.ltb_ge in Hx. apply Forall_forall. intros a Ha.
    apply in_app_or in Ha. destruct Ha as [Ha|[<-|[]]]; [|lia].
    specialize (H1 a x Ha (or_introl eq_refl)). lia. }
  assert (Hd' : Forall (fun x => t < key x) (rev d)).
  { apply Forall_rev. eapply Forall_impl; [|exact Hd]. cbn. intros a Ha. rewrite Z.gtb_ltb in Ha.
    apply Z.ltb_lt; exact Ha. }
  rewrite !filter_app. clear -Hk' Hd'.
  assert (E1 : filter (fun x => key x <=? t) k = k /\ filter (fun x => t <? key x) k = []).
  { induction Hk' as [|x k Hx Hk IH]; [split; reflexivity|]. cbn. destruct IH as [-> ->].
    destruct (Z.leb_spec (key x) t); [|lia]. destruct (Z.ltb_spec t (key x)); [lia|]. split; reflexivity. }
  assert (E2 : filter (fun x => key x <=? t) (rev d) = [] /\ filter (fun x => t <? key x) (rev d) = rev d).
  { induction Hd' as [|x k' Hx Hk IH]; [split; reflexivity|]. cbn. destruct IH as [-> ->].
    destruct (Z.leb_spec (key x) t); [lia|]. destruct (Z.ltb_spec t (key x)); [|lia]. split; reflexivity. }
  destruct E1 as [-> ->], E2 as [-> ->]. rewrite app_nil_r. split; reflexivity.
Qed.
End SortedLists.

(** ** Reversion *)
Section Revert.
Context {K : Scalar} {E : Type}.
Variable pq : pqueue K.
Hypothesis Hpq : pq_ok pq.

Definition load (f : fb K E) (s : fstate K) : fb K E :=
  set_last_time (set_P (set_state f (fs_state s)) (fs_P s)) (fs_time s).

Lemma push_fold_perm T (l q : list (meas K)) :
  Permutation (fold_left (fun q m => if Z.leb T (m_time m) then pq_push pq m q else q) l q)
              (q ++ filter (fun m => Z.leb T (m_time m)) (rev l)).
Proof.
  revert q. induction l as [|m l IH]; intros q; cbn.
  - rewrite app_nil_r. apply Permutation_refl.
  - eapply Permutation_trans; [apply IH|]. rewrite filter_app. cbn.
    destruct (T <=? m_time m); [|rewrite app_nil_r; apply Permutation_refl].
    rewrite app_assoc. eapply Permutation_trans; [|apply Permutation_cons_append].
    apply (Permutation_app_tail _ (push_perm pq Hpq m q)).
Qed.

Lemma restore_fields (n : node K E) s t kept popped :
  pop_back_while (fun m => Z.gtb (m_time m) t) (n_meas_hist n) = (kept, popped) ->
  n_filter (restoreSnapshot pq n s t) = load (n_filter n) s /\
  n_meas_hist (restoreSnapshot pq n s t) = kept /\
  n_state_hist (restoreSnapshot pq n s t) = n_state_hist n /\
  Permutation (n_queue (restoreSnapshot pq n s t))
    (n_queue n ++ filter (fun m => fs_time s <=? m_time m) (rev popped)) /\
  untouched (restoreSnapshot pq n s t) = untouched n.
Proof.
  intros Hp. unfold restoreSnapshot. rewrite Hp. cbn.
  repeat split. apply push_fold_perm.
Qed.

Definition revert_to_snapshot (n n' : node K E) (t : Z) (s : fstate K) (kept : list (fstate K)) : Prop :=
  n_filter n' = load (n_filter n) s /\
  n_state_hist n' = kept /\
  (exists d, n_meas_hist n = n_meas_hist n' ++ d /\
     Forall (fun m => t < m_time m) d /\
     (n_meas_hist n' = [] \/ exists k' x, n_meas_hist n' = k' ++ [x] /\ m_time x <= t) /\
     Permutation (n_queue n') (n_queue n ++ filter (fun m => fs_time s <=? m_time m) d)) /\
  untouched n' = untouched n.

Lemma revert_cases (n : node K E) t : let '(ok, n') := revertTo pq n t in
  (n_state_hist n = [] /\ ok = false /\ n' = n) \/
  (exists pre s post, n_state_hist n = pre ++ s :: post /\ fs_time s <= t /\
     Forall (fun x => t < fs_time x) post /\ ok = true /\ revert_to_snapshot n n' t s (pre ++ [s])) \/
  (exists s post, n_state_hist n = s :: post /\ Forall (fun x => t < fs_time x) (s :: post) /\
     ok = false /\ revert_to_snapshot n n' t s []).
Proof.
  unfold revertTo.
  destruct (pop_back_while (fun s => Z.gtb (fs_time s) t) (n_state_hist n)) as [kept popped] eqn:Hs.
  apply pop_back_while_spec in Hs. destruct Hs as (Hl & Hd & Hk).
  assert (Hd' : Forall (fun x => t < fs_time x) (rev popped)).
  { apply Forall_rev. eapply Forall_impl; [|exact Hd]. cbn. intros a Ha. rewrite Z.gtb_ltb in Ha.
    apply Z.ltb_lt; exact Ha. }
  assert (Hrest : forall s, revert_to_snapshot n (restoreSnapshot pq (with_state_hist n kept) s t) t s kept).
  { intros s.
    destruct (pop_back_while (fun m => Z.gtb (m_time m) t) (n_meas_hist n)) as [mk md] eqn:Hm.
    pose proof (restore_fields (with_state_hist n kept) s t mk md Hm) as (F1 & F2 & F3 & F4 & F5).
    apply pop_back_while_spec in Hm. destruct Hm as (Hml & Hmd & Hmk).
    unfold revert_to_snapshot. split; [exact F1|]. split; [exact F3|]. split; [|rewrite F5; reflexivity].
    exists (rev md). rewrite F2. split; [exact Hml|]. split.
    { apply Forall_rev. eapply Forall_impl; [|exact Hmd]. cbn. intros a Ha. rewrite Z.gtb_ltb in Ha.
      apply Z.ltb_lt; exact Ha. }
    split; [|exact F4]. destruct Hmk as [->|(k' & x & -> & Hx)]; [left; reflexivity|right].
    exists k', x. split; [reflexivity|]. rewrite Z.gtb_ltb in Hx. apply Z.ltb_ge in Hx. exact Hx. }
  destruct Hk as [->|(k' & s & -> & Hx)].
  - cbn [last_opt rev]. destruct (last_opt popped) as [s|] eqn:Hlp.
    + right; right. apply last_opt_some in Hlp. destruct Hlp as (p' & ->).
      rewrite rev_app_distr in Hl, Hd'. cbn in Hl, Hd'. exists s, (rev p').
      split; [exact Hl|]. split; [exact Hd'|]. split; [reflexivity|]. apply Hrest.
    + left. apply last_opt_none in Hlp. subst popped. cbn in Hl. split; [exact Hl|].
      split; [reflexivity|]. destruct n; cbn in *; subst; reflexivity.
  - rewrite last_opt_snoc. right; left. exists k', s, (rev popped).
    split; [rewrite Hl, <- app_assoc; reflexivity|]. split.
    { rewrite Z.gtb_ltb in Hx. apply Z.ltb_ge in Hx. exact Hx. }
    split; [exact Hd'|]. split; [reflexivity|]. apply Hrest.
Qed.
End Revert.

(** ** One update cycle *)
Section Cycle.
Context {K : Scalar} {E : Type}.
Variable pq : pqueue K.
Variable vt : vtbl K E.
Variable c : config K.
Hypothesis Hpq : pq_ok pq.

Definition catch_up (now : Z) (n : node K E) : node K E * list (output K E) :=
  match n_queue n with
  | [] => (n, [])
  | _ => let '(restored, n0) := revert_if_lagged pq c n in
         integrate_loop pq vt c (List.length (n_queue n0)) now restored n0
  end.

Definition projects (now : Z) (n : node K E) : bool :=
  (c_predict_now c ||
   match n_queue n with
   | [] => fb_initialized (n_filter n) &&
           (fb_sensor_timeout (n_filter n) <=? now - fb_last_time (n_filter n))
   | _ => false
   end)%bool.

Definition project (now : Z) (n : node K E) : node K E :=
  let delta := now - fb_last_time (n_filter n) in
  let f := v_predict vt (n_filter n) now delta in
  with_filter n (set_last_time f (fb_last_time f + delta)).

Lemma integrate_eq now n :
  integrateMeasurements pq vt c now n =
  let '(n1, o1) := catch_up now n in
  if (fb_initialized (n_filter n1) && projects now n)%bool
  then (project now n1, o1 ++ [OutPredict now (now - fb_last_time (n_filter n1))])
  else (n1, o1).
Proof.
  unfold integrateMeasurements, catch_up, projects, project, setLastMeasurementTime.
  destruct (n_queue n) as [|m q] eqn:Hq.
  - rewrite (pop_nil pq Hpq). destruct (fb_initialized (n_filter n)) eqn:Hi; cbn.
    + rewrite Hi. rewrite Z.geb_leb. reflexivity.
    + rewrite Hi. reflexivity.
  - destruct (pq_pop pq (m :: q)) as [[t r]|] eqn:Hp.
    2:{ apply (pop_none pq Hpq) in Hp. discriminate. }
    rewrite orb_false_r. destruct (revert_if_lagged pq c n) as [restored n0].
    destruct (integrate_loop pq vt c (List.length (n_queue n0)) now restored n0) as [n1 o1]. reflexivity.
Qed.

(** state after the measurement part of the cycle *)
Definition working (cur later : Z) (n : node K E) : node K E * list (output K E) :=
  if n_toggled n then
    let '(n0, o) := integrateMeasurements pq vt c cur n in (differentiateMeasurements cur n0, o)
  else
    ((if fb_initialized (n_filter n)
      then with_filter (with_queue n []) (set_last_time (n_filter n) later)
      else with_queue n []), []).

Definition corrected (n1 : node K E) : bool :=
  (fb_initialized (n_filter n1) && negb (c_permit c) && (fb_last_time (n_filter n1) <=? n_last_pub n1))%bool.

Definition visible (n1 : node K E) (lookup : option (trans K)) : list (output K E) :=
  match getFilteredOdometryMessage c n1 with
  | Some o =>
      (if validateFilterOutput o then [] else [OutNonFinite]) ++
      (if (c_publish_tf c && negb (corrected n1))%bool then broadcast c o lookup else []) ++
      (if corrected n1 then [] else [OutOdom o])
  | None => []
  end ++
  (if (negb (corrected n1) && c_publish_acc c)%bool then
     match getFilteredAccelMessage c n1 with Some a => [OutAccel a] | None => [] end
   else []).

Definition diag_due (cur : Z) (n : node K E) : bool :=
  (c_print_diag c && ((c_diag_period c <=? cur - n_last_diag n) || (cur - n_last_diag n <? 0)))%bool.

Definition concluded (cur : Z) (n1 : node K E) : node K E :=
  let t := fb_last_time (n_filter n1) - c_history c in
  mkNode (n_filter n1) (n_queue n1)
    (if c_smooth c then pop_front_while (fun m => m_time m <? t) (n_meas_hist n1) else n_meas_hist n1)
    (if c_smooth c then pop_front_while (fun s => fs_time s <? t) (n_state_hist n1) else n_state_hist n1)
    (n_streams n1) (n_last_msg n1) (n_set_pose n1)
    (if diag_due cur n1 then cur else n_last_diag n1)
    (n_ctl n1) (n_ctl_time n1)
    (if fb_initialized (n_filter n1) then fb_last_time (n_filter n1) else n_last_pub n1)
    (n_toggled n1) (n_enabled n1) (n_ang n1)
    (if diag_due cur n1 then snd (aggregateDiagnostics (n_diag n1)) else n_diag n1).

Lemma cycle_eq cur later lookup n : n_enabled n = true ->
  periodicUpdate pq vt c cur later lookup n =
  let '(n1, o1) := working cur later n in
  (concluded cur n1,
   o1 ++ visible n1 lookup ++
   (if diag_due cur n1 then [OutReport (fst (aggregateDiagnostics (n_diag n1)))] else [])).
Proof.
  intros He. unfold periodicUpdate. rewrite He. cbn [negb].
  match goal with |- (let '(_, _) := ?w in _) = _ =>
    assert (Hw : w = working cur later n) by (unfold working; destruct (n_toggled n); reflexivity);
    rewrite Hw; clear Hw end.
  destruct (working cur later n) as [n1 o1].
  destruct n1 as [f q mh sh st lm sp ld ct cti lp tg en an dg].
  unfold visible, corrected, concluded, diag_due. unfold getFilteredOdometryMessage, getFilteredAccelMessage.
  cbn [n_filter n_queue n_meas_hist n_state_hist n_streams n_last_msg n_set_pose n_last_diag n_ctl n_ctl_time n_last_pub n_toggled n_enabled n_ang n_diag].
  destruct (fb_initialized f) eqn:Hi; cbn [andb negb orb];
  rewrite ?Z.geb_leb; cbn [o_stamp];
  cbn [with_last_pub with_diag with_last_diag n_filter n_queue n_meas_hist n_state_hist n_streams n_last_msg n_set_pose n_last_diag n_ctl n_ctl_time n_last_pub n_toggled n_enabled n_ang n_diag];
  rewrite ?Hi;
  destruct (c_print_diag c && ((c_diag_period c <=? cur - ld) || (cur - ld <? 0)))%bool;
  destruct (c_smooth c); cbn -[validateFilterOutput broadcast];
  rewrite <- ?app_assoc, ?app_nil_r; reflexivity.
Qed.

Lemma broadcast_obs o lookup : fused (E:=E) (broadcast c o lookup) = [] /\
  queued (E:=E) (broadcast c o lookup) = [] /\
  odoms (E:=E) (broadcast c o lookup) = [] /\ accels (E:=E) (broadcast c o lookup) = [] /\
  intervals (E:=E) (broadcast c o lookup) = [] /\
  (List.length (tfs (E:=E) (broadcast c o lookup)) <= 1)%nat.
Proof.
  unfold broadcast. destruct (_ =? _)%string; [repeat split; cbn; lia|].
  destruct (_ =? _)%string; [destruct lookup|]; repeat split; cbn; lia.
Qed.

Lemma visible_obs n1 lookup :
  fused (visible n1 lookup) = [] /\ queued (visible n1 lookup) = [] /\
  intervals (visible n1 lookup) = [] /\
  odoms (visible n1 lookup) =
    match getFilteredOdometryMessage c n1 with
    | Some o => if corrected n1 then [] else [o] | None => [] end.
Proof.
  unfold visible, getFilteredOdometryMessage, getFilteredAccelMessage.
  set (P := broadcast c). destruct (fb_initialized (n_filter n1)).
  2:{ repeat split; cbn; destruct (negb (corrected n1) && c_publish_acc c)%bool; reflexivity. }
  match goal with |- context [P ?x lookup] => pose proof (broadcast_obs x lookup) as (B1 & B2 & B3 & B4 & B5 & B6) end.
  fold P in B1, B2, B3, B5.
  repeat split; rewrite ?fused_app, ?queued_app, ?odoms_app, ?intervals_app;
  destruct (corrected n1); cbn [negb andb]; rewrite ?andb_false_r, ?andb_true_r;
  destruct (validateFilterOutput _), (c_publish_tf c), (c_publish_acc c); cbn;
  rewrite ?B1, ?B2, ?B3, ?B5; reflexivity.
Qed.

Lemma report_obs (b : bool) r :
  fused (E:=E) (if b then [OutReport r] else []) = ([] : list (meas K)) /\
  queued (E:=E) (if b then [OutReport r] else []) = ([] : list (meas K)) /\
  intervals (E:=E) (K:=K) (if b then [OutReport r] else []) = [] /\
  odoms (E:=E) (if b then [OutReport r] else []) = ([] : list (odom_msg K)).
Proof. destruct b; repeat split. Qed.

Lemma diff_fields now (n : node K E) :
  n_filter (differentiateMeasurements now n) = n_filter n /\
  n_queue (differentiateMeasurements now n) = n_queue n /\
  n_meas_hist (differentiateMeasurements now n) = n_meas_hist n /\
  n_state_hist (differentiateMeasurements now n) = n_state_hist n /\
  n_last_msg (differentiateMeasurements now n) = n_last_msg n /\
  n_set_pose (differentiateMeasurements now n) = n_set_pose n /\
  n_last_pub (differentiateMeasurements now n) = n_last_pub n /\
  n_toggled (differentiateMeasurements now n) = n_toggled n /\
  n_enabled (differentiateMeasurements now n) = n_enabled n /\
  n_streams (differentiateMeasurements now n) = n_streams n /\
  n_last_diag (differentiateMeasurements now n) = n_last_diag n /\
  n_ctl (differentiateMeasurements now n) = n_ctl n /\
  n_ctl_time (differentiateMeasurements now n) = n_ctl_time n /\
  n_diag (differentiateMeasurements now n) = n_diag n.
Proof. unfold differentiateMeasurements. destruct (fb_initialized (n_filter n)); repeat split. Qed.
End Cycle.
