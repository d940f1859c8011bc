(** * Ancestor search and cache (C59) *)

From Coq Require Import ZArith List Bool Arith String Lia ListDec.
From Verif Require Import Scalar Mat StrMap OutputProofs Listener SpecListener.
Import ListNotations.

Lemma ancestor_trans tree a b d : ancestor tree a b -> ancestor tree b d -> ancestor tree a d.
Proof. intros H. induction H as [|f p g H _ IH]; intros Q; [exact Q|]. eapply of_parent; [exact H|apply IH, Q]. Qed.
Lemma acyclic_antisym tree a b : acyclic tree -> ancestor tree a b -> ancestor tree b a -> a = b.
Proof. intros H [f|f p g C P] Q; [reflexivity|]. exfalso. apply (H f p C). exact (ancestor_trans _ _ _ _ P Q). Qed.

Lemma parent_child tree f : parent_of tree f <> ""%string -> child_of tree f (parent_of tree f).
Proof. unfold parent_of, child_of. destruct (sm_find tree f) as [p|]; [auto|congruence]. Qed.
Lemma child_parent tree f p : child_of tree f p -> parent_of tree f = p.
Proof. unfold parent_of, child_of. intros [-> _]. reflexivity. Qed.

Lemma search_sound steps : forall tree s t b, findAncestorRecursive steps tree s t = Returned b ->
  (b = true <-> ancestor tree s t).
Proof.
  induction steps as [|k IH]; intros tree s t b; cbn [findAncestorRecursive].
  - destruct (String.eqb_spec s t) as [->|N]; [intros h; injection h as <-; split; [constructor|reflexivity]|].
    destruct (String.eqb_spec (parent_of tree s) "") as [P|P]; [|discriminate]. intros h; injection h as <-. split; [discriminate|].
    intros H. destruct H as [f|f p g C _]; [contradiction|]. apply child_parent in C as C'. destruct C as [_ C]. congruence.
  - destruct (String.eqb_spec s t) as [->|N]; [intros h; injection h as <-; split; [constructor|reflexivity]|].
    destruct (String.eqb_spec (parent_of tree s) "") as [P|P].
    + intros h; injection h as <-. split; [discriminate|].
      intros H. destruct H as [f|f p g C _]; [contradiction|]. apply child_parent in C as C'. destruct C as [_ C]. congruence.
    + intros h. apply IH in h. rewrite h. split.
      * intros Q. eapply of_parent; [apply parent_child, P|exact Q].
      * intros Q. destruct Q as [f|f p g C Q]; [contradiction|]. rewrite (child_parent _ _ _ C). exact Q.
Qed.

Lemma iter_shift {A} n (f : A -> A) x : Nat.iter (S n) f x = Nat.iter n f (f x).
Proof. induction n as [|n IH]; [reflexivity|]. cbn in *. rewrite IH. reflexivity. Qed.
Lemma iter_plus {A} n m (f : A -> A) x : Nat.iter (n + m) f x = Nat.iter n f (Nat.iter m f x).
Proof. induction n as [|n IH]; [reflexivity|]. change (f (Nat.iter (n + m) f x) = f (Nat.iter n f (Nat.iter m f x))). rewrite IH. reflexivity. Qed.

(** The frames visited by an unfinished search. *)
Fixpoint path (n : nat) (tree : frame_tree) (f : string) : list string :=
  match n with O => [f] | S k => f :: path k tree (parent_of tree f) end.
Lemma path_length n : forall tree f, List.length (path n tree f) = S n.
Proof. induction n as [|n IH]; intros; cbn; [reflexivity|]. rewrite IH. reflexivity. Qed.
Lemma path_head n tree f : exists r, path n tree f = f :: r.
Proof. destruct n; cbn; eauto. Qed.

Lemma unfinished steps : forall tree s t, findAncestorRecursive steps tree s t = Undefined ->
  (forall f, In f (path steps tree s) -> parent_of tree f <> ""%string) /\ ~ ancestor tree s t \/
  (forall f, In f (path steps tree s) -> parent_of tree f <> ""%string).
Proof.
  induction steps as [|k IH]; intros tree s t; cbn [findAncestorRecursive].
  - destruct (String.eqb s t); [discriminate|]. destruct (String.eqb_spec (parent_of tree s) "") as [P|P]; [discriminate|].
    intros _. right. intros f [<-|[]]. exact P.
  - destruct (String.eqb s t); [discriminate|]. destruct (String.eqb_spec (parent_of tree s) "") as [P|P]; [discriminate|].
    intros h. right. apply IH in h. intros f [<-|h']; [exact P|]. destruct h as [[h _]|h]; exact (h f h').
Qed.

Lemma path_ancestor n : forall tree f g, (forall x, In x (path n tree f) -> parent_of tree x <> ""%string) ->
  In g (path n tree f) -> ancestor tree f g.
Proof.
  induction n as [|n IH]; intros tree f g HP HI; cbn in *.
  - destruct HI as [<-|[]]. constructor.
  - destruct HI as [<-|HI]; [constructor|]. eapply of_parent; [apply parent_child, HP; left; reflexivity|].
    apply IH; [intros x Hx; apply HP; right; exact Hx|exact HI].
Qed.
Lemma repeat_cycle n : forall tree f, (forall x, In x (path n tree f) -> parent_of tree x <> ""%string) ->
  ~ NoDup (path n tree f) -> exists g p, ancestor tree f g /\ child_of tree g p /\ ancestor tree p g.
Proof.
  induction n as [|n IH]; intros tree f HP HN; cbn in *.
  - exfalso. apply HN. repeat constructor. intros [].
  - destruct (in_dec string_dec f (path n tree (parent_of tree f))) as [HI|HI].
    + exists f, (parent_of tree f). split; [constructor|]. split; [apply parent_child, HP; left; reflexivity|].
      apply (path_ancestor n); [intros x Hx; apply HP; right; exact Hx|exact HI].
    + destruct (IH tree (parent_of tree f)) as (g & p & A & B & C).
      * intros x Hx. apply HP. right. exact Hx.
      * intros H. apply HN. constructor; assumption.
      * exists g, p. split; [|split; assumption]. eapply of_parent; [apply parent_child, HP; left; reflexivity|exact A].
Qed.
Lemma keys_in tree f p : sm_find tree f = Some p -> In f (map fst (tree : list (string * string))).
Proof.
  induction tree as [|[k a] r IH]; cbn; [discriminate|]. destruct (String.eqb_spec f k) as [->|N]; [auto|]. intros h. right. apply IH, h.
Qed.
Lemma undefined_cycle tree s t : findAncestorRecursive (List.length tree) tree s t = Undefined ->
  exists g p, ancestor tree s g /\ child_of tree g p /\ ancestor tree p g.
Proof.
  intros H. assert (HP : forall f, In f (path (List.length tree) tree s) -> parent_of tree f <> ""%string)
    by (destruct (unfinished _ _ _ _ H) as [[h _]|h]; exact h).
  apply (repeat_cycle _ _ _ HP). intros ND.
  assert (IN : incl (path (List.length tree) tree s) (map fst (tree : list (string * string)))).
  { intros f Hf. destruct (parent_child tree f (HP f Hf)) as [h _]. exact (keys_in _ _ _ h). }
  pose proof (NoDup_incl_length ND IN) as L. rewrite path_length, map_length in L. lia.
Qed.
(** A search that does not meet its target and enters a cycle. *)
Lemma cycle_undefined steps : forall tree s t g p, ~ ancestor tree s t -> ancestor tree s g -> child_of tree g p -> ancestor tree p g ->
  findAncestorRecursive steps tree s t = Undefined.
Proof.
  induction steps as [|k IH]; intros tree s t g p NA A C P; cbn [findAncestorRecursive];
    (destruct (String.eqb_spec s t) as [->|N]; [exfalso; apply NA; constructor|]);
    assert (CS : exists q, child_of tree s q /\ exists g' p', ancestor tree q g' /\ child_of tree g' p' /\ ancestor tree p' g')
      by (destruct A as [f|f q g' C' A'];
          [exists p; split; [exact C|]; exists f, p; auto|exists q; split; [exact C'|]; exists g', p; auto]);
    destruct CS as (q & Cq & g' & p' & A1 & A2 & A3); rewrite (child_parent _ _ _ Cq);
    (destruct (String.eqb_spec q "") as [Q|_]; [destruct Cq as [_ Cq]; contradiction|]); [reflexivity|].
  apply (IH tree q t g' p'); try assumption. intros H. apply NA. eapply of_parent; eassumption.
Qed.

Lemma search_undefined tree s t : findAncestorRecursive (List.length tree) tree s t = Undefined <->
  ~ ancestor tree s t /\ exists g p, ancestor tree s g /\ child_of tree g p /\ ancestor tree p g.
Proof.
  split.
  - intros H. split; [|exact (undefined_cycle _ _ _ H)]. intros A.
    assert (G : forall n f, ancestor tree f t -> (forall x, In x (path n tree f) -> parent_of tree x <> ""%string) ->
      findAncestorRecursive n tree f t = Undefined -> In t (path n tree f) -> False).
    { clear. induction n as [|n IH]; intros f A HP H HI; cbn [findAncestorRecursive path] in *.
      - destruct HI as [<-|[]]. rewrite String.eqb_refl in H. discriminate H.
      - destruct (String.eqb_spec f t) as [->|N]; [discriminate|]. destruct HI as [<-|HI]; [contradiction|].
        destruct (String.eqb_spec (parent_of tree f) "") as [P|P]; [discriminate|].
        apply (IH (parent_of tree f)); try assumption; [|intros x Hx; apply HP; right; exact Hx].
        destruct A as [|f p g C A]; [contradiction|]. rewrite (child_parent _ _ _ C). exact A. }
    assert (HP : forall f, In f (path (List.length tree) tree s) -> parent_of tree f <> ""%string)
      by (destruct (unfinished _ _ _ _ H) as [[h _]|h]; exact h).
    (* the set of visited frames is closed under parents once a frame repeats *)
    assert (CL : forall x, In x (path (List.length tree) tree s) -> In (parent_of tree x) (path (List.length tree) tree s)).
    { assert (STEP : forall n f x, In x (path n tree f) -> In (parent_of tree x) (path (S n) tree f)).
      { clear. induction n as [|n IH]; intros f x Hx.
        - cbn in *. destruct Hx as [<-|[]]. auto.
        - cbn [path] in Hx. destruct Hx as [<-|Hx].
          + change (path (S (S n)) tree f) with (f :: path (S n) tree (parent_of tree f)). right.
            destruct (path_head (S n) tree (parent_of tree f)) as [r ->]. left. reflexivity.
          + change (path (S (S n)) tree f) with (f :: path (S n) tree (parent_of tree f)). right. apply IH, Hx. }
      assert (LAST : forall n f, path (S n) tree f = path n tree f ++ [Nat.iter (S n) (parent_of tree) f]).
      { clear. induction n as [|n IH]; intros f; [reflexivity|].
        change (path (S (S n)) tree f) with (f :: path (S n) tree (parent_of tree f)). rewrite IH. cbn [path app].
        f_equal. f_equal. f_equal. rewrite <- iter_shift. reflexivity. }
      assert (REP : forall n f, ~ NoDup (path n tree f) -> In (Nat.iter (S n) (parent_of tree) f) (path n tree f)).
      { assert (ITER : forall n f k, (k <= n)%nat -> In (Nat.iter k (parent_of tree) f) (path n tree f)).
        { clear. induction n as [|n IH]; intros f k Hk.
          - replace k with O by lia. left. reflexivity.
          - destruct k as [|k]; [left; reflexivity|]. right. rewrite iter_shift. apply IH. lia. }
        assert (INV : forall n f x, In x (path n tree f) -> exists k, (k <= n)%nat /\ x = Nat.iter k (parent_of tree) f).
        { clear. induction n as [|n IH]; intros f x Hx; cbn in Hx.
          - destruct Hx as [<-|[]]. exists O. auto.
          - destruct Hx as [<-|Hx]; [exists O; split; [lia|reflexivity]|].
            destruct (IH _ _ Hx) as (k & Hk & ->). exists (S k). split; [lia|]. rewrite iter_shift. reflexivity. }
        intros n f ND.
        assert (DUP : exists i j, (i < j <= n)%nat /\ Nat.iter i (parent_of tree) f = Nat.iter j (parent_of tree) f).
        { revert f ND. induction n as [|n IH]; intros f ND.
          - exfalso. apply ND. repeat constructor. intros [].
          - cbn [path] in ND. destruct (in_dec string_dec f (path n tree (parent_of tree f))) as [HI|HI].
            + destruct (INV _ _ _ HI) as (k & Hk & Q). exists O, (S k). split; [lia|]. rewrite iter_shift. exact Q.
            + destruct (IH (parent_of tree f)) as (i & j & Hij & Q); [intros h; apply ND; constructor; assumption|].
              exists (S i), (S j). split; [lia|]. rewrite !iter_shift. exact Q. }
        destruct DUP as (i & j & Hij & Q).
        replace (S n) with ((S n - j) + j)%nat by lia. rewrite iter_plus, <- Q, <- iter_plus. apply ITER. lia. }
      intros x Hx. apply STEP in Hx. rewrite LAST in Hx. apply in_app_or in Hx. destruct Hx as [Hx|[<-|[]]]; [exact Hx|].
      apply REP. intros ND.
      assert (IN : incl (path (List.length tree) tree s) (map fst (tree : list (string * string)))).
      { intros f Hf. destruct (parent_child tree f (HP f Hf)) as [h _]. exact (keys_in _ _ _ h). }
      pose proof (NoDup_incl_length ND IN) as L. rewrite path_length, map_length in L. lia. }
    apply (G _ s A HP H).
    assert (START : In s (path (List.length tree) tree s)) by (destruct (path_head (List.length tree) tree s) as [r ->]; left; reflexivity).
    clear G H HP. revert CL START. generalize (path (List.length tree) tree s). intros l CL START.
    induction A as [f|f p g C A IH]; [exact START|]. apply IH. rewrite <- (child_parent _ _ _ C). apply CL, START.
  - intros (NA & g & p & A & C & P). exact (cycle_undefined _ _ _ _ _ _ NA A C P).
Qed.

Lemma search_decides tree s t : acyclic tree -> decides (findAncestorRecursive (List.length tree) tree s t) (ancestor tree s t).
Proof.
  intros AC. destruct (findAncestorRecursive (List.length tree) tree s t) as [|b] eqn:H.
  - exfalso. destruct (undefined_cycle _ _ _ H) as (g & p & _ & C & P). exact (AC g p C P).
  - exists b. split; [reflexivity|]. exact (search_sound _ _ _ _ _ H).
Qed.

(** ** The cache *)
Definition coherent (tree : frame_tree) (c : anc_cache) : Prop :=
  forall s t, (In t (cached (ca_anc c) s) -> ancestor tree s t) /\
              (In t (cached (ca_desc c) s) -> ancestor tree t s /\ (s = t -> In t (cached (ca_anc c) s))).
Lemma cached_set m k l x : cached (sm_set m k l) x = if String.eqb x k then l else cached m x.
Proof. unfold cached. rewrite sm_set_find', (String.eqb_sym k x). destruct (String.eqb x k); reflexivity. Qed.
Lemma cached_same m k x : cached (sm_set m k (cached m k)) x = cached m x.
Proof. rewrite cached_set. destruct (String.eqb_spec x k) as [->|]; reflexivity. Qed.
Lemma contains_in l k : contains l k = true <-> In k l.
Proof.
  unfold contains. rewrite existsb_exists. split.
  - intros (x & Hx & Q). apply String.eqb_eq in Q. subst. exact Hx.
  - intros H. exists k. split; [exact H|apply String.eqb_refl].
Qed.

Lemma find_step tree s t c : acyclic tree -> coherent tree c ->
  exists b c', findAncestor tree s t c = Returned (b, c') /\ (b = true <-> ancestor tree s t) /\ coherent tree c'.
Proof.
  intros AC CO. unfold findAncestor. cbv zeta. destruct (contains (cached (ca_anc c) s) t) eqn:C1.
  - exists true, (mkCache (sm_set (ca_anc c) s (cached (ca_anc c) s)) (ca_desc c)). split; [reflexivity|].
    apply contains_in in C1. split; [split; [intros _; exact (proj1 (CO s t) C1)|reflexivity]|].
    intros x y. cbn [ca_anc ca_desc]. rewrite cached_same. apply CO.
  - destruct (contains (cached (ca_desc c) s) t) eqn:C2.
    + exists false. eexists. split; [reflexivity|]. apply contains_in in C2. destruct (proj2 (CO s t) C2) as [D Q].
      split.
      * split; [discriminate|]. intros A. pose proof (acyclic_antisym _ _ _ AC A D) as Eq. apply Q in Eq. apply contains_in in Eq. congruence.
      * intros x y. cbn [ca_anc ca_desc]. rewrite !cached_same. apply CO.
    + destruct (search_decides tree s t AC) as (b & -> & Hb). destruct (search_decides tree t s AC) as (d & -> & Hd).
      cbn [bind]. exists b. eexists. split; [reflexivity|]. split; [exact Hb|].
      intros x y. cbn [ca_anc ca_desc]. rewrite !cached_same.
      assert (A1 : forall y, In y (cached (if b then sm_set (sm_set (ca_anc c) s (cached (ca_anc c) s)) s (cached (ca_anc c) s ++ [t])
                 else sm_set (ca_anc c) s (cached (ca_anc c) s)) x) <-> In y (cached (ca_anc c) x) \/ (b = true /\ x = s /\ y = t)).
      { intros y'. destruct b.
        - rewrite cached_set. destruct (String.eqb_spec x s) as [->|N].
          + rewrite in_app_iff. cbn. intuition congruence.
          + rewrite cached_same. intuition congruence.
        - rewrite cached_same. intuition congruence. }
      assert (A2 : forall y, In y (cached (if d then sm_set (sm_set (ca_desc c) s (cached (ca_desc c) s)) s (cached (ca_desc c) s ++ [t])
                 else sm_set (ca_desc c) s (cached (ca_desc c) s)) x) <-> In y (cached (ca_desc c) x) \/ (d = true /\ x = s /\ y = t)).
      { intros y'. destruct d.
        - rewrite cached_set. destruct (String.eqb_spec x s) as [->|N].
          + rewrite in_app_iff. cbn. intuition congruence.
          + rewrite cached_same. intuition congruence.
        - rewrite cached_same. intuition congruence. }
      rewrite A1, A2. split.
      * intros [h|(h & -> & ->)]; [exact (proj1 (CO x y) h)|apply Hb, h].
      * intros [h|(h & -> & ->)].
        -- destruct (proj2 (CO x y) h) as [D Q]. split; [exact D|]. intros Q'. left. apply Q, Q'.
        -- split; [apply Hd, h|]. intros <-. right. split; [|auto]. apply Hb. constructor.
Qed.

Lemma queries_decide tree : acyclic tree -> forall qs c, coherent tree c ->
  Forall2 (fun q a => decides a (ancestor tree (fst q) (snd q))) qs
    (anc_queries (map (fun q => (tree, fst q, snd q)) qs) c).
Proof.
  intros AC. induction qs as [|[s t] r IH]; intros c CO; cbn [map anc_queries]; [constructor|].
  destruct (find_step tree s t c AC CO) as (b & c' & Q & Hb & CO'). cbn [fst snd]. rewrite Q. constructor; [|apply IH, CO'].
  exists b. split; [reflexivity|exact Hb].
Qed.
Lemma no_cache_coherent tree : coherent tree no_cache.
Proof. intros s t. split; intros []. Qed.
