(** * Outcomes of listener queries (C61, C62) *)

From Coq Require Import Reals ZArith List Bool Arith String Lia Lra Nsatz.
From Verif Require Import Scalar Mat FilterBase StrMap Tf Estimator SpecEstimator RosFilter RosPrepare
  Listener SpecLin SpecTf SpecPrepare SpecListener ListenerAnc ListenerProofs RBridge Trig TfReal TfRot PrepareReal PrepareMotion ListenerReal.
Import ListNotations.

(** ** The cache stays right while the tree does *)
Section AnyScalar.
Context {K : Scalar} {E : Type} (vt : vtbl K E).

Lemma requested_world (w d : string) : (if String.eqb w "" then d else w) = frame_or w d.
Proof. destruct w; reflexivity. Qed.

Definition estimate (e : estimator K E) (time : K) : est_state K := snd (fst (est_getState vt e time (mkEst (s_ofZ 0) vzero mzero))).
Definition after (l : listener K E) (e : estimator K E) (time : K) : listener K E :=
  mkListener (l_base l) (l_world l) (Some (snd (est_getState vt e time (mkEst (s_ofZ 0) vzero mzero)))).

Lemma query_unset env time frame world (l : listener K E) c e : l_est l = Some e ->
  l_base l = ""%string \/ l_world l = ""%string ->
  listener_getState vt env time frame world l c = Returned (false, vzero, mzero, l, c).
Proof.
  intros He H. unfold listener_getState. rewrite He.
  replace (String.eqb (l_base l) "" || String.eqb (l_world l) "")%bool with true; [reflexivity|].
  symmetry. apply orb_true_iff. rewrite !String.eqb_eq. exact H.
Qed.
Lemma query_own env time frame world (l : listener K E) c e : l_est l = Some e ->
  l_base l <> ""%string -> l_world l <> ""%string -> frame = l_base l -> frame_or world (l_world l) = l_world l ->
  listener_getState vt env time frame world l c = Returned (true, es_state (estimate e time), es_cov (estimate e time), after l e time, c).
Proof.
  intros He Hb Hw -> Hf. unfold listener_getState, estimate, after. rewrite He, requested_world, Hf, !String.eqb_refl. cbn [andb].
  rewrite (proj2 (String.eqb_neq _ _) Hb), (proj2 (String.eqb_neq _ _) Hw). cbn [orb].
  destruct (est_getState vt e time _) as [[code s] e']. reflexivity.
Qed.

(** The cases of a query for other frames, on an acyclic tree. *)
Lemma query_other env time frame world (l : listener K E) c e : l_est l = Some e ->
  l_base l <> ""%string -> l_world l <> ""%string -> ~ (frame = l_base l /\ frame_or world (l_world l) = l_world l) ->
  acyclic (q_tree env) -> coherent (q_tree env) c ->
  let s := estimate e time in let l' := after l e time in let w := frame_or world (l_world l) in
  (query_nanoseconds time = Undefined /\ listener_getState vt env time frame world l c = Undefined) \/
  exists t c', query_nanoseconds time = Returned t /\ coherent (q_tree env) c' /\
    ((listener_getState vt env time frame world l c = Returned (false, vzero, mzero, l', c') /\
      (w <> l_world l /\ (q_buffer env w (l_world l) t = None \/ ancestor (q_tree env) w (l_base l)) \/
       q_buffer env (l_base l) frame t = None \/ ~ ancestor (q_tree env) frame (l_base l))) \/
     exists wt o q, listener_getState vt env time frame world l c =
        Returned (true, target_state env wt (eig_affine o q) (es_state s), target_cov env (eig_affine o q) (es_cov s), l', c') /\
      q_buffer env (l_base l) frame t = Some (o, q) /\ ancestor (q_tree env) frame (l_base l) /\
      ((w = l_world l /\ wt = t_identity) \/
       (w <> l_world l /\ exists ow qw, q_buffer env w (l_world l) t = Some (ow, qw) /\ ~ ancestor (q_tree env) w (l_base l) /\ wt = eig_affine ow qw))).
Proof.
  intros He Hb Hw Hn AC CO. cbv zeta. unfold listener_getState, estimate, after.
  rewrite He, requested_world, (proj2 (String.eqb_neq _ _) Hb), (proj2 (String.eqb_neq _ _) Hw). cbn [orb].
  destruct (est_getState vt e time _) as [[code s] e']. cbn [fst snd]. set (w := frame_or world (l_world l)) in *.
  replace (String.eqb frame (l_base l) && String.eqb w (l_world l))%bool with false
    by (symmetry; apply not_true_iff_false; rewrite andb_true_iff, !String.eqb_eq; exact Hn).
  set (l' := mkListener (l_base l) (l_world l) (Some e')).
  destruct (query_nanoseconds time) as [|t] eqn:Ht.
  { left. split; [reflexivity|]. destruct (String.eqb_spec w (l_world l)); reflexivity. }
  right. exists t. cbn [bind].
  assert (TAIL : forall wt c1, coherent (q_tree env) c1 -> exists c', coherent (q_tree env) c' /\
    ((match q_buffer env (l_base l) frame t with
      | None => Returned (false, vzero, mzero, l', c1)
      | Some (o, q) => bind (findAncestor (q_tree env) frame (l_base l) c1) (fun r =>
          if fst r then Returned (true, target_state env wt (eig_affine o q) (es_state s), target_cov env (eig_affine o q) (es_cov s), l', snd r)
          else Returned (false, vzero, mzero, l', snd r)) end) = Returned (false, vzero, mzero, l', c') /\
      (q_buffer env (l_base l) frame t = None \/ ~ ancestor (q_tree env) frame (l_base l)) \/
     exists o q, (match q_buffer env (l_base l) frame t with
      | None => Returned (false, vzero, mzero, l', c1)
      | Some (o, q) => bind (findAncestor (q_tree env) frame (l_base l) c1) (fun r =>
          if fst r then Returned (true, target_state env wt (eig_affine o q) (es_state s), target_cov env (eig_affine o q) (es_cov s), l', snd r)
          else Returned (false, vzero, mzero, l', snd r)) end) =
        Returned (true, target_state env wt (eig_affine o q) (es_state s), target_cov env (eig_affine o q) (es_cov s), l', c') /\
        q_buffer env (l_base l) frame t = Some (o, q) /\ ancestor (q_tree env) frame (l_base l))).
  { intros wt c1 CO1. destruct (q_buffer env (l_base l) frame t) as [[o q]|].
    - destruct (find_step (q_tree env) frame (l_base l) c1 AC CO1) as (b & c' & Q & Hd & CO'). rewrite Q. cbn [bind fst snd].
      exists c'. split; [exact CO'|]. destruct b.
      + right. exists o, q. split; [reflexivity|]. split; [reflexivity|]. apply Hd. reflexivity.
      + left. split; [reflexivity|]. right. intros A. apply Hd in A. discriminate A.
    - exists c1. split; [exact CO1|]. left. split; [reflexivity|]. left. reflexivity. }
  destruct (String.eqb_spec w (l_world l)) as [Ew|Nw].
  - cbn [bind]. destruct (TAIL t_identity c CO) as (c' & CO' & [[Q H]|(o & q & Q & Hq & A)]);
      exists c'; (split; [reflexivity|]); (split; [exact CO'|]).
    + left. split; [exact Q|]. right. exact H.
    + right. exists t_identity, o, q. split; [exact Q|]. split; [exact Hq|]. split; [exact A|]. left. split; [exact Ew|reflexivity].
  - destruct (q_buffer env w (l_world l) t) as [[ow qw]|] eqn:Qw.
    + destruct (find_step (q_tree env) w (l_base l) c AC CO) as (b & c1 & Q1 & Hd & CO1). rewrite Q1. cbn [bind fst snd]. destruct b.
      * exists c1. split; [reflexivity|]. split; [exact CO1|]. left. split; [reflexivity|]. left. split; [exact Nw|]. right. apply Hd. reflexivity.
      * destruct (TAIL (eig_affine ow qw) c1 CO1) as (c' & CO' & [[Q H]|(o & q & Q & Hq & A)]);
          exists c'; (split; [reflexivity|]); (split; [exact CO'|]).
        -- left. split; [exact Q|]. right. exact H.
        -- right. exists (eig_affine ow qw), o, q. split; [exact Q|]. split; [exact Hq|]. split; [exact A|]. right. split; [exact Nw|].
           exists ow, qw. split; [reflexivity|]. split; [|reflexivity]. intros A'. apply Hd in A'. discriminate A'.
    + cbn [bind]. exists c. split; [reflexivity|]. split; [exact CO|]. left. split; [reflexivity|]. left. split; [exact Nw|]. left. reflexivity.
Qed.

Lemma query_coherent env time frame world (l : listener K E) c b v m l' c' : acyclic (q_tree env) -> coherent (q_tree env) c ->
  listener_getState vt env time frame world l c = Returned (b, v, m, l', c') -> coherent (q_tree env) c'.
Proof.
  intros AC CO H. destruct (l_est l) as [e|] eqn:He; [|unfold listener_getState in H; rewrite He in H; discriminate H].
  destruct (String.eqb_spec (l_base l) "") as [Eb|Nb]; [rewrite (query_unset _ _ _ _ _ _ e He (or_introl Eb)) in H; injection H as _ _ _ _ <-; exact CO|].
  destruct (String.eqb_spec (l_world l) "") as [Ew|Nw]; [rewrite (query_unset _ _ _ _ _ _ e He (or_intror Ew)) in H; injection H as _ _ _ _ <-; exact CO|].
  destruct (String.eqb_spec frame (l_base l)) as [Ef|Nf];
    [destruct (String.eqb_spec (frame_or world (l_world l)) (l_world l)) as [Eg|Ng]|].
  - rewrite (query_own _ _ _ _ _ _ e He Nb Nw Ef Eg) in H. injection H as _ _ _ _ <-. exact CO.
  - destruct (query_other env time frame world l c e He Nb Nw (fun h => Ng (proj2 h)) AC CO) as [[_ Q]|(t & c1 & _ & CO1 & [[Q _]|(wt & o & q & Q & _)])];
      rewrite Q in H; [discriminate H|injection H as _ _ _ _ <-; exact CO1..].
  - destruct (query_other env time frame world l c e He Nb Nw (fun h => Nf (proj1 h)) AC CO) as [[_ Q]|(t & c1 & _ & CO1 & [[Q _]|(wt & o & q & Q & _)])];
      rewrite Q in H; [discriminate H|injection H as _ _ _ _ <-; exact CO1..].
Qed.
Lemma run_coherent tree : acyclic tree -> forall evs (l l' : listener K E) c c', one_tree tree evs -> coherent tree c ->
  listener_run vt evs (l, c) = Returned (l', c') -> coherent tree c'.
Proof.
  intros AC. induction evs as [|ev r IH]; intros l l' c c' OT CO H; cbn [listener_run] in H.
  - injection H as <- <-. exact CO.
  - apply bind_returned in H. destruct H as ([l1 c1] & Hs & Hr).
    apply (IH l1 l' c1 c'); [intros env t f w Hi; apply (OT env t f w); right; exact Hi| |exact Hr].
    destruct ev as [o a|env t f w]; cbn [listener_step fst snd] in Hs.
    + apply bind_returned in Hs. destruct Hs as (l2 & _ & Hs). injection Hs as <- <-. exact CO.
    + apply bind_returned in Hs. destruct Hs as ([[[[b v] m] l2] c2] & Hq & Hs). injection Hs as <- <-.
      rewrite <- (OT env t f w (or_introl eq_refl)) in *. exact (query_coherent _ _ _ _ _ _ _ _ _ _ _ AC CO Hq).
Qed.
End AnyScalar.

(** ** Over the reals *)
Local Open Scope R_scope.
Lemma moved_affine o (q : Q4) p : unit_quat q -> move (@eig_affine RScalar o q) p = moved o q p.
Proof. intros U. unfold move, moved, eig_affine. cbn [t_basis t_origin]. rewrite eig_spin by exact U. reflexivity. Qed.

Lemma target_carried (env : lenv RScalar) (wt : T4) o (q : Q4) (s : vec RScalar) : keeps_rotations (q_rotation env) -> rigid wt -> unit_quat q ->
  let s' := target_state env wt (eig_affine o q) s in
  carried (move wt) o q s s' /\ 0 <= s' 5%nat <= PI /\ - PI < s' 4%nat <= PI /\ - PI < s' 3%nat <= PI /\
  forall i, (12 <= i)%nat -> s' i = 0.
Proof.
  intros KR RW U. cbv zeta.
  assert (RT : rigid (@eig_affine RScalar o q)) by (apply eig_rotation, U).
  unfold target_state.
  set (base := mkTrans (eig_matrix _) _).
  assert (Hbase : base = @mkTrans RScalar (@m3_setRPY RScalar (s 3%nat) (s 4%nat) (s 5%nat)) (v3 (s 0%nat) (s 1%nat) (s 2%nat)))
    by (unfold base; rewrite base_matrix; reflexivity).
  assert (RB : rigid base) by (rewrite Hbase; apply setRPY_rotation).
  assert (RP : rotation (t_basis (t_mult (t_mult wt base) (eig_affine o q)))) by (apply rotation_mul; [apply rotation_mul|]; assumption).
  rewrite (KR _ RP), (KR _ RT).
  destruct (euler_correct _ RP) as (y & p & r & -> & Hm & Hy & Hp & Hr).
  set (s' := set_vec3 _ _ _).
  assert (S0 : v3 (s' 0%nat) (s' 1%nat) (s' 2%nat) = t_origin (t_mult (t_mult wt base) (eig_affine o q))) by (apply v3_eq; reflexivity).
  assert (S3 : s' 3%nat = r /\ s' 4%nat = p /\ s' 5%nat = y) by (repeat split; reflexivity). destruct S3 as (S3 & S4 & S5).
  assert (S6 : linear_of s' = m3mv (m3T (t_basis (eig_affine o q))) (plus3 (linear_of s) (cross3 (angular_of s) o))) by (apply v3_eq; reflexivity).
  assert (S9 : angular_of s' = m3mv (m3T (t_basis (eig_affine o q))) (angular_of s)) by (apply v3_eq; reflexivity).
  rewrite S3, S4, S5. split; [|split; [exact Hy|split; [exact Hp|split; [exact Hr|]]]].
  - split; [|split].
    + intros x. unfold body_point. rewrite S0, S3, S4, S5, <- setRPY_oriented, Hm.
      change (plus3 (turn (t_basis ?t) x) (t_origin ?t)) with (move t x). rewrite !move_mult, moved_affine by exact U. f_equal.
      rewrite Hbase. unfold move. cbn [t_basis t_origin]. rewrite setRPY_oriented. reflexivity.
    + rewrite S6. change (m3mv ?a ?b) with (turn a b). rewrite <- eig_spin by exact U. apply (turn_T_r _ _ RT).
    + rewrite S9. change (m3mv ?a ?b) with (turn a b). rewrite <- eig_spin by exact U. apply (turn_T_r _ _ RT).
  - intros i Hi. do 12 (destruct i as [|i]; [lia|]). reflexivity.
Qed.

Lemma target_cov_turned (env : lenv RScalar) o (q : Q4) (P : rmat) : keeps_rotations (q_rotation env) -> unit_quat q ->
  exists r, (forall v, turn r v = spin q v) /\ turned6 r P (block 0 (target_cov env (eig_affine o q) P)) /\
  forall i j, (6 <= i \/ 6 <= j)%nat -> target_cov env (eig_affine o q) P i j = 0.
Proof.
  intros KR U. pose proof (eig_rotation q U) as RQ. exists (@eig_matrix RScalar q). split; [intros v; apply eig_spin, U|].
  unfold target_cov. cbn [t_basis eig_affine]. rewrite (KR _ RQ). split.
  - apply turned6_rotate; [exact RQ|]. intros i j Hi Hj. unfold block, set_block. cbn [Nat.add Nat.leb andb].
    rewrite (proj2 (Nat.ltb_lt i 6) Hi), (proj2 (Nat.ltb_lt j 6) Hj). cbn [andb]. rewrite !Nat.sub_0_r. reflexivity.
  - intros i j H. unfold set_block. cbn [Nat.add Nat.leb andb].
    destruct (Nat.ltb_spec i 6); [destruct (Nat.ltb_spec j 6); [lia|]|]; reflexivity.
Qed.
Lemma spin_length (q : Q4) v : unit_quat q -> length3 (spin q v) = length3 v.
Proof.
  intros U. unfold length3. f_equal. rewrite <- eig_spin by exact U. pose proof (eig_rotation q U) as RQ.
  pose proof (rotation_T _ RQ) as HT. generalize dependent (@eig_matrix RScalar q). intros [[a b c] [d e f] [g h i]] RQ HT. clear -HT.
  destruct v as [x y z]. change (sc RScalar) with R in *. tf_simp. destruct HT as (A & B & C & D & F & G & _). nsatz.
Qed.

Section Real.
Context {E : Type} (vt : vtbl RScalar E).

Theorem query_defined env time frame world (l : listener RScalar E) c e : l_est l = Some e ->
  l_base l <> ""%string -> l_world l <> ""%string -> acyclic (q_tree env) -> coherent (q_tree env) c ->
  (listener_getState vt env time frame world l c = Undefined <->
   ~ (frame = l_base l /\ frame_or world (l_world l) = l_world l) /\ ~ int_nanoseconds time).
Proof.
  intros He Nb Nw AC CO. destruct (String.eqb_spec frame (l_base l)) as [Ef|Nf];
    [destruct (String.eqb_spec (frame_or world (l_world l)) (l_world l)) as [Eg|Ng]|].
  - rewrite (query_own vt _ _ _ _ _ _ e He Nb Nw Ef Eg). split; [discriminate|]. intros [H _]. exfalso. tauto.
  - rewrite <- nanoseconds_defined.
    destruct (query_other vt env time frame world l c e He Nb Nw (fun h => Ng (proj2 h)) AC CO) as [[Hn Q]|(t & c1 & Hn & CO1 & [[Q _]|(wt & o & q & Q & _)])];
      rewrite Q, Hn; split; try discriminate; try reflexivity.
    + intros _. split; [tauto|]. intros [n h]. discriminate h.
    + intros [_ h]. exfalso. apply h. eauto.
    + intros [_ h]. exfalso. apply h. eauto.
  - rewrite <- nanoseconds_defined.
    destruct (query_other vt env time frame world l c e He Nb Nw (fun h => Nf (proj1 h)) AC CO) as [[Hn Q]|(t & c1 & Hn & CO1 & [[Q _]|(wt & o & q & Q & _)])];
      rewrite Q, Hn; split; try discriminate; try reflexivity.
    + intros _. split; [tauto|]. intros [n h]. discriminate h.
    + intros [_ h]. exfalso. apply h. eauto.
    + intros [_ h]. exfalso. apply h. eauto.
Qed.

Theorem query_moves env time frame world (l : listener RScalar E) c e s' P' l' c' : l_est l = Some e ->
  l_base l <> ""%string -> l_world l <> ""%string -> acyclic (q_tree env) -> coherent (q_tree env) c ->
  keeps_rotations (q_rotation env) -> unit_answers env ->
  ~ (frame = l_base l /\ frame_or world (l_world l) = l_world l) ->
  listener_getState vt env time frame world l c = Returned (true, s', P', l', c') ->
  int_nanoseconds time /\ exists W o q, let t := Rtrunc (time * 1000000000) in let s := estimate vt e time in
    to_world env (l_base l) (l_world l) t (frame_or world (l_world l)) W /\ mounted env (l_base l) frame t o q /\ unit_quat q /\
    carried W o q (es_state s) s' /\
    0 <= s' 5%nat <= PI /\ (forall i, (12 <= i)%nat -> s' i = 0) /\
    exists r, (forall v, turn r v = spin q v) /\ turned6 r (es_cov s) (block 0 P') /\ (forall i j, (6 <= i \/ 6 <= j)%nat -> P' i j = 0).
Proof.
  intros He Nb Nw AC CO KR UA Hn H.
  destruct (query_other vt env time frame world l c e He Nb Nw Hn AC CO) as [[Ht Q]|(t & c1 & Ht & CO1 & [[Q _]|(wt & o & q & Q & Hq & A & HW)])];
    rewrite Q in H; try discriminate H. injection H as <- <- <- <-.
  assert (IN : int_nanoseconds time) by (apply nanoseconds_defined; eauto). split; [exact IN|].
  assert (Et : t = Rtrunc (time * 1000000000)).
  { unfold query_nanoseconds in Ht. rewrite to_int_R in Ht. destruct (Rlt_dec _ _); [|discriminate Ht]. destruct (Rlt_dec _ _); [|discriminate Ht].
    injection Ht as <-. reflexivity. }
  subst t. cbv zeta. set (t := Rtrunc _) in *. pose proof (UA _ _ _ _ _ Hq) as U.
  assert (HW' : exists W, to_world env (l_base l) (l_world l) t (frame_or world (l_world l)) W /\ rigid wt /\ forall p, W p = move wt p).
  { destruct HW as [[-> ->]|(Nq & ow & qw & Hw & NA & ->)].
    - exists (fun p => p). split; [constructor|]. split; [apply rotation_eye|]. intros p. unfold move. cbn [t_identity t_basis t_origin].
      rewrite turn_eye. destruct p as [x y z]. apply v3_eq; cbv [X Y Z3 v3x v3y v3z plus3 v3 v3zero]; toR; ring.
    - pose proof (UA _ _ _ _ _ Hw) as Uw. exists (moved ow qw). split; [constructor; assumption|]. split; [apply eig_rotation, Uw|].
      intros p. rewrite moved_affine by exact Uw. reflexivity. }
  destruct HW' as (W & TW & RW & EW).
  destruct (target_carried env wt o q (es_state (estimate vt e time)) KR RW U) as (CA & Hy & _ & _ & Hz). cbv zeta in *.
  destruct (target_cov_turned env o q (es_cov (estimate vt e time)) KR U) as (r & Hr & Tr & Zr).
  exists W, o, q. split; [exact TW|]. split; [split; assumption|]. split; [exact U|].
  split; [destruct CA as (C1 & C2 & C3); split; [intros p; rewrite EW; apply C1|split; assumption]|].
  split; [exact Hy|]. split; [exact Hz|]. exists r. split; [exact Hr|]. split; assumption.
Qed.

(** When a query for other frames succeeds. *)
Theorem query_succeeds env time frame world (l : listener RScalar E) c e : l_est l = Some e ->
  l_base l <> ""%string -> l_world l <> ""%string -> acyclic (q_tree env) -> coherent (q_tree env) c ->
  ~ (frame = l_base l /\ frame_or world (l_world l) = l_world l) -> int_nanoseconds time ->
  exists b v m l' c', listener_getState vt env time frame world l c = Returned (b, v, m, l', c') /\
  (b = true <-> (exists W, to_world env (l_base l) (l_world l) (Rtrunc (time * 1000000000)) (frame_or world (l_world l)) W) /\
     exists o q, mounted env (l_base l) frame (Rtrunc (time * 1000000000)) o q).
Proof.
  intros He Nb Nw AC CO Hn IN.
  destruct (query_other vt env time frame world l c e He Nb Nw Hn AC CO) as [[Ht _]|(t & c1 & Ht & CO1 & HQ)].
  { apply nanoseconds_defined in IN. destruct IN as [n h]. rewrite h in Ht. discriminate Ht. }
  assert (Et : t = Rtrunc (time * 1000000000)).
  { unfold query_nanoseconds in Ht. rewrite to_int_R in Ht. destruct (Rlt_dec _ _); [|discriminate Ht]. destruct (Rlt_dec _ _); [|discriminate Ht].
    injection Ht as <-. reflexivity. }
  subst t. set (t := Rtrunc _) in *. destruct HQ as [[Q H]|(wt & o & q & Q & Hq & A & HW)]; rewrite Q; do 5 eexists; (split; [reflexivity|]).
  - split; [discriminate|]. intros ((W & HW) & o & q & M1 & M2). exfalso. destruct H as [(Nq & [B|B])|[B|B]].
    + inversion HW; subst; congruence.
    + inversion HW; subst; [congruence|contradiction].
    + congruence.
    + contradiction.
  - split; [|reflexivity]. intros _. split; [|exists o, q; split; assumption].
    destruct HW as [[-> _]|(Nq & ow & qw & Hw & NA & _)].
    + exists (fun p => p). constructor.
    + exists (moved ow qw). constructor; assumption.
Qed.
End Real.
