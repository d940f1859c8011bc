(** * From messages to measurements: general lemmas *)

From Coq Require Import Reals ZArith List Bool Lia Lra String Arith.
From Verif Require Import Scalar Mat FilterBase StrMap Tf Diagnostics RosFilter RosConfig ForceTwoD RosPrepare
  SpecNode SpecTf SpecLin SpecPrepare OutputProofs.
Import ListNotations.

Section General.
Context {K : Scalar} {E : Type}.

Lemma no_motion_identity : @no_motion K = t_identity.
Proof. reflexivity. Qed.

Lemma lookup_answer (e : penv K) target source time :
  answer (e_buffer e) target source (e_from_sec e (toSec time)) (lookupTransformSafe e target source time).
Proof.
  unfold lookupTransformSafe. cbv zeta.
  destruct (e_buffer e target source (e_from_sec e (toSec time))) as [t|] eqn:H; [apply at_time; exact H|].
  destruct (e_buffer e target source 0%Z) as [t|] eqn:H0; [apply latest_one; assumption|].
  destruct (String.eqb_spec target source) as [->|N].
  - rewrite <- no_motion_identity. apply same_frame; auto.
  - apply unavailable; assumption.
Qed.

Lemma answer_fun b target source asked (x y : option (trans K)) :
  answer b target source asked x -> answer b target source asked y -> x = y.
Proof. intros H H'. inversion H; inversion H'; congruence. Qed.

Lemma lookup_is (e : penv K) target source time r :
  answer (e_buffer e) target source (e_from_sec e (toSec time)) r -> lookupTransformSafe e target source time = r.
Proof. intros H. eapply answer_fun; [apply lookup_answer|exact H]. Qed.

(** ** Callbacks *)
Definition seen (n : node K E) (topic : string) (stamp : Z) : node K E :=
  if sm_mem (n_last_msg n) topic then n else with_last_msg n (sm_set (n_last_msg n) topic stamp).

Lemma sm_find_set {A} (m : smap A) k a : sm_find (sm_set m k a) k = Some a.
Proof.
  induction m as [|[k' a'] r IH]; cbn [sm_set sm_find].
  - rewrite String.eqb_refl. reflexivity.
  - destruct (String.eqb_spec k k') as [<-|N]; cbn [sm_find].
    + rewrite String.eqb_refl. reflexivity.
    + destruct (String.ltb k k'); cbn [sm_find].
      * rewrite String.eqb_refl. reflexivity.
      * destruct (String.eqb_spec k k'); [contradiction|exact IH].
Qed.
Lemma sm_find_set_other {A} (m : smap A) k k2 a : k2 <> k -> sm_find (sm_set m k a) k2 = sm_find m k2.
Proof.
  intros N. induction m as [|[k' a'] r IH]; cbn [sm_set sm_find].
  - destruct (String.eqb_spec k2 k); [contradiction|reflexivity].
  - destruct (String.eqb_spec k k') as [<-|N']; cbn [sm_find].
    + destruct (String.eqb_spec k2 k); [contradiction|reflexivity].
    + destruct (String.ltb k k'); cbn [sm_find].
      * destruct (String.eqb_spec k2 k); [contradiction|reflexivity].
      * destruct (String.eqb k2 k'); [reflexivity|exact IH].
Qed.

Lemma seen_fields (n : node K E) topic stamp :
  let m := seen n topic stamp in
  n_filter m = n_filter n /\ n_ang m = n_ang n /\ n_streams m = n_streams n /\ n_set_pose m = n_set_pose n /\
  n_ctl m = n_ctl n /\ n_ctl_time m = n_ctl_time n /\ n_queue m = n_queue n /\ n_diag m = n_diag n /\
  sm_find (n_last_msg m) topic = Some (match sm_find (n_last_msg n) topic with Some t => t | None => stamp end) /\
  (forall k, k <> topic -> sm_find (n_last_msg m) k = sm_find (n_last_msg n) k).
Proof.
  unfold seen, sm_mem. destruct (sm_find (n_last_msg n) topic) as [t|] eqn:H; cbn zeta; cbn.
  - repeat split; auto.
  - repeat split; try reflexivity; [apply sm_find_set|]. intros k Hk. apply sm_find_set_other; exact Hk.
Qed.

Lemma sensor_fresh pq warn topic stamp upd thresh (prep : prepfun K E) (n : node K E) :
  fresh n topic stamp ->
  let r := prep (seen n topic stamp) upd vzero mzero in
  let x := sensorCallback pq warn topic stamp upd thresh prep n in
  snd x = (if pr_ok r
    then [OutQueued (mkMeas topic stamp (pr_val r) (pr_cov r) (pr_upd r) thresh (n_ctl n) (n_ctl_time n))] else []) /\
  n_streams (fst x) = pr_streams r /\ n_filter (fst x) = n_filter n /\ n_ang (fst x) = n_ang n /\
  n_set_pose (fst x) = n_set_pose n /\ n_ctl (fst x) = n_ctl n /\ n_ctl_time (fst x) = n_ctl_time n /\
  sm_find (n_last_msg (fst x)) topic = Some stamp /\
  (forall k, k <> topic -> sm_find (n_last_msg (fst x)) k = sm_find (n_last_msg n) k).
Proof.
  intros [Hb Hl]. cbv zeta.
  destruct (seen_fields n topic stamp) as (F1 & F2 & F3 & F4 & F5 & F6 & F7 & F8 & F9 & F10).
  unfold sensorCallback. rewrite Z.geb_leb.
  destruct (Z.leb_spec stamp (n_set_pose n)) as [h|_]; [lia|].
  fold (seen n topic stamp). cbv zeta. rewrite F9.
  assert (Hle : Z.leb (match sm_find (n_last_msg n) topic with Some t => t | None => stamp end) stamp = true).
  { apply Z.leb_le. destruct (sm_find (n_last_msg n) topic) as [t|]; [apply Hl; reflexivity|lia]. }
  rewrite Hle. destruct (pr_ok (prep (seen n topic stamp) upd vzero mzero)); cbn;
    (repeat split; try assumption; try (rewrite ?F5, ?F6; reflexivity); [apply sm_find_set|]);
    intros k Hk; rewrite sm_find_set_other by exact Hk; apply F10; exact Hk.
Qed.

(** ** two_d_mode *)
Lemma set_flag_other l i b k : k <> i -> nth k (set_flag l i b) false = nth k l false.
Proof.
  revert i k. induction l as [|a r IH]; intros [|i] [|k] H; cbn; try reflexivity; try lia; try (destruct k; reflexivity).
  apply IH. lia.
Qed.
Lemma set_flag_same l i b : (i < List.length l)%nat -> nth i (set_flag l i b) false = b.
Proof. revert i. induction l as [|a r IH]; intros [|i] H; cbn in *; try lia; [reflexivity|]. apply IH. lia. Qed.
Lemma set_flag_length l i b : List.length (set_flag l i b) = List.length l.
Proof. revert i. induction l as [|a r IH]; intros [|i]; cbn; try reflexivity. rewrite IH. reflexivity. Qed.
Lemma set_flag_id l i : set_flag l i (nth i l false) = l.
Proof. revert i. induction l as [|a r IH]; intros [|i]; cbn; try reflexivity. rewrite IH. reflexivity. Qed.

Lemma mset_other (A : mat K) i j x k l : k <> i \/ l <> j -> mset A i j x k l = A k l.
Proof. intros H. unfold mset. destruct (Nat.eqb_spec k i); destruct (Nat.eqb_spec l j); cbn; try reflexivity. lia. Qed.

Lemma finish_kept two_d (v : vec K) c u v' c' u' :
  finish two_d v c u = (v', c', u') ->
  (forall i, kept two_d i -> v' i = v i /\ nth i u' false = nth i u false) /\
  (forall i j, kept two_d i \/ i <> j -> c' i j = c i j) /\
  List.length u' = List.length u.
Proof.
  unfold finish. destruct two_d; intros H; injection H as <- <- <-.
  2:{ repeat split; reflexivity. }
  unfold two_d_members. cbn [fold_left].
  assert (HF : forall i, kept true i -> i <> 2 /\ i <> 3 /\ i <> 4 /\ i <> 8 /\ i <> 9 /\ i <> 10 /\ i <> 14).
  { intros i [h|h]; [discriminate|]. unfold flattened in h. cbn in h. repeat split; intros ->; apply h; tauto. }
  split; [|split].
  - intros i Hi. apply HF in Hi as (? & ? & ? & ? & ? & ? & ?). split.
    + unfold vset. repeat (match goal with |- context [Nat.eqb ?a ?b] => destruct (Nat.eqb_spec a b); [lia|] end). reflexivity.
    + rewrite !set_flag_other by (cbn; lia). reflexivity.
  - intros i j Hij.
    assert (HN : forall k, In k [2; 3; 4; 8; 9; 10; 14]%nat -> i <> k \/ j <> k).
    { intros k Hk. destruct Hij as [Hij|Hij]; [|lia]. left. intros ->. apply HF in Hij. cbn in Hk. lia. }
    rewrite !mset_other by (apply HN; cbn; tauto). reflexivity.
  - rewrite !set_flag_length. reflexivity.
Qed.
Lemma kept_false i : kept false i.
Proof. left. reflexivity. Qed.

Lemma set_vec3_at (v : vec K) o x :
  set_vec3 v o x o = v3x x /\ set_vec3 v o x (o + 1) = v3y x /\ set_vec3 v o x (o + 2) = v3z x /\
  forall i, (i < o \/ o + 3 <= i)%nat -> set_vec3 v o x i = v i.
Proof.
  unfold set_vec3, vset. repeat split.
  - destruct (Nat.eqb_spec o (o + 2)); [lia|]. destruct (Nat.eqb_spec o (o + 1)); [lia|]. rewrite Nat.eqb_refl. reflexivity.
  - destruct (Nat.eqb_spec (o + 1) (o + 2)); [lia|]. rewrite Nat.eqb_refl. reflexivity.
  - rewrite Nat.eqb_refl. reflexivity.
  - intros i H. repeat (match goal with |- context [Nat.eqb ?a ?b] => destruct (Nat.eqb_spec a b); [lia|] end). reflexivity.
Qed.

Lemma set_block_in (a : mat K) o n b i j : (i < n)%nat -> (j < n)%nat -> set_block a o n b (o + i) (o + j) = b i j.
Proof.
  intros Hi Hj. unfold set_block.
  destruct (Nat.leb_spec o (o + i)); [|lia]. destruct (Nat.ltb_spec (o + i) (o + n)); [|lia].
  destruct (Nat.leb_spec o (o + j)); [|lia]. destruct (Nat.ltb_spec (o + j) (o + n)); [|lia].
  cbn [andb]. f_equal; lia.
Qed.
Lemma set_block_out (a : mat K) o n b i j : (i < o \/ o + n <= i \/ j < o \/ o + n <= j)%nat -> set_block a o n b i j = a i j.
Proof.
  intros H. unfold set_block.
  destruct (Nat.leb_spec o i); destruct (Nat.ltb_spec i (o + n)); destruct (Nat.leb_spec o j); destruct (Nat.ltb_spec j (o + n));
    cbn [andb]; try reflexivity. lia.
Qed.

Lemma unmask_other (m : mat3 K) o u i : (i < o \/ o + 3 <= i)%nat -> nth i (unmask m o u) false = nth i u false.
Proof. intros H. unfold unmask. rewrite !set_flag_other by lia. reflexivity. Qed.
Lemma unmask_length (m : mat3 K) o u : List.length (unmask m o u) = List.length u.
Proof. unfold unmask. rewrite !set_flag_length. reflexivity. Qed.
Lemma unmask_at (m : mat3 K) o u i : (i < 3)%nat -> (o + i < List.length u)%nat ->
  nth (o + i) (unmask m o u) false = significant m i.
Proof.
  intros Hi Hu. unfold unmask.
  destruct i as [|[|[|i]]]; [| | |lia].
  - rewrite !set_flag_other by lia. rewrite Nat.add_0_r in *. apply set_flag_same. exact Hu.
  - rewrite set_flag_other by lia. apply set_flag_same. rewrite set_flag_length. exact Hu.
  - apply set_flag_same. rewrite !set_flag_length. exact Hu.
Qed.

End General.

Local Open Scope R_scope.
From Verif Require Import Trig TfReal TfRot TfQuat RBridge RLin.

(** ** Exact arithmetic *)
Lemma significant_flag (u : list bool) o i : (i < 3)%nat ->
  @significant RScalar (mask3 u o) i = nth (o + i) u false.
Proof.
  intros Hi. unfold significant, v3length.
  assert (S : forall (b : bool) (x : R), x = (if b then 1 else 0) -> @s_leb RScalar (@lit RScalar 1 6) (sqrt x) = b).
  { intros b x ->. unfold lit. toR. change (10 ^ 6)%Z with 1000000%Z. destruct b.
    - rewrite sqrt_1. apply Rleb_true. lra.
    - rewrite sqrt_0. apply Rleb_false. lra. }
  assert (O : forall b, @of_flag RScalar b = if b then 1 else 0) by (intros []; reflexivity).
  destruct i as [|[|[|i]]]; [| | |lia]; apply S; unfold mask3, v3dot; cbn; rewrite ?O, ?Nat.add_0_r; unfold flag;
    match goal with |- context [nth ?k u false] => destruct (nth k u false) end; toR; lra.
Qed.

Lemma unmask_eye (u : list bool) o : unmask (@m3mul RScalar m3eye (mask3 u o)) o u = u.
Proof.
  rewrite m3mul_eye_l. unfold unmask.
  rewrite !significant_flag by lia. rewrite Nat.add_0_r, set_flag_id.
  rewrite set_flag_id, set_flag_id. reflexivity.
Qed.

Lemma getRotation_eye : m3_of_quat (@m3_getRotation RScalar m3eye) = m3eye.
Proof. apply getRotation_correct, rotation_eye. Qed.
