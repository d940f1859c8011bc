(** * Facts about loadParams *)

From Coq Require Import ZArith List Bool String Ascii Arith Lia Decimal DecimalString DecimalNat.
From Verif Require Import Scalar Mat FilterBase StrMap Diagnostics RosFilter RosConfig SpecConfig NodeScenario.
Import ListNotations.

(** ** Vectors of flags *)
Lemma nth_repeat_false i n : nth i (repeat false n) false = false.
Proof. revert i. induction n; intros [|i]; cbn; auto. Qed.

Lemma cfg_nth o i : nth i (loadUpdateConfig o) false = configured o i.
Proof. destruct o; [reflexivity|]. apply nth_repeat_false. Qed.
Lemma cfg_len o : List.length (loadUpdateConfig o) = config_size o.
Proof. destruct o; reflexivity. Qed.

Lemma within_spec a b i : within a b i = true <-> (a <= i < b)%nat.
Proof. unfold within. rewrite andb_true_iff, Nat.leb_le, Nat.ltb_lt. tauto. Qed.
Lemma within_false a b i : within a b i = false <-> ~ (a <= i < b)%nat.
Proof. rewrite <- within_spec. destruct (within a b i); split; congruence. Qed.

Lemma fill_spec v a n :
  match fill_false v a n with
  | Ok w => (a + n <= List.length v)%nat /\ List.length w = List.length v /\
            forall i, nth i w false = (negb (within a (a + n) i) && nth i v false)%bool
  | Undefined => (List.length v < a + n)%nat
  end.
Proof.
  unfold fill_false. destruct (Nat.leb_spec (a + n) (List.length v)) as [H|H]; [|exact H].
  split; [exact H|]. split.
  - rewrite !app_length, repeat_length, firstn_length, skipn_length. lia.
  - intros i. destruct (within a (a + n) i) eqn:Hw.
    + apply within_spec in Hw. rewrite app_nth2; rewrite firstn_length_le by lia; [|lia].
      rewrite app_nth1 by (rewrite repeat_length; lia). apply nth_repeat_false.
    + apply within_false in Hw. cbn [negb andb].
      destruct (Nat.lt_ge_cases i a) as [Hi|Hi].
      * rewrite app_nth1 by (rewrite firstn_length_le; lia).
        rewrite <- (firstn_skipn a v) at 2. rewrite app_nth1 by (rewrite firstn_length_le; lia). reflexivity.
      * rewrite app_nth2; rewrite firstn_length_le by lia; [|lia].
        rewrite app_nth2; rewrite repeat_length; [|lia].
        rewrite <- (firstn_skipn (a + n) v) at 2. rewrite app_nth2; rewrite firstn_length_le by lia; [|lia].
        f_equal. lia.
Qed.

Lemma accumulate_from v : forall z, fold_left (fun s b => (s + Z.b2z b)%Z) v z = (z + accumulate v)%Z.
Proof.
  induction v as [|b v IH]; intros z; [unfold accumulate; cbn [fold_left]; lia|]. unfold accumulate. cbn [fold_left].
  rewrite (IH (z + Z.b2z b)%Z), (IH (0 + Z.b2z b)%Z). lia.
Qed.
Lemma accumulate_cons b v : accumulate (b :: v) = (Z.b2z b + accumulate v)%Z.
Proof. unfold accumulate at 1. cbn [fold_left]. rewrite accumulate_from. lia. Qed.
Lemma accumulate_nonneg v : (0 <= accumulate v)%Z.
Proof.
  induction v as [|b v IH]; [reflexivity|]. rewrite accumulate_cons.
  assert (0 <= Z.b2z b)%Z by (destruct b; cbn; lia). lia.
Qed.
Lemma accumulate_count v : accumulate v = Z.of_nat (List.length (filter (fun b => b) v)).
Proof.
  induction v as [|b v IH]; [reflexivity|]. rewrite accumulate_cons, IH. destruct b; cbn [filter List.length Z.b2z]; lia.
Qed.
Lemma accumulate_zero v : accumulate v = 0%Z <-> forall i, nth i v false = false.
Proof.
  induction v as [|b v IH]; [split; intros _; [intros [|i]; reflexivity|reflexivity]|].
  rewrite accumulate_cons. pose proof (accumulate_nonneg v).
  assert (Hb : (0 <= Z.b2z b)%Z) by (destruct b; cbn; lia). split.
  - intros H0 i. destruct b; cbn [Z.b2z] in H0; [lia|]. destruct i; [reflexivity|]. apply IH. lia.
  - intros Ha. specialize (Ha 0%nat) as Hb0. cbn in Hb0. subst b.
    assert (accumulate v = 0%Z) as -> by (apply IH; intros i; apply (Ha (S i))). reflexivity.
Qed.
Lemma accumulate_pos v : Z.gtb (accumulate v) 0 = false -> forall i, nth i v false = false.
Proof. intros H. rewrite Z.gtb_ltb, Z.ltb_ge in H. apply accumulate_zero. pose proof (accumulate_nonneg v). lia. Qed.
Lemma accumulate_gt v i : nth i v false = true -> Z.gtb (accumulate v) 0 = true.
Proof.
  intros H. destruct (Z.gtb (accumulate v) 0) eqn:G; [reflexivity|].
  rewrite (accumulate_pos _ G i) in H. discriminate.
Qed.

Lemma accumulate_ex v : accumulate v <> 0%Z -> exists i, nth i v false = true.
Proof.
  induction v as [|b v IH]; intros H; [elim H; reflexivity|]. destruct b; [exists 0%nat; reflexivity|].
  rewrite accumulate_cons in H. destruct IH as (i & Hi); [exact H|]. exists (S i). exact Hi.
Qed.

Lemma at_flag_spec v i : match at_flag v i with Ok b => (i < List.length v)%nat /\ b = nth i v false
                                             | Undefined => (List.length v <= i)%nat end.
Proof.
  unfold at_flag. destruct (nth_error v i) as [b|] eqn:H.
  - split; [apply nth_error_Some; congruence|]. symmetry. apply nth_error_nth, H.
  - apply nth_error_None, H.
Qed.

(** ** Counting *)
Definition contrib (l : list (nat * nat)) (v : list bool) (k : nat) : Z :=
  fold_right (fun q s => ((if Nat.eqb k (fst q) then Z.b2z (nth (snd q) v false) else 0) + s)%Z) 0%Z l.

Lemma add_counts_spec c v l :
  match add_counts c v l with
  | Ok c' => Forall (fun q => snd q < List.length v)%nat l /\ forall k, c' k = (c k + contrib l v k)%Z
  | Undefined => Exists (fun q => List.length v <= snd q)%nat l
  end.
Proof.
  revert c. induction l as [|[a b] l IH]; intros c; cbn [add_counts contrib fold_right fst snd].
  - split; [constructor|]. intros; lia.
  - unfold obind. pose proof (at_flag_spec v b) as Hf. destruct (at_flag v b) as [f|].
    + destruct Hf as (Hl & ->). specialize (IH (add_count c a (nth b v false))).
      destruct (add_counts _ v l) as [c'|].
      * destruct IH as (Hl' & IH). split; [constructor; assumption|]. intros k. rewrite IH. unfold add_count, contrib.
        destruct (Nat.eqb k a); lia.
      * apply Exists_cons_tl, IH.
    + apply Exists_cons_hd, Hf.
Qed.
Lemma contrib_zero l v k : (forall i, nth i v false = false) -> contrib l v k = 0%Z.
Proof.
  intros H. unfold contrib. induction l as [|[a b] l IH]; [reflexivity|].
  cbn [fold_right fst snd]. rewrite IH, H. destruct (Nat.eqb k a); reflexivity.
Qed.

Section Loading.
Context {K : Scalar} {E : Type}.

(** Members of a table of size at most [n]. *)
Definition below (n : nat) (l : list (nat * nat)) : bool := forallb (fun q => Nat.ltb (snd q) n) l.

Lemma add_counts_ok c v l n : below n l = true -> (n <= List.length v)%nat ->
  exists c', add_counts c v l = Ok c' /\ forall k, c' k = (c k + contrib l v k)%Z.
Proof.
  intros Hb Hn. pose proof (add_counts_spec c v l) as H. destruct (add_counts c v l) as [c'|].
  - exists c'. split; [reflexivity|apply H].
  - exfalso. apply Exists_exists in H. destruct H as (q & Hq & Hl). unfold below in Hb.
    rewrite forallb_forall in Hb. specialize (Hb q Hq). apply Nat.ltb_lt in Hb. lia.
Qed.

(** Effect of loading one input on the counters: [a] and [t] are what it adds. *)
Definition counted (l l' : loading K) (a t : nat -> Z) : Prop :=
  (forall k, l_abs l' k = (l_abs l k + a k)%Z) /\ (forall k, l_twist l' k = (l_twist l k + t k)%Z).
Lemma counted_trans l l1 l2 a1 t1 a2 t2 :
  counted l l1 a1 t1 -> counted l1 l2 a2 t2 -> counted l l2 (fun k => (a1 k + a2 k)%Z) (fun k => (t1 k + t2 k)%Z).
Proof.
  intros (A1 & T1) (A2 & T2). split; intros k; [rewrite A2, A1|rewrite T2, T1]; lia.
Qed.
(** The other members are untouched. *)
Definition same_rest (l l' : loading K) : Prop :=
  l_subs l' = l_subs l /\ l_control l' = l_control l /\ l_diag l' = l_diag l /\ l_gravity l' = l_gravity l.
Lemma same_rest_refl l : same_rest l l.
Proof. repeat split. Qed.
Lemma same_rest_trans l1 l2 l3 : same_rest l1 l2 -> same_rest l2 l3 -> same_rest l1 l3.
Proof. intros (A & B & C & D) (A' & B' & C' & D'). repeat split; congruence. Qed.

Lemma count_pose_spec d tt tp v l n : below n tt = true -> below n tp = true -> (n <= List.length v)%nat ->
  exists l', count_pose d tt tp v l = Ok l' /\ same_rest l l' /\
    counted l l' (fun k => if d then 0%Z else contrib tp v k) (fun k => if d then contrib tt v k else 0%Z).
Proof.
  intros H1 H2 Hn. unfold count_pose, obind. destruct d.
  - destruct (add_counts_ok (l_twist l) v tt n H1 Hn) as (c' & -> & Hc). eexists. split; [reflexivity|].
    split; [repeat split|]. split; intros k; cbn; [lia|apply Hc].
  - destruct (add_counts_ok (l_abs l) v tp n H2 Hn) as (c' & -> & Hc). eexists. split; [reflexivity|].
    split; [repeat split|]. split; intros k; cbn; [apply Hc|lia].
Qed.
Lemma count_twist_spec tt v l n : below n tt = true -> (n <= List.length v)%nat ->
  exists l', count_twist tt v l = Ok l' /\ same_rest l l' /\ counted l l' (fun _ => 0%Z) (fun k => contrib tt v k).
Proof.
  intros H1 Hn. unfold count_twist, obind.
  destruct (add_counts_ok (l_twist l) v tt n H1 Hn) as (c' & -> & Hc). eexists. split; [reflexivity|].
  split; [repeat split|]. split; intros k; cbn; [lia|apply Hc].
Qed.
(** The guard on the sum changes nothing: without flags nothing is added. *)
Lemma guarded_pose d tt tp v l n : below n tt = true -> below n tp = true -> (n <= List.length v)%nat ->
  exists l', (if Z.gtb (accumulate v) 0 then count_pose d tt tp v l else Ok l) = Ok l' /\ same_rest l l' /\
    counted l l' (fun k => if d then 0%Z else contrib tp v k) (fun k => if d then contrib tt v k else 0%Z).
Proof.
  intros H1 H2 Hn. destruct (Z.gtb (accumulate v) 0) eqn:G; [apply (count_pose_spec d tt tp v l n H1 H2 Hn)|].
  pose proof (accumulate_pos _ G) as H0. exists l. split; [reflexivity|]. split; [apply same_rest_refl|].
  split; intros k; destruct d; rewrite ?contrib_zero by exact H0; lia.
Qed.
Lemma guarded_twist tt v l n : below n tt = true -> (n <= List.length v)%nat ->
  exists l', (if Z.gtb (accumulate v) 0 then count_twist tt v l else Ok l) = Ok l' /\ same_rest l l' /\
    counted l l' (fun _ => 0%Z) (fun k => contrib tt v k).
Proof.
  intros H1 Hn. destruct (Z.gtb (accumulate v) 0) eqn:G; [apply (count_twist_spec tt v l n H1 Hn)|].
  pose proof (accumulate_pos _ G) as H0. exists l. split; [reflexivity|]. split; [apply same_rest_refl|].
  split; intros k; rewrite ?contrib_zero by exact H0; lia.
Qed.

(** ** One input *)
Definition listed_text : string := "is listed as an input topic, but all update variables are false".
(** Every static diagnostic so far has the text [listed_text]. *)
Definition only_listed (d : diag) : Prop := forall key t, sm_find (d_static d) key = Some t -> t = listed_text.

(** What loading one input does; [P] describes its subscription, [use] says
    whether there is one, [d] the control flags it clears. *)
Record effect (l l' : loading K) (P : subscription K -> Prop) (use : Prop) (a t : nat -> Z)
    (ctl : list bool) : Prop := mkEffect {
  ef_subs : (l_subs l' = l_subs l /\ ~ use) \/ (exists s, l_subs l' = l_subs l ++ [s] /\ P s /\ use);
  ef_counts : counted l l' a t;
  ef_control : l_control l' = ctl;
  ef_diag : only_listed (l_diag l) -> only_listed (l_diag l')
}.

Lemma b2z_add b : Z.b2z b = (if b then 1 else 0)%Z.
Proof. destruct b; reflexivity. Qed.

Definition odom_abs (p : odom_par K) (k : nat) : Z :=
  if op_differential p then 0%Z
  else if Nat.ltb k 6 then Z.b2z (configured (op_config p) k) else 0%Z.
Definition odom_tw (p : odom_par K) (k : nat) : Z :=
  ((if op_differential p then if within 6 12 k then Z.b2z (configured (op_config p) (k - 6)) else 0 else 0) +
   (if within 6 12 k then Z.b2z (configured (op_config p) (if Nat.eqb k 7 then 6 else k)) else 0))%Z.

Ltac twelve k := do 12 (destruct k as [|k]; [reflexivity|]); reflexivity.

Lemma contrib_shift v k : contrib pose_to_twist v k = (if within 6 12 k then Z.b2z (nth (k - 6) v false) else 0)%Z.
Proof.
  do 12 (destruct k as [|k]; [cbn -[Z.add nth]; try reflexivity; cbn [Nat.sub]; lia|]). cbn -[Z.add]. reflexivity.
Qed.
Lemma contrib_pose v k : contrib pose_to_pose v k = (if Nat.ltb k 6 then Z.b2z (nth k v false) else 0)%Z.
Proof. do 6 (destruct k as [|k]; [cbn -[Z.add nth]; lia|]). cbn -[Z.add]. reflexivity. Qed.
Lemma contrib_odom v k : contrib odom_twist v k =
  (if within 6 12 k then Z.b2z (nth (if Nat.eqb k 7 then 6 else k) v false) else 0)%Z.
Proof. do 12 (destruct k as [|k]; [cbn -[Z.add nth]; try reflexivity; lia|]). cbn -[Z.add]. reflexivity. Qed.
Lemma contrib_twist v k : contrib twist_twist v k = (if within 6 12 k then Z.b2z (nth k v false) else 0)%Z.
Proof. do 12 (destruct k as [|k]; [cbn -[Z.add nth]; try reflexivity; lia|]). cbn -[Z.add]. reflexivity. Qed.
Lemma contrib_imu_shift v k : contrib imu_pose_twist v k = (if within 9 12 k then Z.b2z (nth (k - 6) v false) else 0)%Z.
Proof. do 12 (destruct k as [|k]; [cbn -[Z.add nth]; try reflexivity; cbn [Nat.sub]; lia|]). cbn -[Z.add]. reflexivity. Qed.
Lemma contrib_imu_pose v k : contrib imu_pose_pose v k = (if within 3 6 k then Z.b2z (nth k v false) else 0)%Z.
Proof. do 6 (destruct k as [|k]; [cbn -[Z.add nth]; try reflexivity; lia|]). cbn -[Z.add]. reflexivity. Qed.
Lemma contrib_imu_twist v k : contrib imu_twist v k = (if within 9 12 k then Z.b2z (nth k v false) else 0)%Z.
Proof. do 12 (destruct k as [|k]; [cbn -[Z.add nth]; try reflexivity; lia|]). cbn -[Z.add]. reflexivity. Qed.

Lemma use_relative_spec d r : use_relative d r = (r && negb d)%bool.
Proof. destruct d, r; reflexivity. Qed.

Lemma only_listed_add d key : only_listed d -> only_listed (addDiagnostic d (mkCall DIAG_WARN key listed_text true)).
Proof.
  intros H k t. unfold addDiagnostic. cbn [dc_static d_static dc_key dc_text].
  rewrite sm_set_find. destruct (String.eqb key k); [congruence|]. apply H.
Qed.

Lemma load_odom_spec i p l :
  match load_odom i p l with
  | Ok l' => (12 <= config_size (op_config p))%nat /\
      effect l l' (odom_sub i p) (useful (op_config p) (fun _ => true)) (odom_abs p) (odom_tw p) (l_control l)
  | Undefined => (config_size (op_config p) < 12)%nat
  end.
Proof.
  unfold load_odom. set (v := loadUpdateConfig (op_config p)).
  assert (Hlen : List.length v = config_size (op_config p)) by apply cfg_len.
  assert (Hv : forall i, nth i v false = configured (op_config p) i) by (intros; apply cfg_nth). clearbody v.
  pose proof (fill_spec v 6 6) as F1. destruct (fill_false v 6 6) as [pv|]; cbn [obind]; [|lia].
  destruct F1 as (L1 & E1 & N1).
  pose proof (fill_spec v 0 6) as F2. destruct (fill_false v 0 6) as [tv|]; cbn [obind]; [|cbn in L1; lia].
  destruct F2 as (L2 & E2 & N2). cbn [Nat.add] in *.
  match goal with |- context [if Z.gtb (accumulate pv) 0 then _ else Ok ?x] => set (l1 := x) end.
  destruct (guarded_pose (op_differential p) pose_to_twist pose_to_pose pv l1 12 eq_refl eq_refl ltac:(lia)) as (l2 & -> & S2 & C2).
  cbn [obind].
  destruct (guarded_twist odom_twist tv l2 12 eq_refl ltac:(lia)) as (l3 & -> & S3 & C3).
  split; [lia|].
  pose proof (same_rest_trans _ _ _ S2 S3) as (Ss & Sc & Sd & _).
  pose proof (counted_trans _ _ _ _ _ _ _ C2 C3) as (Ca & Ct).
  assert (Hl1 : l_abs l1 = l_abs l /\ l_twist l1 = l_twist l /\ l_control l1 = l_control l).
  { unfold l1. destruct (Z.gtb _ 0); repeat split. }
  destruct Hl1 as (Ha1 & Ht1 & Hc1). constructor.
  - rewrite Ss. unfold l1. destruct (Z.gtb (accumulate pv + accumulate tv) 0) eqn:G; cbn.
    + right. eexists. split; [reflexivity|]. split.
      * unfold odom_sub. eexists _, _. split; [reflexivity|]. cbn [cd_upd cd_topic].
        split; [split; [congruence|intros k; rewrite N1, Hv; reflexivity]|].
        split; [split; [congruence|intros k; rewrite N2, Hv; reflexivity]|].
        unfold modes, summed. cbn. rewrite use_relative_spec. repeat split; apply accumulate_count.
      * destruct (Z.eq_dec (accumulate pv) 0) as [Hz|Hz].
        { rewrite Hz in G. destruct (accumulate_ex tv) as (j & Hj); [intros H0; rewrite H0 in G; discriminate|].
          exists j. split; [reflexivity|]. rewrite N2, Hv in Hj. apply andb_true_iff in Hj. tauto. }
        { destruct (accumulate_ex pv Hz) as (j & Hj).
          exists j. split; [reflexivity|]. rewrite N1, Hv in Hj. apply andb_true_iff in Hj. tauto. }
    + left. split; [reflexivity|]. intros (j & _ & Hj). pose proof (accumulate_nonneg pv). pose proof (accumulate_nonneg tv).
      rewrite Z.gtb_ltb, Z.ltb_ge in G.
      assert (P0 : accumulate pv = 0%Z) by lia. assert (T0 : accumulate tv = 0%Z) by lia.
      apply (proj1 (accumulate_zero _)) with (i := j) in P0. apply (proj1 (accumulate_zero _)) with (i := j) in T0.
      rewrite N1, Hv, Hj, andb_true_r in P0. rewrite N2, Hv, Hj, andb_true_r in T0.
      apply negb_false_iff, within_spec in P0. apply negb_false_iff, within_spec in T0. lia.
  - split; intros k; [rewrite Ca, Ha1|rewrite Ct, Ht1]; f_equal.
    + unfold odom_abs. destruct (op_differential p); [lia|]. rewrite contrib_pose, N1, Hv, Z.add_0_r.
      destruct (Nat.ltb_spec k 6); [|reflexivity]. destruct (within 6 12 k) eqn:W; [apply within_spec in W; lia|reflexivity].
    + unfold odom_tw. rewrite contrib_shift, contrib_odom, N1, N2, !Hv.
      destruct (within 6 12 k) eqn:W; [|destruct (op_differential p); reflexivity]. apply within_spec in W.
      replace (within 6 12 (k - 6)) with false by (symmetry; apply within_false; lia).
      replace (within 0 6 (if Nat.eqb k 7 then 6 else k)%nat) with false; [reflexivity|].
      symmetry. apply within_false. destruct (Nat.eqb k 7); lia.
  - congruence.
  - intros Hd. rewrite Sd. unfold l1. destruct (Z.gtb _ 0); [exact Hd|]. cbn. apply only_listed_add, Hd.
Qed.

Definition pose_abs (p : pose_par K) (k : nat) : Z :=
  if pp_differential p then 0%Z else if Nat.ltb k 6 then Z.b2z (configured (pp_config p) k) else 0%Z.
Definition pose_tw (p : pose_par K) (k : nat) : Z :=
  if pp_differential p then if within 6 12 k then Z.b2z (configured (pp_config p) (k - 6)) else 0%Z else 0%Z.

(** Two or more fills in a row. *)
Lemma masked_ext o keep keep' v : (forall i, keep i = keep' i) -> masked o keep v -> masked o keep' v.
Proof. intros H (L & N). split; [exact L|]. intros i. rewrite N, H. reflexivity. Qed.
Lemma cfg_masked o : masked o (fun _ => true) (loadUpdateConfig o).
Proof. split; [apply cfg_len|]. intros i. rewrite cfg_nth. reflexivity. Qed.
Lemma fill_masked o keep v a n :
  masked o keep v ->
  match fill_false v a n with
  | Ok w => (a + n <= config_size o)%nat /\ masked o (fun i => negb (within a (a + n) i) && keep i)%bool w
  | Undefined => (config_size o < a + n)%nat
  end.
Proof.
  intros (L & N). pose proof (fill_spec v a n) as F. destruct (fill_false v a n) as [w|]; [|lia].
  destruct F as (F1 & F2 & F3). split; [lia|]. split; [congruence|].
  intros i. rewrite F3, N, andb_assoc. reflexivity.
Qed.
Lemma masked_useful o keep v : masked o keep v -> Z.gtb (accumulate v) 0 = true -> useful o keep.
Proof.
  intros (L & N) G. destruct (accumulate_ex v) as (i & Hi); [intros H0; rewrite H0 in G; discriminate|].
  exists i. rewrite N in Hi. apply andb_true_iff in Hi. tauto.
Qed.
Lemma masked_useless o keep v : masked o keep v -> Z.gtb (accumulate v) 0 = false -> ~ useful o keep.
Proof.
  intros (L & N) G (i & H1 & H2). pose proof (accumulate_pos _ G i) as H0. rewrite N, H1, H2 in H0. discriminate.
Qed.

Ltac bool_within :=
  repeat match goal with
  | |- context [within ?a ?b ?i] =>
      let H := fresh "W" in destruct (within a b i) eqn:H; [apply within_spec in H|apply within_false in H]
  | |- context [Nat.leb ?a ?i] => destruct (Nat.leb_spec a i)
  | |- context [Nat.ltb ?a ?i] => destruct (Nat.ltb_spec a i)
  end; cbn; try solve [intros; first [reflexivity | discriminate | lia]].

Lemma load_pose_spec i p l :
  match load_pose i p l with
  | Ok l' => (15 <= config_size (pp_config p))%nat /\
      effect l l' (pose_sub i p) (useful (pp_config p) (fun k => negb (within 6 15 k))) (pose_abs p) (pose_tw p) (l_control l)
  | Undefined => (config_size (pp_config p) < 15)%nat
  end.
Proof.
  unfold load_pose. pose proof (fill_masked _ _ _ 6 6 (cfg_masked (pp_config p))) as F1.
  destruct (fill_false _ 6 6) as [v1|]; cbn [obind]; [|lia]. destruct F1 as (L1 & M1).
  pose proof (fill_masked _ _ _ 12 3 M1) as F2.
  destruct (fill_false v1 12 3) as [v|]; cbn [obind]; [|lia]. destruct F2 as (L2 & M2). cbn [Nat.add] in *.
  apply (masked_ext _ _ (fun k => negb (within 6 15 k))) in M2; [|intros k; bool_within].
  pose proof M2 as (L & N).
  destruct (Z.gtb (accumulate v) 0) eqn:G.
  - destruct (count_pose_spec (pp_differential p) pose_to_twist pose_to_pose v
      (with_sub l (SubPose (mkCb (numbered "pose" i) v (accumulate v) (pp_differential p)
         (use_relative (pp_differential p) (pp_relative p)) false (pp_thresh p)))) 6 eq_refl eq_refl ltac:(lia)) as (l2 & H2 & S2 & C2).
    rewrite H2. destruct S2 as (Ss & Sc & Sd & _). destruct C2 as (Ca & Ct). cbn [with_sub l_subs l_control l_diag l_abs l_twist] in Ss, Sc, Sd, Ca, Ct. split; [lia|]. constructor.
    + right. eexists. split; [exact Ss|]. split; [|apply (masked_useful _ _ _ M2 G)].
      eexists. split; [reflexivity|]. unfold modes, summed. cbn. rewrite use_relative_spec. repeat split; assumption || apply accumulate_count.
    + split; intros k; [rewrite Ca|rewrite Ct]; f_equal; unfold pose_abs, pose_tw;
        destruct (pp_differential p); try reflexivity; rewrite ?contrib_pose, ?contrib_shift, N.
      * bool_within.
      * bool_within.
    + exact Sc.
    + rewrite Sd. auto.
  - split; [lia|]. constructor.
    + left. split; [reflexivity|]. apply (masked_useless _ _ _ M2 G).
    + pose proof (accumulate_pos _ G) as Z0.
      split; intros k; unfold pose_abs, pose_tw; destruct (pp_differential p); try lia.
      * pose proof (Z0 k) as Zk. rewrite N in Zk. revert Zk. bool_within. intros ->. cbn. lia.
      * pose proof (Z0 (k - 6)%nat) as Zk. rewrite N in Zk. revert Zk. bool_within. intros ->. cbn. lia.
    + reflexivity.
    + auto.
Qed.

Definition twist_tw (p : twist_par K) (k : nat) : Z :=
  if within 6 12 k then Z.b2z (configured (tp_config p) k) else 0%Z.

Lemma load_twist_spec i p l :
  match load_twist i p l with
  | Ok l' => twist_size_ok (tp_config p) /\
      effect l l' (twist_sub i p) (useful (tp_config p) (fun k => negb (within 0 6 k))) (fun _ => 0%Z) (twist_tw p) (l_control l)
  | Undefined => ~ twist_size_ok (tp_config p)
  end.
Proof.
  unfold load_twist. pose proof (fill_masked _ _ _ 0 6 (cfg_masked (tp_config p))) as F1.
  destruct (fill_false _ 0 6) as [v|]; cbn [obind]; [|intros (H & _); lia]. destruct F1 as (L1 & M1). cbn [Nat.add] in *.
  apply (masked_ext _ _ (fun k => negb (within 0 6 k))) in M1; [|intros k; bool_within].
  pose proof M1 as (L & N).
  destruct (Z.gtb (accumulate v) 0) eqn:G.
  - destruct (Nat.le_gt_cases 12 (config_size (tp_config p))) as [H12|H12].
    + destruct (count_twist_spec twist_twist v
        (with_sub l (SubTwist (mkCb (numbered "twist" i) v (accumulate v) false false false (tp_thresh p)))) 12 eq_refl ltac:(lia))
        as (l2 & H2 & S2 & C2).
      rewrite H2. destruct S2 as (Ss & Sc & Sd & _). destruct C2 as (Ca & Ct). cbn [with_sub l_subs l_control l_diag l_abs l_twist] in Ss, Sc, Sd, Ca, Ct.
      split; [split; [lia|left; exact H12]|]. constructor.
      * right. eexists. split; [exact Ss|]. split; [|apply (masked_useful _ _ _ M1 G)].
        eexists. split; [reflexivity|]. unfold modes, summed. cbn. repeat split; assumption || apply accumulate_count.
      * split; intros k; [rewrite Ca; lia|rewrite Ct]. f_equal. unfold twist_tw. rewrite contrib_twist, N. bool_within.
      * exact Sc.
      * rewrite Sd. auto.
    + assert (Hu : ~ twist_size_ok (tp_config p)).
      { intros (_ & [H|H]); [lia|]. destruct (masked_useful _ _ _ M1 G) as (j & Hj & Hc).
        apply negb_true_iff, within_false in Hj. rewrite H in Hc; [discriminate|lia]. }
      unfold count_twist, obind. pose proof (add_counts_spec (l_twist (with_sub l (SubTwist (mkCb (numbered "twist" i) v
        (accumulate v) false false false (tp_thresh p))))) v twist_twist) as H.
      destruct (add_counts _ v twist_twist); [|exact Hu].
      exfalso. destruct H as (H & _). rewrite Forall_forall in H.
      specialize (H (11, 11)%nat). cbn [snd] in H. rewrite L in H.
      assert (11 < config_size (tp_config p))%nat; [apply H; cbn; tauto|lia].
  - assert (H0 : forall j, (6 <= j)%nat -> configured (tp_config p) j = false).
    { intros j Hj. pose proof (accumulate_pos _ G j) as Zj. rewrite N in Zj. revert Zj. bool_within. auto. }
    split; [split; [lia|right; exact H0]|]. constructor.
    + left. split; [reflexivity|]. apply (masked_useless _ _ _ M1 G).
    + split; intros k; [lia|]. unfold twist_tw. bool_within. rewrite H0 by lia. cbn. lia.
    + reflexivity.
    + auto.
Qed.

(** ** IMU *)
Definition imu_abs (p : imu_par K) (k : nat) : Z :=
  if ip_differential p then 0%Z else if within 3 6 k then Z.b2z (configured (ip_config p) k) else 0%Z.
Definition imu_tw (p : imu_par K) (k : nat) : Z :=
  ((if ip_differential p then if within 9 12 k then Z.b2z (configured (ip_config p) (k - 6)) else 0 else 0) +
   (if within 9 12 k then Z.b2z (configured (ip_config p) k) else 0))%Z.
(** Control flags that stay. *)
Definition keep_control (p : imu_par K) (v : list bool) : list bool :=
  map (fun q => (snd q && negb (Nat.ltb (fst q) 3 && configured (ip_config p) (fst q + 12)))%bool)
    (combine (seq 0 (List.length v)) v).

Lemma set_at_length v i b : List.length (set_at v i b) = List.length v.
Proof. revert i. induction v as [|x v IH]; intros [|i]; cbn; auto. Qed.
Lemma set_at_nth v i b j d : nth j (set_at v i b) d = if (Nat.eqb i j && Nat.ltb j (List.length v))%bool then b else nth j v d.
Proof.
  revert i j. induction v as [|x v IH]; intros i j; cbn [set_at].
  - rewrite andb_comm. reflexivity.
  - destruct i, j; cbn; try reflexivity. rewrite IH. reflexivity.
Qed.
Lemma drop_control_spec axis member av v : (member < List.length av)%nat ->
  match drop_control axis member av v with
  | Ok w => (axis < List.length v)%nat /\ List.length w = List.length v /\
      forall j, nth j w false = (nth j v false && negb (Nat.eqb j axis && nth member av false))%bool
  | Undefined => (List.length v <= axis)%nat
  end.
Proof.
  intros Hm. unfold drop_control, obind. pose proof (at_flag_spec v axis) as H. destruct (at_flag v axis) as [c|]; [|exact H].
  destruct H as (Hl & ->). pose proof (at_flag_spec av member) as H2. destruct (nth axis v false) eqn:Hc.
  - destruct (at_flag av member) as [a|]; [|lia]. destruct H2 as (_ & ->). split; [exact Hl|].
    destruct (nth member av false).
    + split; [apply set_at_length|]. intros j. rewrite set_at_nth, andb_true_r, (Nat.eqb_sym j axis).
      destruct (Nat.eqb_spec axis j) as [<-|Hj]; cbn [andb negb]; [|rewrite andb_true_r; reflexivity].
      destruct (Nat.ltb_spec axis (List.length v)); [|lia]. rewrite andb_false_r. reflexivity.
    + split; [reflexivity|]. intros j. rewrite andb_false_r, andb_true_r. reflexivity.
  - split; [exact Hl|]. split; [reflexivity|]. intros j. destruct (Nat.eqb_spec j axis) as [->|Hj]; cbn [andb negb].
    + rewrite Hc. reflexivity.
    + rewrite andb_true_r. reflexivity.
Qed.
Lemma nth_combine_seq (v : list bool) a j : (j < List.length v)%nat ->
  nth j (combine (seq a (List.length v)) v) (0%nat, false) = ((a + j)%nat, nth j v false).
Proof.
  revert a j. induction v as [|x v IH]; intros a j Hj; cbn in *; [lia|]. destruct j.
  - f_equal. lia.
  - rewrite IH by lia. f_equal. lia.
Qed.
Lemma keep_control_spec p v w : List.length w = List.length v ->
  (forall j, (j < List.length v)%nat -> nth j w false = (nth j v false && negb (Nat.ltb j 3 && configured (ip_config p) (j + 12)))%bool) ->
  w = keep_control p v.
Proof.
  intros Hl Hn. unfold keep_control. apply (nth_ext _ _ false false).
  - rewrite map_length, combine_length, seq_length. lia.
  - intros j Hj. rewrite Hn by lia.
    set (g := fun q : nat * bool => (snd q && negb (Nat.ltb (fst q) 3 && configured (ip_config p) (fst q + 12)))%bool).
    transitivity (g (nth j (combine (seq 0 (List.length v)) v) (0%nat, false))).
    + rewrite nth_combine_seq by lia. reflexivity.
    + symmetry. exact (map_nth g _ (0%nat, false) j).
Qed.

Lemma load_imu_spec i p l :
  match load_imu i p l with
  | Ok l' => (15 <= config_size (ip_config p))%nat /\ (3 <= List.length (l_control l))%nat /\
      effect l l' (imu_sub i p) (useful (ip_config p) (fun k => within 3 6 k || Nat.leb 9 k)%bool) (imu_abs p) (imu_tw p)
        (keep_control p (l_control l))
  | Undefined => (config_size (ip_config p) < 15)%nat \/ (List.length (l_control l) < 3)%nat
  end.
Proof.
  unfold load_imu. cbv zeta. set (l0 := with_gravity l _ _).
  assert (H0 : l_abs l0 = l_abs l /\ l_twist l0 = l_twist l /\ l_control l0 = l_control l /\ l_diag l0 = l_diag l /\ l_subs l0 = l_subs l)
    by (repeat split). clearbody l0. destruct H0 as (HA & HT & HC & HD & HS).
  pose proof (fill_masked _ _ _ 0 3 (cfg_masked (ip_config p))) as F1.
  destruct (fill_false _ 0 3) as [a1|]; cbn [obind]; [|lia]. destruct F1 as (L1 & M1).
  pose proof (fill_masked _ _ _ 6 6 M1) as F2.
  destruct (fill_false _ 6 6) as [a2|]; cbn [obind]; [|lia]. destruct F2 as (L2 & M2).
  pose proof (fill_masked _ _ _ 12 3 M2) as F3.
  destruct (fill_false _ 12 3) as [pv|]; cbn [obind]; [|lia]. destruct F3 as (L3 & Mp).
  pose proof (fill_masked _ _ _ 0 6 (cfg_masked (ip_config p))) as F4.
  destruct (fill_false _ 0 6) as [b1|]; cbn [obind]; [|lia]. destruct F4 as (L4 & M4).
  pose proof (fill_masked _ _ _ 6 3 M4) as F5.
  destruct (fill_false _ 6 3) as [b2|]; cbn [obind]; [|lia]. destruct F5 as (L5 & M5).
  pose proof (fill_masked _ _ _ 12 3 M5) as F6.
  destruct (fill_false _ 12 3) as [tv|]; cbn [obind]; [|lia]. destruct F6 as (L6 & Mt).
  pose proof (fill_masked _ _ _ 6 6 M4) as F8.
  destruct (fill_false _ 6 6) as [av|]; cbn [obind]; [|lia]. destruct F8 as (L8 & Ma).
  clear M1 M2 M4 M5. cbn [Nat.add] in *.
  apply (masked_ext _ _ (fun k => within 3 6 k || Nat.leb 15 k)%bool) in Mp; [|intros k; bool_within].
  apply (masked_ext _ _ (fun k => within 9 12 k || Nat.leb 15 k)%bool) in Mt; [|intros k; bool_within].
  apply (masked_ext _ _ (fun k => Nat.leb 12 k)) in Ma; [|intros k; bool_within].
  pose proof Mp as (Lp & Np). pose proof Mt as (Lt & Nt). pose proof Ma as (La & Na).
  rewrite HC.
  pose proof (drop_control_spec 0 12 av (l_control l) ltac:(lia)) as D1.
  destruct (drop_control 0 12 av (l_control l)) as [d1|]; cbn [obind]; [|lia]. destruct D1 as (_ & K1 & D1).
  pose proof (drop_control_spec 1 13 av d1 ltac:(lia)) as D2.
  destruct (drop_control 1 13 av d1) as [d2|]; cbn [obind]; [|lia]. destruct D2 as (_ & K2 & D2).
  pose proof (drop_control_spec 2 14 av d2 ltac:(lia)) as D3.
  destruct (drop_control 2 14 av d2) as [d3|]; cbn [obind]; [|lia]. destruct D3 as (K3' & K3 & D3).
  match goal with |- context [if Z.gtb (accumulate pv) 0 then _ else Ok ?x] => set (l1 := x) end.
  destruct (guarded_pose (ip_differential p) imu_pose_twist imu_pose_pose pv l1 6 eq_refl eq_refl ltac:(lia)) as (l2 & -> & S2 & C2).
  cbn [obind].
  destruct (guarded_twist imu_twist tv l2 12 eq_refl ltac:(lia)) as (l3 & -> & S3 & C3).
  pose proof (same_rest_trans _ _ _ S2 S3) as (Ss & Sc & Sd & _).
  pose proof (counted_trans _ _ _ _ _ _ _ C2 C3) as (Ca & Ct).
  assert (Hl1 : l_abs l1 = l_abs l /\ l_twist l1 = l_twist l /\ l_control l1 = d3 /\ l_diag l1 = l_diag l).
  { unfold l1. destruct (Z.gtb _ 0); cbn; repeat split; assumption. }
  destruct Hl1 as (Ha1 & Ht1 & Hc1 & Hd1).
  split; [lia|]. split; [lia|]. constructor.
  - rewrite Ss. unfold l1. pose proof (accumulate_nonneg pv). pose proof (accumulate_nonneg tv). pose proof (accumulate_nonneg av).
    destruct (Z.gtb_spec (accumulate pv + accumulate tv + accumulate av) 0) as [G|G]; cbn [l_subs with_sub with_control].
    + right. eexists. rewrite HS. split; [reflexivity|]. split.
      * unfold imu_sub. eexists _, _, _. split; [reflexivity|]. unfold modes, summed. cbn. rewrite use_relative_spec.
        repeat split; assumption || apply accumulate_count.
      * destruct (Z.eq_dec (accumulate pv) 0) as [Hp|Hp].
        { destruct (Z.eq_dec (accumulate tv) 0) as [Ht|Ht].
          - destruct (accumulate_ex av ltac:(lia)) as (j & Hj). exists j. rewrite Na in Hj.
            apply andb_true_iff in Hj. destruct Hj as (Hj & Hc). split; [|exact Hc]. cbv beta. revert Hj. bool_within.
          - destruct (accumulate_ex tv Ht) as (j & Hj). exists j. rewrite Nt in Hj.
            apply andb_true_iff in Hj. destruct Hj as (Hj & Hc). split; [|exact Hc]. cbv beta. revert Hj. bool_within. }
        { destruct (accumulate_ex pv Hp) as (j & Hj). exists j. rewrite Np in Hj.
          apply andb_true_iff in Hj. destruct Hj as (Hj & Hc). split; [|exact Hc]. cbv beta. revert Hj. bool_within. }
    + left. rewrite HS. split; [reflexivity|]. intros (j & Hj & Hc).
      assert (P0 : accumulate pv = 0%Z) by lia. assert (T0 : accumulate tv = 0%Z) by lia. assert (A0 : accumulate av = 0%Z) by lia.
      apply (proj1 (accumulate_zero _)) with (i := j) in P0. apply (proj1 (accumulate_zero _)) with (i := j) in T0.
      apply (proj1 (accumulate_zero _)) with (i := j) in A0.
      rewrite Np, Hc, andb_true_r in P0. rewrite Nt, Hc, andb_true_r in T0. rewrite Na, Hc, andb_true_r in A0.
      revert P0 T0 A0 Hj. bool_within; discriminate.
  - split; intros k; [rewrite Ca, Ha1|rewrite Ct, Ht1]; f_equal.
    + unfold imu_abs. destruct (ip_differential p); [lia|]. rewrite contrib_imu_pose, Np, Z.add_0_r. bool_within.
    + unfold imu_tw. rewrite contrib_imu_shift, contrib_imu_twist, Np, Nt.
      destruct (ip_differential p); bool_within.
  - rewrite Sc, Hc1. apply keep_control_spec; [lia|]. intros j Hj. rewrite D3, D2, D1, !Na. cbn [Nat.leb andb].
    destruct j as [|[|[|j]]]; cbn -[configured nth]; rewrite ?andb_true_r, ?andb_false_r; cbn; rewrite ?andb_true_r; reflexivity.
  - rewrite Sd, Hd1. auto.
Qed.
End Loading.
