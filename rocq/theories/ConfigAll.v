(** * loadParams as a whole *)

From Coq Require Import ZArith List Bool String Ascii Arith Lia Decimal DecimalString DecimalNat.
From Verif Require Import Scalar Mat FilterBase StrMap Diagnostics RosFilter RosConfig SpecConfig NodeScenario ConfigProofs.
Import ListNotations.

Section All.
Context {K : Scalar} {E : Type}.

Fixpoint indexed {P : Type} (i : nat) (ps : list P) : list (nat * P) :=
  match ps with [] => [] | p :: r => (i, p) :: indexed (S i) r end.
Lemma indexed_In {P : Type} i (ps : list P) j p : In (j, p) (indexed i ps) <-> (i <= j)%nat /\ nth_error ps (j - i) = Some p.
Proof.
  revert i. induction ps as [|q ps IH]; intros i; cbn [indexed In].
  - split; [tauto|]. intros (_ & H). destruct (j - i)%nat; discriminate.
  - rewrite IH. split.
    + intros [[= -> ->]|(Hl & H)]; [split; [lia|rewrite Nat.sub_diag; reflexivity]|].
      split; [lia|]. replace (j - i)%nat with (S (j - S i)) by lia. exact H.
    + intros (Hl & H). destruct (Nat.eq_dec i j) as [->|Hne].
      * rewrite Nat.sub_diag in H. injection H as ->. left. reflexivity.
      * right. split; [lia|]. replace (j - i)%nat with (S (j - S i)) in H by lia. exact H.
Qed.

Definition zsum {P : Type} (f : P -> nat -> Z) (ps : list P) (k : nat) : Z :=
  fold_right (fun p s => (f p k + s)%Z) 0%Z ps.

(** Loading all inputs of one kind.  [need c] is what the input needs of the
    control vector, [ctl] what it does to it. *)
Lemma load_all_spec {P : Type} (load : nat -> P -> loading K -> outcome (loading K)) (ok : P -> Prop)
    (cok : nat -> Prop) (sub : nat -> P -> subscription K -> Prop) (use : P -> Prop) (a t : P -> nat -> Z)
    (ctl : P -> list bool -> list bool) :
  (forall p v, List.length (ctl p v) = List.length v) ->
  (forall i p l, match load i p l with
    | Ok l' => ok p /\ cok (List.length (l_control l)) /\ effect l l' (sub i p) (use p) (a p) (t p) (ctl p (l_control l))
    | Undefined => ~ (ok p /\ cok (List.length (l_control l)))
    end) ->
  forall ps i l,
  match load_all load i ps l with
  | Ok l' => Forall ok ps /\ (ps <> [] -> cok (List.length (l_control l))) /\
      (exists ss, l_subs l' = l_subs l ++ ss /\
         (forall s, In s ss -> exists j p, In (j, p) (indexed i ps) /\ sub j p s) /\
         (forall j p, In (j, p) (indexed i ps) -> use p -> exists s, In s ss /\ sub j p s) /\
         (forall (names : nat -> list string), (forall j p s, sub j p s -> stream_names s = names j) ->
            (forall j, NoDup (names j)) -> (forall j j' x, In x (names j) -> In x (names j') -> j = j') ->
            NoDup (List.concat (map stream_names ss)) /\
            forall x, In x (List.concat (map stream_names ss)) -> exists j, (i <= j)%nat /\ In x (names j))) /\
      counted l l' (zsum a ps) (zsum t ps) /\
      l_control l' = fold_left (fun v p => ctl p v) ps (l_control l) /\
      (only_listed (l_diag l) -> only_listed (l_diag l'))
  | Undefined => ~ (Forall ok ps /\ (ps <> [] -> cok (List.length (l_control l))))
  end.
Proof.
  intros Hlen Hstep ps. induction ps as [|p ps IH]; intros i l; cbn [load_all].
  - split; [constructor|]. split; [intros H; elim H; reflexivity|]. split.
    { exists []. rewrite app_nil_r. split; [reflexivity|]. split; [intros s []|]. split; [intros j p []|].
      intros names _ _ _. split; [constructor|]. intros x []. }
    split; [split; intros k; cbn; lia|]. split; [reflexivity|auto].
  - specialize (Hstep i p l). destruct (load i p l) as [l1|] eqn:H1; cbn [obind].
    + destruct Hstep as (Hok & Hc & He). specialize (IH (S i) l1).
      pose proof (ef_control _ _ _ _ _ _ _ He) as Hctl. pose proof (ef_counts _ _ _ _ _ _ _ He) as Hcnt.
      assert (Hl1 : List.length (l_control l1) = List.length (l_control l)) by (rewrite Hctl; apply Hlen).
      destruct (load_all load (S i) ps l1) as [l2|].
      * destruct IH as (IHok & IHc & (ss & Hs & Hfrom & Hto & Hnames) & Hcnt2 & Hctl2 & Hd).
        split; [constructor; assumption|]. split; [auto|]. split.
        { assert (Hfrom' : forall s, In s ss -> exists j q, In (j, q) (indexed i (p :: ps)) /\ sub j q s).
          { intros s Hin. destruct (Hfrom s Hin) as (j & q & Hj & Hq). exists j, q. split; [right; exact Hj|exact Hq]. }
          destruct (ef_subs _ _ _ _ _ _ _ He) as [(Hs1 & Hu)|(s & Hs1 & Hsub & Hu)].
          - exists ss. split; [rewrite Hs, Hs1; reflexivity|]. split; [exact Hfrom'|]. split.
            + intros j q [[= <- <-]|Hin] Huse; [elim Hu; exact Huse|]. apply Hto; assumption.
            + intros names Hn1 Hn2 Hn3. destruct (Hnames names Hn1 Hn2 Hn3) as (N1 & N2). split; [exact N1|].
              intros x Hx. destruct (N2 x Hx) as (j & Hj & Hin). exists j. split; [lia|exact Hin].
          - exists (s :: ss). split; [rewrite Hs, Hs1, <- app_assoc; reflexivity|]. split.
            + intros s' [<-|Hin]; [exists i, p; split; [left; reflexivity|exact Hsub]|apply Hfrom'; exact Hin].
            + split.
              * intros j q [[= <- <-]|Hin] Huse; [exists s; split; [left; reflexivity|exact Hsub]|].
                destruct (Hto j q Hin Huse) as (s' & Hs' & Hq). exists s'. split; [right; exact Hs'|exact Hq].
              * intros names Hn1 Hn2 Hn3. destruct (Hnames names Hn1 Hn2 Hn3) as (N1 & N2).
                cbn [map List.concat]. rewrite (Hn1 i p s Hsub). split.
                -- clear - N1 N2 Hn2 Hn3. specialize (Hn2 i). revert Hn2 N2.
                   assert (forall l, incl l (names i) -> NoDup l ->
                     (forall x, In x (List.concat (map stream_names ss)) -> exists j, (S i <= j)%nat /\ In x (names j)) ->
                     NoDup (l ++ List.concat (map stream_names ss))) as Hgen.
                   { induction l as [|x l IHl]; intros Hi Hnd N2; [exact N1|]. apply NoDup_cons_iff in Hnd.
                     cbn [app]. constructor.
                     - rewrite in_app_iff. intros [Hx|Hx]; [tauto|]. destruct (N2 x Hx) as (j & Hj & Hin).
                       assert (i = j) by (apply (Hn3 i j x); [apply Hi; left; reflexivity|exact Hin]). lia.
                     - apply IHl; [intros y Hy; apply Hi; right; exact Hy|tauto|exact N2]. }
                   intros Hnd N2. apply Hgen; [apply incl_refl|exact Hnd|exact N2].
                -- intros x Hx. apply in_app_iff in Hx. destruct Hx as [Hx|Hx]; [exists i; split; [lia|exact Hx]|].
                   destruct (N2 x Hx) as (j & Hj & Hin). exists j. split; [lia|exact Hin]. }
        split.
        { pose proof (counted_trans _ _ _ _ _ _ _ Hcnt Hcnt2) as (A & T). split; intros k; [apply A|apply T]. }
        split; [rewrite Hctl2, Hctl; reflexivity|].
        intros Hl. apply Hd, (ef_diag _ _ _ _ _ _ _ He), Hl.
      * intros (Hf & Hcc). apply IH. inversion Hf; subst. split; [assumption|]. intros _. rewrite Hl1.
        apply Hcc. discriminate.
    + intros (Hf & Hcc). apply Hstep. inversion Hf; subst. split; [assumption|]. apply Hcc. discriminate.
Qed.
End All.

(** ** Stream names *)
Fixpoint upto (s : string) : string :=
  match s with
  | EmptyString => EmptyString
  | String c r => if Ascii.eqb c "_"%char then EmptyString else String c (upto r)
  end.
Lemma upto_digits u s : upto (NilEmpty.string_of_uint u ++ String "_"%char s) = NilEmpty.string_of_uint u.
Proof. induction u; cbn; try (rewrite IHu); reflexivity. Qed.
Lemma upto_digits_only u : upto (NilEmpty.string_of_uint u) = NilEmpty.string_of_uint u.
Proof. induction u; cbn; try (rewrite IHu); reflexivity. Qed.
Lemma digits_inj i j : NilEmpty.string_of_uint (Nat.to_uint i) = NilEmpty.string_of_uint (Nat.to_uint j) -> i = j.
Proof.
  intros H. apply (f_equal NilEmpty.uint_of_string) in H. rewrite !NilEmpty.usu in H. injection H as H.
  apply (f_equal Nat.of_uint) in H. rewrite !DecimalNat.Unsigned.of_to in H. exact H.
Qed.
Lemma app_assoc_s (a b c : string) : ((a ++ b) ++ c = a ++ (b ++ c))%string.
Proof. induction a; cbn; congruence. Qed.
Lemma app_nil_s (a : string) : (a ++ "" = a)%string.
Proof. induction a; cbn; congruence. Qed.
Lemma app_inj_s (a b c : string) : (a ++ b = a ++ c)%string -> b = c.
Proof. induction a; cbn; intros H; [exact H|]. injection H as H. auto. Qed.

Definition tails (suf : list string) : Prop := forall s, In s suf -> s = ""%string \/ exists r, s = String "_"%char r.
Definition family (pre : string) (suf : list string) (i : nat) : list string :=
  map (fun s => numbered pre i ++ s)%string suf.
Lemma upto_family i s : s = ""%string \/ (exists r, s = String "_"%char r) ->
  upto (NilEmpty.string_of_uint (Nat.to_uint i) ++ s) = NilEmpty.string_of_uint (Nat.to_uint i).
Proof. intros [->|(r & ->)]; [rewrite app_nil_s; apply upto_digits_only|apply upto_digits]. Qed.
Lemma family_inj pre suf i j x : tails suf -> In x (family pre suf i) -> In x (family pre suf j) -> i = j.
Proof.
  intros Ht Hi Hj. unfold family in *. apply in_map_iff in Hi. apply in_map_iff in Hj.
  destruct Hi as (s & <- & Hs), Hj as (s' & He & Hs'). unfold numbered in He. rewrite !app_assoc_s in He.
  apply app_inj_s in He. apply (f_equal upto) in He. rewrite !upto_family in He by (apply Ht; assumption).
  symmetry. apply digits_inj, He.
Qed.
Lemma family_nodup pre suf i : NoDup suf -> NoDup (family pre suf i).
Proof.
  intros H. unfold family. induction H as [|s suf Hn H IH]; cbn [map]; constructor; [|exact IH].
  rewrite in_map_iff. intros (s' & He & Hs). apply app_inj_s in He. subst. auto.
Qed.
Lemma family_head pre suf i x c r : pre = String c r -> In x (family pre suf i) -> exists r', x = String c r'.
Proof.
  intros -> Hx. apply in_map_iff in Hx. destruct Hx as (s & <- & _). unfold numbered. cbn [append]. eexists. reflexivity.
Qed.

(** ** The four kinds in sequence *)
Section Whole.
Context {K : Scalar} {E : Type}.

Definition abs_total (p : params K) (k : nat) : Z :=
  (zsum odom_abs (p_odoms p) k + zsum pose_abs (p_poses p) k + zsum imu_abs (p_imus p) k)%Z.
Definition tw_total (p : params K) (k : nat) : Z :=
  (zsum odom_tw (p_odoms p) k + zsum pose_tw (p_poses p) k + zsum twist_tw (p_twists p) k + zsum imu_tw (p_imus p) k)%Z.

Definition odom_streams := family "odom" ["_pose"; "_twist"]%string.
Definition pose_streams := family "pose" [""]%string.
Definition twist_streams := family "twist" [""]%string.
Definition imu_streams := family "imu" ["_pose"; "_twist"; "_acceleration"]%string.

Record inputs_loaded (p : params K) (ctl : list bool) (l : loading K) : Prop := mkInputsLoaded {
  il_from : forall s, In s (l_subs l) ->
    (exists i o, nth_error (p_odoms p) i = Some o /\ odom_sub i o s) \/
    (exists i o, nth_error (p_poses p) i = Some o /\ pose_sub i o s) \/
    (exists i o, nth_error (p_twists p) i = Some o /\ twist_sub i o s) \/
    (exists i o, nth_error (p_imus p) i = Some o /\ imu_sub i o s);
  il_odom : forall i o, nth_error (p_odoms p) i = Some o -> useful (op_config o) (fun _ => true) ->
    exists s, In s (l_subs l) /\ odom_sub i o s;
  il_pose : forall i o, nth_error (p_poses p) i = Some o -> useful (pp_config o) (fun k => negb (within 6 15 k)) ->
    exists s, In s (l_subs l) /\ pose_sub i o s;
  il_twist : forall i o, nth_error (p_twists p) i = Some o -> useful (tp_config o) (fun k => negb (within 0 6 k)) ->
    exists s, In s (l_subs l) /\ twist_sub i o s;
  il_imu : forall i o, nth_error (p_imus p) i = Some o -> useful (ip_config o) (fun k => within 3 6 k || Nat.leb 9 k)%bool ->
    exists s, In s (l_subs l) /\ imu_sub i o s;
  il_names : NoDup (List.concat (map stream_names (l_subs l)));
  il_abs : forall k, l_abs l k = abs_total p k;
  il_tw : forall k, l_twist l k = tw_total p k;
  il_control : l_control l = fold_left (fun v o => keep_control o v) (p_imus p) ctl;
  il_diag : only_listed (l_diag l)
}.

Definition inputs_ok (p : params K) (n : nat) : Prop :=
  Forall (fun o => 12 <= config_size (op_config o))%nat (p_odoms p) /\
  Forall (fun o => 15 <= config_size (pp_config o))%nat (p_poses p) /\
  Forall (fun o => twist_size_ok (tp_config o)) (p_twists p) /\
  Forall (fun o => 15 <= config_size (ip_config o))%nat (p_imus p) /\ (p_imus p <> [] -> (3 <= n)%nat).

Definition load_inputs (p : params K) (ctl : list bool) : outcome (loading K) :=
  l1 <- load_all load_odom 0 (p_odoms p) (mkLoading [] (fun _ => 0%Z) (fun _ => 0%Z) ctl diag_init []);;
  l2 <- load_all load_pose 0 (p_poses p) l1;;
  l3 <- load_all load_twist 0 (p_twists p) l2;;
  load_all load_imu 0 (p_imus p) l3.

Lemma fold_same {A B : Type} (l : list B) (v : A) : fold_left (fun v (_ : B) => v) l v = v.
Proof. induction l; cbn; auto. Qed.
Lemma keep_control_length (p : imu_par K) v : List.length (keep_control p v) = List.length v.
Proof. unfold keep_control. rewrite map_length, combine_length, seq_length. lia. Qed.

Lemma indexed0 {P : Type} (ps : list P) j p : In (j, p) (indexed 0 ps) <-> nth_error ps j = Some p.
Proof. rewrite indexed_In, Nat.sub_0_r. split; [tauto|]. intros H. split; [lia|exact H]. Qed.

Lemma nodup_app {A : Type} (a b : list A) : NoDup a -> NoDup b -> (forall x, In x a -> ~ In x b) -> NoDup (a ++ b).
Proof.
  intros Ha Hb Hd. induction Ha as [|x a Hn Ha IH]; [exact Hb|]. cbn [app]. constructor.
  - rewrite in_app_iff. intros [H|H]; [auto|]. apply (Hd x); [left; reflexivity|exact H].
  - apply IH. intros y Hy. apply Hd. right. exact Hy.
Qed.

Lemma load_inputs_spec p ctl :
  match load_inputs p ctl with
  | Ok l => inputs_ok p (List.length ctl) /\ inputs_loaded p ctl l
  | Undefined => ~ inputs_ok p (List.length ctl)
  end.
Proof.
  unfold load_inputs. set (l0 := mkLoading [] _ _ ctl diag_init []).
  pose proof (load_all_spec load_odom (fun o : odom_par K => 12 <= config_size (op_config o))%nat (fun _ => True) odom_sub
    (fun o : odom_par K => useful (op_config o) (fun _ => true)) odom_abs odom_tw (fun (_ : odom_par K) v => v) (fun _ _ => eq_refl)) as HO.
  specialize (HO ltac:(intros i o l; pose proof (load_odom_spec i o l) as H; destruct (load_odom i o l);
    [tauto|intros (A & _); lia]) (p_odoms p) 0%nat l0).
  destruct (load_all load_odom 0 (p_odoms p) l0) as [l1|]; cbn [obind]; [|unfold inputs_ok; tauto].
  destruct HO as (Oo & _ & (so & So & Fo & To & No) & Co & Lo & Do). rewrite fold_same in Lo. cbn [l0 l_control] in Lo.
  pose proof (load_all_spec load_pose (fun o : pose_par K => 15 <= config_size (pp_config o))%nat (fun _ => True) pose_sub
    (fun o : pose_par K => useful (pp_config o) (fun k => negb (within 6 15 k))) pose_abs pose_tw (fun (_ : pose_par K) v => v) (fun _ _ => eq_refl)) as HP.
  specialize (HP ltac:(intros i o l; pose proof (load_pose_spec i o l) as H; destruct (load_pose i o l);
    [tauto|intros (A & _); lia]) (p_poses p) 0%nat l1).
  destruct (load_all load_pose 0 (p_poses p) l1) as [l2|]; cbn [obind]; [|unfold inputs_ok; tauto].
  destruct HP as (Op & _ & (sp & Sp & Fp & Tp & Np) & Cp & Lp & Dp). rewrite fold_same in Lp.
  pose proof (load_all_spec load_twist (fun o : twist_par K => twist_size_ok (tp_config o)) (fun _ => True) twist_sub
    (fun o : twist_par K => useful (tp_config o) (fun k => negb (within 0 6 k))) (fun _ _ => 0%Z) twist_tw (fun (_ : twist_par K) v => v) (fun _ _ => eq_refl)) as HT.
  specialize (HT ltac:(intros i o l; pose proof (load_twist_spec i o l) as H; destruct (load_twist i o l); tauto) (p_twists p) 0%nat l2).
  destruct (load_all load_twist 0 (p_twists p) l2) as [l3|]; cbn [obind]; [|unfold inputs_ok; tauto].
  destruct HT as (Ot & _ & (st & St & Ft & Tt & Nt) & Ct & Lt & Dt). rewrite fold_same in Lt.
  pose proof (load_all_spec load_imu (fun o : imu_par K => 15 <= config_size (ip_config o))%nat (fun n => 3 <= n)%nat imu_sub
    (fun o : imu_par K => useful (ip_config o) (fun k => within 3 6 k || Nat.leb 9 k)%bool) imu_abs imu_tw keep_control keep_control_length) as HI.
  specialize (HI ltac:(intros i o l; pose proof (load_imu_spec i o l) as H; destruct (load_imu i o l); [tauto|lia]) (p_imus p) 0%nat l3).
  assert (Hc3 : l_control l3 = ctl) by congruence. rewrite Hc3 in HI.
  destruct (load_all load_imu 0 (p_imus p) l3) as [l4|]; [|unfold inputs_ok; tauto].
  destruct HI as (Oi & Ci & (si & Si & Fi & Ti & Ni) & Cc & Li & Di).
  split; [unfold inputs_ok; tauto|].
  assert (Hs : l_subs l4 = so ++ sp ++ st ++ si) by (rewrite Si, St, Sp, So, <- !app_assoc; reflexivity).
  constructor.
  - intros s. rewrite Hs, !in_app_iff. intros [H|[H|[H|H]]].
    + left. destruct (Fo s H) as (j & q & Hj & Hq). apply indexed0 in Hj. eauto.
    + right; left. destruct (Fp s H) as (j & q & Hj & Hq). apply indexed0 in Hj. eauto.
    + right; right; left. destruct (Ft s H) as (j & q & Hj & Hq). apply indexed0 in Hj. eauto.
    + right; right; right. destruct (Fi s H) as (j & q & Hj & Hq). apply indexed0 in Hj. eauto.
  - intros i o Hi Hu. apply indexed0 in Hi. destruct (To i o Hi Hu) as (s & H & Hq). exists s. rewrite Hs, !in_app_iff. tauto.
  - intros i o Hi Hu. apply indexed0 in Hi. destruct (Tp i o Hi Hu) as (s & H & Hq). exists s. rewrite Hs, !in_app_iff. tauto.
  - intros i o Hi Hu. apply indexed0 in Hi. destruct (Tt i o Hi Hu) as (s & H & Hq). exists s. rewrite Hs, !in_app_iff. tauto.
  - intros i o Hi Hu. apply indexed0 in Hi. destruct (Ti i o Hi Hu) as (s & H & Hq). exists s. rewrite Hs, !in_app_iff. tauto.
  - destruct (No odom_streams) as (No1 & No2).
    { intros j o s (a & b & -> & _ & _ & H1 & H2 & _). cbn [stream_names]. rewrite H1, H2. reflexivity. }
    { intros j. apply family_nodup. repeat constructor; cbn; intuition discriminate. }
    { intros j j' x. apply family_inj. intros s [<-|[<-|[]]]; right; eexists; reflexivity. }
    destruct (Np pose_streams) as (Np1 & Np2).
    { intros j o s (a & -> & _ & H1 & _). cbn [stream_names]. rewrite H1. unfold pose_streams, family. cbn [map].
      rewrite app_nil_s. reflexivity. }
    { intros j. apply family_nodup. repeat constructor; cbn; intuition discriminate. }
    { intros j j' x. apply family_inj. intros s [<-|[]]; left; reflexivity. }
    destruct (Nt twist_streams) as (Nt1 & Nt2).
    { intros j o s (a & -> & _ & H1 & _). cbn [stream_names]. rewrite H1. unfold twist_streams, family. cbn [map].
      rewrite app_nil_s. reflexivity. }
    { intros j. apply family_nodup. repeat constructor; cbn; intuition discriminate. }
    { intros j j' x. apply family_inj. intros s [<-|[]]; left; reflexivity. }
    destruct (Ni imu_streams) as (Ni1 & Ni2).
    { intros j o s (a & b & c & -> & _ & _ & _ & H1 & H2 & H3 & _). cbn [stream_names]. rewrite H1, H2, H3. reflexivity. }
    { intros j. apply family_nodup. repeat constructor; cbn; intuition discriminate. }
    { intros j j' x. apply family_inj. intros s [<-|[<-|[<-|[]]]]; right; eexists; reflexivity. }
    rewrite Hs, !map_app, !concat_app.
    assert (Ho : forall x, In x (List.concat (map stream_names so)) -> exists r, x = String "o"%char r)
      by (intros x Hx; destruct (No2 x Hx) as (j & _ & Hj); apply (family_head _ _ _ _ _ _ eq_refl Hj)).
    assert (Hp : forall x, In x (List.concat (map stream_names sp)) -> exists r, x = String "p"%char r)
      by (intros x Hx; destruct (Np2 x Hx) as (j & _ & Hj); apply (family_head _ _ _ _ _ _ eq_refl Hj)).
    assert (Ht : forall x, In x (List.concat (map stream_names st)) -> exists r, x = String "t"%char r)
      by (intros x Hx; destruct (Nt2 x Hx) as (j & _ & Hj); apply (family_head _ _ _ _ _ _ eq_refl Hj)).
    assert (Hi : forall x, In x (List.concat (map stream_names si)) -> exists r, x = String "i"%char r)
      by (intros x Hx; destruct (Ni2 x Hx) as (j & _ & Hj); apply (family_head _ _ _ _ _ _ eq_refl Hj)).
    clear - No1 Np1 Nt1 Ni1 Ho Hp Ht Hi.
    apply nodup_app; [exact No1|apply nodup_app; [exact Np1|apply nodup_app; [exact Nt1|exact Ni1|]|]|].
    + intros x H1 H2. destruct (Ht x H1) as (r & ->), (Hi _ H2) as (r' & H). discriminate.
    + intros x H1 H2. destruct (Hp x H1) as (r & ->). apply in_app_iff in H2.
      destruct H2 as [H2|H2]; [destruct (Ht _ H2) as (r' & H)|destruct (Hi _ H2) as (r' & H)]; discriminate.
    + intros x H1 H2. destruct (Ho x H1) as (r & ->). rewrite !in_app_iff in H2.
      destruct H2 as [H2|[H2|H2]]; [destruct (Hp _ H2) as (r' & H)|destruct (Ht _ H2) as (r' & H)|destruct (Hi _ H2) as (r' & H)]; discriminate.
  - intros k. destruct Co as (A1 & _), Cp as (A2 & _), Ct as (A3 & _), Cc as (A4 & _).
    rewrite A4, A3, A2, A1. unfold abs_total. cbn [l0 l_abs].
    assert (Hz : zsum (fun (_ : twist_par K) (_ : nat) => 0%Z) (p_twists p) k = 0%Z)
      by (clear; induction (p_twists p); cbn; [reflexivity|exact IHl]). rewrite Hz. lia.
  - intros k. destruct Co as (_ & A1), Cp as (_ & A2), Ct as (_ & A3), Cc as (_ & A4).
    rewrite A4, A3, A2, A1. unfold tw_total. cbn [l0 l_twist]. lia.
  - exact Li.
  - apply Di, Dt, Dp, Do. intros key t. discriminate.
Qed.
End Whole.
