(** * A node does not depend on the choice of the epoch (C99) *)

From Coq Require Import Reals ZArith List Bool Lia Lra String FunctionalExtensionality.
From Verif Require Import Scalar Mat FilterBase FilterOps Ekf Ukf StrMap Tf ForceTwoD Diagnostics RosFilter RosConfig RosPrepare SpecNode SpecPrepare SpecEpoch
  RBridge NodeProofs NodeInv NodeMore NodeSim EpochFilter.
Import ListNotations.
Local Open Scope Z_scope.
Local Open Scope list_scope.

(** The list queue compares times only. *)
Lemma list_pq_order K : order_blind (list_pq K).
Proof.
  intros R HT. split; [intros m m' q q' Hm Hq; constructor; assumption|]. cbn [pq_pop list_pq].
  induction 1 as [|m m' q q' Hm Hq IH]; [exact I|]. cbn [take_min].
  destruct (take_min q) as [[x r]|], (take_min q') as [[x' r']|]; try contradiction.
  - destruct IH as (Hx & Hr). unfold meas_later, Z.gtb. rewrite (HT _ _ _ _ Hm Hx).
    destruct (m_time m ?= m_time x); split; try assumption; constructor; assumption.
  - split; [assumption|constructor].
Qed.

(** ** Lists *)
Section Lists.
Context {A : Type} (R : A -> A -> Prop).
Lemma pop_while_later (p p' : A -> bool) (Hp : forall a a', R a a' -> p' a' = p a) l l' : Forall2 R l l' ->
  Forall2 R (fst (pop_while p l)) (fst (pop_while p' l')) /\ Forall2 R (snd (pop_while p l)) (snd (pop_while p' l')).
Proof.
  induction 1 as [|a a' l l' Ha Hl IH]; [split; constructor|]. cbn [pop_while]. rewrite (Hp _ _ Ha). destruct (p a).
  - destruct (pop_while p l), (pop_while p' l'). cbn in *. destruct IH. split; [assumption|constructor; assumption].
  - cbn. split; constructor; assumption.
Qed.
Lemma pop_back_later (p p' : A -> bool) (Hp : forall a a', R a a' -> p' a' = p a) l l' : Forall2 R l l' ->
  Forall2 R (fst (pop_back_while p l)) (fst (pop_back_while p' l')) /\ Forall2 R (snd (pop_back_while p l)) (snd (pop_back_while p' l')).
Proof.
  intros H. unfold pop_back_while. destruct (pop_while_later p p' Hp _ _ (rev_two R _ _ H)) as (H1 & H2).
  destruct (pop_while p (rev l)), (pop_while p' (rev l')). cbn in *. split; [apply rev_two; assumption|assumption].
Qed.
End Lists.

Definition all_later (T : Z) (l : smap Z) : smap Z := map (fun p => (fst p, snd p + T)) l.
Lemma find_later T l k : sm_find (all_later T l) k = option_map (fun t => t + T) (sm_find l k).
Proof. induction l as [|[a t] l IH]; [reflexivity|]. cbn. destruct (String.eqb k a); [reflexivity|exact IH]. Qed.
Lemma set_later T l k t : sm_set (all_later T l) k (t + T) = all_later T (sm_set l k t).
Proof.
  induction l as [|[a u] l IH]; [reflexivity|]. change (all_later T ((a, u) :: l)) with ((a, u + T) :: all_later T l). cbn [sm_set].
  destruct (String.eqb k a); [reflexivity|]. destruct (String.ltb k a); [reflexivity|]. rewrite IH. reflexivity.
Qed.
Lemma mem_later T l k : sm_mem (all_later T l) k = sm_mem l k.
Proof. unfold sm_mem. rewrite find_later. destruct (sm_find l k); reflexivity. Qed.

(** ** Seconds *)
Lemma lit9 : lit (K := RScalar) 1 9 = (/ IZR 1000000000)%R.
Proof. unfold lit. cbn. unfold Rdiv. rewrite Rmult_1_l. reflexivity. Qed.
Lemma sec_R t : toSec (K := RScalar) t = (IZR t * / IZR 1000000000)%R.
Proof. unfold toSec, nanosecToSec. rewrite lit9. reflexivity. Qed.
Lemma sec_later T t : toSec (K := RScalar) (t + T) = (@toSec RScalar t + IZR T / IZR 1000000000)%R.
Proof. rewrite !sec_R, plus_IZR. unfold Rdiv. generalize (/ IZR 1000000000)%R. intros w. exact (Rmult_plus_distr_r _ _ w). Qed.
Lemma stamp_R t : stampToSec (K := RScalar) t = (IZR t * / IZR 1000000000)%R.
Proof.
  unfold stampToSec. rewrite lit9. change (@eq R (IZR (t / 1000000000) + IZR (t mod 1000000000) * / IZR 1000000000)%R (IZR t * / IZR 1000000000)%R).
  rewrite (Z.div_mod t 1000000000) at 3 by discriminate. rewrite plus_IZR, mult_IZR. field.
Qed.
Lemma stamp_sec t : stampToSec (K := RScalar) t = toSec t.
Proof. rewrite stamp_R, sec_R. reflexivity. Qed.

Section Node.
Context {E : Type}.
Variable vt : vtbl RScalar E.
Variable pq : pqueue RScalar.
Variable c : config RScalar.
Variable T lo : Z.
Hypothesis Hok : pq_ok pq.
Hypothesis Hpq : order_blind pq.
Hypothesis Hvt : epoch_blind vt T.
Hypothesis Hlo : 0 < lo.
Hypothesis Hdiag : c_diag_period c <= lo.
Hypothesis Hhist : - c_history c <= lo.
Local Notation kept := (kept T).
Local Notation late := (late T lo).
Local Notation Rf := (Rf (E := E) T lo).

Definition Rm (m m' : meas RScalar) : Prop :=
  exists t, m' = mkMeas (m_topic m) (m_time m + T) (m_value m) (m_cov m) (m_upd m) (m_thresh m) (m_control m) t /\
    kept (m_control_time m) t /\ late (m_time m).
Definition Rs (s s' : fstate RScalar) : Prop :=
  exists t, s' = mkFs (fs_state s) (fs_P s) (fs_time s + T) (fs_control s) t /\ late (fs_time s).

Record Rn (n n' : node RScalar E) : Prop := mkRn {
  r_filter : Rf (n_filter n) (n_filter n');
  r_late : fb_initialized (n_filter n) = true -> late (fb_last_time (n_filter n));
  r_queue : Forall2 Rm (n_queue n) (n_queue n');
  r_meas : Forall2 Rm (n_meas_hist n) (n_meas_hist n');
  r_states : Forall2 Rs (n_state_hist n) (n_state_hist n');
  r_streams : n_streams n' = n_streams n;
  r_msgs : n_last_msg n' = all_later T (n_last_msg n);
  r_pose : kept (n_set_pose n) (n_set_pose n');
  r_last : kept (n_last_diag n) (n_last_diag n');
  r_ctl : n_ctl n' = n_ctl n;
  r_ctl_time : kept (n_ctl_time n) (n_ctl_time n');
  r_pub : kept (n_last_pub n) (n_last_pub n');
  r_toggled : n_toggled n' = n_toggled n;
  r_enabled : n_enabled n' = n_enabled n;
  r_ang : n_ang n' = delayed_ang T (n_ang n);
  r_diag : n_diag n' = n_diag n
}.
Local Notation Ro := (delayed_output (E := E) T).

Lemma Rm_time m m' : Rm m m' -> m_time m' = m_time m + T /\ late (m_time m).
Proof. intros (t & -> & _ & H). auto. Qed.
Lemma Rm_delayed m m' : Rm m m' -> delayed_meas T m m'.
Proof. intros (t & -> & _). exists t. reflexivity. Qed.
Lemma Rs_time s s' : Rs s s' -> fs_time s' = fs_time s + T /\ late (fs_time s).
Proof. intros (t & -> & H). auto. Qed.
Lemma Rm_order a a' b b' : Rm a a' -> Rm b b' -> (m_time a' ?= m_time b') = (m_time a ?= m_time b).
Proof.
  intros Ha Hb. rewrite (proj1 (Rm_time _ _ Ha)), (proj1 (Rm_time _ _ Hb)).
  destruct (Z.compare_spec (m_time a) (m_time b)); [apply Z.compare_eq_iff|apply Z.compare_lt_iff|apply Z.compare_gt_iff]; lia.
Qed.
Lemma push_later m m' q q' : Rm m m' -> Forall2 Rm q q' -> Forall2 Rm (pq_push pq m q) (pq_push pq m' q').
Proof. exact (proj1 (Hpq Rm Rm_order) m m' q q'). Qed.
Lemma pop_later q q' : Forall2 Rm q q' ->
  match pq_pop pq q, pq_pop pq q' with
  | None, None => True | Some (m, r), Some (m', r') => Rm m m' /\ Forall2 Rm r r' | _, _ => False end.
Proof. exact (proj2 (Hpq Rm Rm_order) q q'). Qed.

Lemma neutral : time_neutral vt.
Proof. destruct Hvt as (_ & _ & P & C). split; [intros s r d; destruct (P s r d) as (A & B & _)|intros s m; destruct (C s m) as (A & B & _)]; auto. Qed.

(** ** The loop *)
Lemma loop_node_later restored n n' m m' r r' : Rn n n' -> Rm m m' -> Forall2 Rm r r' ->
  Rn (loop_node pq vt c restored n m r) (loop_node pq vt c restored n' m' r') /\
  Rf (loop_filter c restored (n_filter n) m) (loop_filter c restored (n_filter n') m').
Proof.
  intros HR Hm Hr. destruct (Rm_time _ _ Hm) as (M1 & M2).
  assert (HL : Rf (loop_filter c restored (n_filter n) m) (loop_filter c restored (n_filter n') m')).
  { unfold loop_filter. destruct Hm as (t & -> & HT & _). destruct (loop_control c restored); [|exact (r_filter _ _ HR)].
    apply control_later; [exact (r_filter _ _ HR)|exact HT]. }
  split; [|exact HL].
  pose proof (process_later vt T lo Hvt _ _ _ _ HL (Rm_delayed _ _ Hm) M2) as HP.
  destruct (process_time vt neutral (loop_filter c restored (n_filter n) m) m) as (T1 & T2).
  assert (T3 : late (fb_last_time (processMeasurement vt (loop_filter c restored (n_filter n) m) m))).
  { rewrite T1. pose proof (r_late _ _ HR) as HI. assert (EI : fb_initialized (loop_filter c restored (n_filter n) m) = fb_initialized (n_filter n) /\
      fb_last_time (loop_filter c restored (n_filter n) m) = fb_last_time (n_filter n)) by (unfold loop_filter; destruct (loop_control c restored); auto).
    destruct EI as (-> & ->). destruct (fb_initialized (n_filter n)); [|exact M2]. specialize (HI eq_refl). unfold SpecEpoch.late in *. lia. }
  destruct (state_later T lo _ _ HP) as (S1 & S2 & S3 & _ & S5). specialize (S5 T2). clear T1.
  unfold loop_node. set (g := processMeasurement vt (loop_filter c restored (n_filter n) m) m) in *.
  set (g' := processMeasurement vt (loop_filter c restored (n_filter n') m') m') in *. clearbody g g'.
  assert (HS : loop_saves pq r' g' = loop_saves pq r g).
  { unfold loop_saves. rewrite S5. pose proof (pop_later _ _ Hr) as HQ.
    destruct (pq_pop pq r) as [[a ra]|], (pq_pop pq r') as [[a' ra']|]; try contradiction; [|reflexivity].
    rewrite (proj1 (Rm_time _ _ (proj1 HQ))). destruct (Z.eqb_spec (m_time a) (fb_last_time g)), (Z.eqb_spec (m_time a + T) (fb_last_time g + T)); lia || reflexivity. }
  rewrite HS. destruct HR. constructor; cbn; try assumption.
  - intros _. exact T3.
  - destruct (c_smooth c); [apply Forall2_app; [assumption|repeat constructor; exact Hm]|assumption].
  - destruct (c_smooth c && _)%bool; [|assumption]. apply Forall2_app; [assumption|]. repeat constructor.
    unfold snapshot. rewrite S1, S2, S5. exists (fb_control_time g'). split; [|exact T3]. cbn. f_equal.
    destruct HP as (l & k & -> & _). reflexivity.
Qed.

Lemma out_fused f f' m m' : Rf f f' -> Rm m m' -> Ro (OutFused f m) (OutFused f' m').
Proof.
  intros (last & ctl & -> & _ & H2 & _) Hm. cbn. exists last, ctl, m'. split; [reflexivity|]. split; [exact (Rm_delayed _ _ Hm)|].
  intros HI. rewrite HI in H2. exact H2.
Qed.

Lemma ltb_later a b : (a + T <? b + T) = (a <? b).
Proof. destruct (Z.ltb_spec a b), (Z.ltb_spec (a + T) (b + T)); lia || reflexivity. Qed.
Lemma leb_later a b : (a + T <=? b + T) = (a <=? b).
Proof. destruct (Z.leb_spec a b), (Z.leb_spec (a + T) (b + T)); lia || reflexivity. Qed.

Lemma loop_later fuel now : forall restored n n', Rn n n' ->
  Rn (fst (integrate_loop pq vt c fuel now restored n)) (fst (integrate_loop pq vt c fuel (now + T) restored n')) /\
  Forall2 Ro (snd (integrate_loop pq vt c fuel now restored n)) (snd (integrate_loop pq vt c fuel (now + T) restored n')).
Proof.
  induction fuel as [|fuel IH]; intros restored n n' HR; [cbn; split; [exact HR|constructor]|].
  rewrite !loop_step. pose proof (pop_later _ _ (r_queue _ _ HR)) as HQ.
  destruct (pq_pop pq (n_queue n)) as [[m r]|], (pq_pop pq (n_queue n')) as [[m' r']|]; try contradiction;
    [|cbn; split; [exact HR|constructor]].
  destruct HQ as (Hm & Hr). rewrite (proj1 (Rm_time _ _ Hm)), ltb_later.
  destruct (now <? m_time m); [cbn; split; [exact HR|constructor]|].
  destruct (loop_node_later restored n n' m m' r r' HR Hm Hr) as (HN & HL).
  specialize (IH (loop_count c restored) _ _ HN).
  destruct (integrate_loop pq vt c fuel now (loop_count c restored) (loop_node pq vt c restored n m r)) as [n3 o3].
  destruct (integrate_loop pq vt c fuel (now + T) (loop_count c restored) (loop_node pq vt c restored n' m' r')) as [n3' o3'].
  cbn [fst snd] in *. destruct IH as (I1 & I2). split; [exact I1|]. constructor; [|exact I2]. apply out_fused; assumption.
Qed.

(** ** Going back *)
Lemma load_later f f' s s' : Rf f f' -> Rs s s' -> Rf (load f s) (load f' s').
Proof. intros HF (t & -> & _). unfold load. cbn. apply last_later. apply put_later. exact HF. Qed.
Lemma restore_later n n' s s' t : Rn n n' -> Rs s s' -> Rn (restoreSnapshot pq n s t) (restoreSnapshot pq n' s' (t + T)).
Proof.
  intros HR Hs. unfold restoreSnapshot.
  assert (HP : forall m m', Rm m m' -> (m_time m' >? t + T) = (m_time m >? t)).
  { intros m m' HM. rewrite (proj1 (Rm_time _ _ HM)), !Z.gtb_ltb. apply ltb_later. }
  destruct (pop_back_later Rm _ _ HP _ _ (r_meas _ _ HR)) as (A & B).
  destruct (pop_back_while _ (n_meas_hist n)) as [k p]. destruct (pop_back_while _ (n_meas_hist n')) as [k' p']. cbn [fst snd] in A, B.
  pose proof (load_later _ _ s s' (r_filter _ _ HR) Hs) as HL. unfold load in HL.
  destruct (Rs_time _ _ Hs) as (S1 & S2). pose proof (r_queue _ _ HR) as HQ. destruct HR.
  constructor; cbn; try assumption; [intros _; exact S2|].
  rewrite S1. clear - B HQ Hpq. revert HQ. generalize (n_queue n) (n_queue n').
  induction B as [|m m' p p' Hm HB IH]; intros u u' Hu; [exact Hu|]. cbn [fold_left]. apply IH.
  rewrite (proj1 (Rm_time _ _ Hm)), leb_later. destruct (fs_time s <=? m_time m); [|exact Hu]. apply push_later; assumption.
Qed.
Lemma revert_later n n' t : Rn n n' -> Rn (snd (revertTo pq n t)) (snd (revertTo pq n' (t + T))).
Proof.
  intros HR. unfold revertTo.
  assert (HP : forall s s', Rs s s' -> (fs_time s' >? t + T) = (fs_time s >? t)).
  { intros s s' HM. rewrite (proj1 (Rs_time _ _ HM)), !Z.gtb_ltb. apply ltb_later. }
  destruct (pop_back_later Rs _ _ HP _ _ (r_states _ _ HR)) as (A & B).
  destruct (pop_back_while _ (n_state_hist n)) as [k p]. destruct (pop_back_while _ (n_state_hist n')) as [k' p']. cbn [fst snd] in A, B.
  assert (HK : Rn (with_state_hist n k) (with_state_hist n' k')) by (destruct HR; constructor; cbn; assumption).
  pose proof (last_two Rs _ _ A) as LA. pose proof (last_two Rs _ _ B) as LB.
  destruct (last_opt k) as [s|], (last_opt k') as [s'|]; try contradiction; cbn [snd]; [apply restore_later; assumption|].
  destruct (last_opt p) as [s|], (last_opt p') as [s'|]; try contradiction; cbn [snd]; [apply restore_later; assumption|exact HK].
Qed.
(** Comparing a late time with the filter's *)
Lemma before_last (f f' : fb RScalar E) t : Rf f f' -> late t -> (t + T <? fb_last_time f') = (t <? fb_last_time f).
Proof.
  intros (last & ctl & -> & _ & H2 & _) (L1 & L2). change (fb_last_time (retimed f last ctl)) with last.
  assert (HK : kept (fb_last_time f) last) by (destruct (fb_initialized f); [left; exact H2|exact H2]).
  destruct HK as [->|(-> & ->)]; [apply ltb_later|].
  destruct (Z.ltb_spec (t + T) 0), (Z.ltb_spec t 0); lia || reflexivity.
Qed.
Lemma before_cutoff (f f' : fb RScalar E) t : Rf f f' -> late t -> (t + T <? fb_last_time f' - c_history c) = (t <? fb_last_time f - c_history c).
Proof.
  intros (last & ctl & -> & _ & H2 & _) (L1 & L2). change (fb_last_time (retimed f last ctl)) with last.
  assert (HK : kept (fb_last_time f) last) by (destruct (fb_initialized f); [left; exact H2|exact H2]).
  destruct HK as [->|(-> & ->)].
  - destruct (Z.ltb_spec (t + T) (fb_last_time f + T - c_history c)), (Z.ltb_spec t (fb_last_time f - c_history c)); lia || reflexivity.
  - destruct (Z.ltb_spec (t + T) (0 - c_history c)), (Z.ltb_spec t (0 - c_history c)); lia || reflexivity.
Qed.
Lemma lag_later n n' : Rn n n' ->
  fst (revert_if_lagged pq c n') = fst (revert_if_lagged pq c n) /\
  Rn (snd (revert_if_lagged pq c n)) (snd (revert_if_lagged pq c n')).
Proof.
  intros HR. unfold revert_if_lagged. pose proof (pop_later _ _ (r_queue _ _ HR)) as HQ.
  destruct (pq_pop pq (n_queue n)) as [[m r]|], (pq_pop pq (n_queue n')) as [[m' r']|]; try contradiction; [|cbn; auto].
  destruct (Rm_time _ _ (proj1 HQ)) as (M1 & M2). rewrite M1, (before_last _ _ _ (r_filter _ _ HR) M2).
  destruct (_ && _)%bool; [|cbn; auto]. cbn [fst snd]. pose proof (revert_later n n' (m_time m - 1) HR) as HV.
  replace (m_time m + T - 1) with (m_time m - 1 + T) by lia.
  split; [|exact HV]. rewrite (length_two Rm _ _ (r_queue _ _ HV)), (length_two Rm _ _ (r_queue _ _ HR)). reflexivity.
Qed.
Lemma catch_up_later now n n' : Rn n n' ->
  Rn (fst (catch_up pq vt c now n)) (fst (catch_up pq vt c (now + T) n')) /\
  Forall2 Ro (snd (catch_up pq vt c now n)) (snd (catch_up pq vt c (now + T) n')).
Proof.
  intros HR. unfold catch_up. pose proof (r_queue _ _ HR) as HQ. destruct (lag_later n n' HR) as (L1 & L2).
  inversion HQ; [cbn; split; [exact HR|constructor]|].
  destruct (revert_if_lagged pq c n) as [z m0], (revert_if_lagged pq c n') as [z' m0']. cbn [fst snd] in *. subst z'.
  rewrite (length_two Rm _ _ (r_queue _ _ L2)). apply loop_later. exact L2.
Qed.

Lemma integrate_later now n n' : Rn n n' -> late now ->
  Rn (fst (integrateMeasurements pq vt c now n)) (fst (integrateMeasurements pq vt c (now + T) n')) /\
  Forall2 Ro (snd (integrateMeasurements pq vt c now n)) (snd (integrateMeasurements pq vt c (now + T) n')).
Proof.
  intros HR HL. rewrite !integrate_eq by exact Hok. pose proof (catch_up_later now n n' HR) as HC.
  assert (HJ : projects c (now + T) n' = projects c now n).
  { unfold projects. destruct (state_later T lo _ _ (r_filter _ _ HR)) as (_ & _ & F1 & F3 & F2). rewrite F1, F3.
    pose proof (r_queue _ _ HR) as HQ. inversion HQ; [|reflexivity]. f_equal. destruct (fb_initialized (n_filter n)); [|reflexivity].
    rewrite (F2 eq_refl). cbn [andb]. f_equal. lia. }
  rewrite HJ. destruct (catch_up pq vt c now n) as [n1 o1], (catch_up pq vt c (now + T) n') as [n1' o1']. cbn [fst snd] in HC.
  destruct HC as (C1 & C2). destruct (state_later T lo _ _ (r_filter _ _ C1)) as (_ & _ & F1 & _ & F2). rewrite F1.
  destruct (fb_initialized (n_filter n1)) eqn:EI; cbn [andb]; [|cbn; auto]. specialize (F2 eq_refl).
  destruct (projects c now n); cbn [fst snd]; [|auto].
  assert (ED : now + T - fb_last_time (n_filter n1') = now - fb_last_time (n_filter n1)) by lia. split.
  - unfold project. rewrite ED. pose proof (predict_later vt T lo Hvt _ _ now (now - fb_last_time (n_filter n1)) (r_filter _ _ C1) HL) as HP.
    destruct (proj1 (proj2 (proj2 Hvt)) (n_filter n1) now (now - fb_last_time (n_filter n1))) as (G1 & G2 & _).
    destruct (state_later T lo _ _ HP) as (_ & _ & _ & _ & HPt). rewrite G1 in HPt. specialize (HPt EI). cbv zeta.
    rewrite HPt. replace (fb_last_time (v_predict vt (n_filter n1) now (now - fb_last_time (n_filter n1))) + T + (now - fb_last_time (n_filter n1)))
      with (fb_last_time (v_predict vt (n_filter n1) now (now - fb_last_time (n_filter n1))) + (now - fb_last_time (n_filter n1)) + T) by lia.
    rewrite G2. destruct C1. constructor; cbn; try assumption.
    + apply last_later. exact HP.
    + intros _. replace (fb_last_time (n_filter n1) + (now - fb_last_time (n_filter n1))) with now by lia. exact HL.
  - rewrite ED. apply Forall2_app; [exact C2|]. repeat constructor.
Qed.

Lemma differentiate_later now n n' : Rn n n' -> Rn (differentiateMeasurements now n) (differentiateMeasurements (now + T) n').
Proof.
  intros HR. unfold differentiateMeasurements. destruct (state_later T lo _ _ (r_filter _ _ HR)) as (FS & FP & F1 & _). rewrite F1.
  destruct (fb_initialized (n_filter n)) eqn:EI; [|exact HR]. rewrite FS, FP, (r_ang _ _ HR).
  assert (HD : s_sub (s := RScalar) (toSec (now + T)) (a_last_time (delayed_ang T (n_ang n))) = s_sub (s := RScalar) (toSec now) (a_last_time (n_ang n))).
  { rewrite sec_later. destruct (n_ang n) as [aa ac at_ t]. cbn [delayed_ang a_last_time a_acc a_cov a_last_twist]. generalize (@toSec RScalar now). intros w. cbn in w, t |- *. match goal with |- ?a = ?b => change (@eq R a b) end. ring. }
  cbv zeta. rewrite HD, sec_later. destruct HR. constructor; cbn; try assumption; reflexivity.
Qed.

Lemma working_later cur later n n' : Rn n n' -> late cur -> late later ->
  Rn (fst (working pq vt c cur later n)) (fst (working pq vt c (cur + T) (later + T) n')) /\
  Forall2 Ro (snd (working pq vt c cur later n)) (snd (working pq vt c (cur + T) (later + T) n')).
Proof.
  intros HR HL HL2. unfold working. rewrite (r_toggled _ _ HR). destruct (n_toggled n).
  - pose proof (integrate_later cur n n' HR HL) as HI.
    destruct (integrateMeasurements pq vt c cur n) as [m o], (integrateMeasurements pq vt c (cur + T) n') as [m' o']. cbn [fst snd] in *.
    destruct HI as (I1 & I2). split; [apply differentiate_later; exact I1|exact I2].
  - cbn [fst snd]. split; [|constructor]. destruct (state_later T lo _ _ (r_filter _ _ HR)) as (_ & _ & F1 & _). rewrite F1.
    destruct HR. destruct (fb_initialized (n_filter n)) eqn:EI; constructor; cbn; try assumption; try apply Forall2_nil; try (intros; congruence).
    apply last_later. assumption.
Qed.

Lemma diag_later cur n n' : Rn n n' -> late cur -> diag_due c (cur + T) n' = diag_due c cur n.
Proof.
  intros HR (L1 & L2). unfold diag_due. destruct (c_print_diag c); [|reflexivity]. cbn [andb].
  destruct (r_last _ _ HR) as [->|(-> & ->)]; [f_equal; f_equal; lia|].
  rewrite (proj2 (Z.leb_le _ _)) by lia. rewrite (proj2 (Z.leb_le _ (cur - 0))) by lia. reflexivity.
Qed.
Lemma corrected_later n n' : Rn n n' -> corrected c n' = corrected c n.
Proof.
  intros HR. unfold corrected. destruct (state_later T lo _ _ (r_filter _ _ HR)) as (_ & _ & F1 & _ & F2). rewrite F1.
  pose proof (r_late _ _ HR) as HL. destruct (fb_initialized (n_filter n)); [|reflexivity]. cbn [andb]. f_equal. rewrite (F2 eq_refl).
  destruct (HL eq_refl) as (L1 & L2). destruct (r_pub _ _ HR) as [->|(-> & ->)]; [apply leb_later|].
  destruct (Z.leb_spec (fb_last_time (n_filter n) + T) 0), (Z.leb_spec (fb_last_time (n_filter n)) 0); lia || reflexivity.
Qed.
Lemma concluded_later cur n n' : Rn n n' -> late cur -> Rn (concluded c cur n) (concluded c (cur + T) n').
Proof.
  intros HR HL. pose proof (diag_later cur n n' HR HL) as HD. destruct (state_later T lo _ _ (r_filter _ _ HR)) as (_ & _ & F1 & _ & F2).
  assert (A1 : forall m m', Rm m m' -> (m_time m' <? fb_last_time (n_filter n') - c_history c) = (m_time m <? fb_last_time (n_filter n) - c_history c)).
  { intros m m' HM. destruct (Rm_time _ _ HM) as (-> & M2). apply before_cutoff; [exact (r_filter _ _ HR)|exact M2]. }
  assert (A2 : forall s s', Rs s s' -> (fs_time s' <? fb_last_time (n_filter n') - c_history c) = (fs_time s <? fb_last_time (n_filter n) - c_history c)).
  { intros m m' HM. destruct (Rs_time _ _ HM) as (-> & M2). apply before_cutoff; [exact (r_filter _ _ HR)|exact M2]. }
  unfold concluded. rewrite HD, F1. destruct HR. constructor; cbn; try assumption; unfold pop_front_while.
  - destruct (c_smooth c); [|assumption]. exact (proj1 (pop_while_later Rm _ _ A1 _ _ r_meas0)).
  - destruct (c_smooth c); [|assumption]. exact (proj1 (pop_while_later Rs _ _ A2 _ _ r_states0)).
  - destruct (diag_due c cur n); [left; reflexivity|assumption].
  - destruct (fb_initialized (n_filter n)); [left; exact (F2 eq_refl)|assumption].
  - destruct (diag_due c cur n); [rewrite r_diag0; reflexivity|assumption].
Qed.

(** ** Publishing *)
Lemma odom_later n n' : Rn n n' -> getFilteredOdometryMessage c n' = option_map (delayed_odom T) (getFilteredOdometryMessage c n).
Proof.
  intros HR. destruct (state_later T lo _ _ (r_filter _ _ HR)) as (FS & FP & F1 & _ & F2).
  unfold getFilteredOdometryMessage. rewrite FS, FP, F1. destruct (fb_initialized (n_filter n)); [|reflexivity]. rewrite (F2 eq_refl). reflexivity.
Qed.
Lemma accel_later n n' : Rn n n' -> getFilteredAccelMessage c n' = option_map (delayed_accel T) (getFilteredAccelMessage c n).
Proof.
  intros HR. destruct (state_later T lo _ _ (r_filter _ _ HR)) as (FS & FP & F1 & _ & F2).
  unfold getFilteredAccelMessage. rewrite FS, FP, F1, (r_ang _ _ HR). destruct (fb_initialized (n_filter n)); [|reflexivity]. rewrite (F2 eq_refl). reflexivity.
Qed.
Lemma broadcast_later o lookup : Forall2 Ro (broadcast (E := E) c o lookup) (broadcast c (delayed_odom T o) lookup).
Proof.
  unfold broadcast. cbn [o_stamp o_frame o_child o_position o_orientation delayed_odom].
  replace (o_stamp o + T + c_tf_offset c) with (o_stamp o + c_tf_offset c + T) by lia.
  destruct (String.eqb (o_frame o) (c_odom c)); [repeat constructor|].
  destruct (String.eqb (o_frame o) (c_map c)); [|constructor]. destruct lookup as [b|]; repeat constructor.
Qed.
Lemma visible_later n n' lookup : Rn n n' -> Forall2 Ro (visible c n lookup) (visible c n' lookup).
Proof.
  intros HR. unfold visible. rewrite (odom_later n n' HR), (accel_later n n' HR), (corrected_later n n' HR). apply Forall2_app.
  - destruct (getFilteredOdometryMessage c n) as [o|]; cbn [option_map]; [|constructor].
    change (validateFilterOutput (delayed_odom T o)) with (validateFilterOutput o).
    apply Forall2_app; [destruct (validateFilterOutput o); repeat constructor|]. apply Forall2_app.
    + destruct (_ && _)%bool; [apply broadcast_later|constructor].
    + destruct (corrected c n); repeat constructor.
  - destruct (_ && _)%bool; [|constructor]. destruct (getFilteredAccelMessage c n); repeat constructor.
Qed.

Lemma cycle_later cur later lookup n n' : Rn n n' -> late cur -> late later ->
  Rn (fst (periodicUpdate pq vt c cur later lookup n)) (fst (periodicUpdate pq vt c (cur + T) (later + T) lookup n')) /\
  Forall2 Ro (snd (periodicUpdate pq vt c cur later lookup n)) (snd (periodicUpdate pq vt c (cur + T) (later + T) lookup n')).
Proof.
  intros HR HL HL2. pose proof (r_enabled _ _ HR) as HE. destruct (n_enabled n) eqn:EN.
  - rewrite (cycle_eq pq vt c cur later lookup n EN), (cycle_eq pq vt c (cur + T) (later + T) lookup n' HE).
    pose proof (working_later cur later n n' HR HL HL2) as HW.
    destruct (working pq vt c cur later n) as [n1 o1], (working pq vt c (cur + T) (later + T) n') as [n1' o1']. cbn [fst snd] in *.
    destruct HW as (W1 & W2). split; [apply concluded_later; assumption|]. apply Forall2_app; [exact W2|]. apply Forall2_app; [apply visible_later; exact W1|].
    rewrite (diag_later cur _ _ W1 HL), (r_diag _ _ W1). destruct (diag_due c cur n1); repeat constructor.
  - unfold periodicUpdate. rewrite EN, HE. cbn. split; [exact HR|constructor].
Qed.

(** ** Preparing *)
Definition prep_later (prep prep' : prepfun RScalar E) : Prop :=
  forall n n' upd v0 c0, Rn n n' -> prep' n' upd v0 c0 = prep n upd v0 c0.

Lemma angular_later n n' : Rn n n' -> state_angular n' = state_angular n.
Proof. intros HR. unfold state_angular. rewrite (proj1 (state_later T lo _ _ (r_filter _ _ HR))). reflexivity. Qed.
Lemma gravity_later e e' n n' msg relative r : Rn n n' -> e_gravity e' = e_gravity e ->
  gravity_vector e' n' (delayed_imu T msg) relative r = gravity_vector e n msg relative r.
Proof.
  intros HR HG. unfold gravity_vector. rewrite HG, (proj1 (state_later T lo _ _ (r_filter _ _ HR))). reflexivity.
Qed.

Lemma twist_later e e' msg topic target : same_view T e e' (tw_stamp msg) ->
  prep_later (prepareTwist e c msg topic target) (prepareTwist e' c (delayed_twist T msg) topic target).
Proof.
  intros (V1 & V2 & V3 & V4 & V5) n n' upd v0 c0 HR. unfold prepareTwist.
  rewrite (angular_later n n' HR), (r_streams _ _ HR), V1. cbn [delayed_twist tw_stamp tw_frame tw_linear tw_angular tw_cov]. rewrite V4. reflexivity.
Qed.
Lemma acc_later e e' msg topic target relative : same_view T e e' (im_stamp msg) ->
  prep_later (prepareAcceleration e c msg topic target relative) (prepareAcceleration e' c (delayed_imu T msg) topic target relative).
Proof.
  intros (V1 & V2 & V3 & V4 & V5) n n' upd v0 c0 HR. unfold prepareAcceleration.
  rewrite (angular_later n n' HR), (r_streams _ _ HR), V1, V3. cbn [delayed_imu im_stamp im_frame im_linear im_acc_cov]. rewrite V4.
  destruct (lookupTransformSafe e target _ _) as [t|]; [|reflexivity]. fold (delayed_imu T msg).
  rewrite (gravity_later e e' n n' msg relative (t_basis t) HR V2), (r_ang _ _ HR). reflexivity.
Qed.
Lemma pose_later e e' msg topic target source diff rel imu : same_view T e e' (ps_stamp msg) ->
  forall n n' upd v0 c0, Rn n n' -> (diff = true -> sm_find (n_last_msg n) topic <> None) ->
  preparePose e' c (delayed_pose T msg) topic target source diff rel imu n' upd v0 c0 =
  preparePose e c msg topic target source diff rel imu n upd v0 c0.
Proof.
  intros HV n n' upd v0 c0 HR HF. unfold preparePose.
  cbn [delayed_pose ps_stamp ps_frame ps_position ps_orientation ps_cov].
  destruct (pose_frames c (ps_frame msg) target diff imu) as [ft pf]. cbv zeta. rewrite (r_streams _ _ HR).
  rewrite !(proj2 (proj2 (proj2 (proj2 HV)))), (proj1 HV).
  destruct (lookupTransformSafe e ft pf _) as [t|]; [|reflexivity].
  destruct diff; [|reflexivity].
  destruct (sm_find (st_previous (n_streams n)) topic) as [prev|]; [|reflexivity].
  destruct (sm_find (st_prev_cov (n_streams n)) topic) as [prev_cov|]; [|reflexivity].
  rewrite (r_msgs _ _ HR), find_later. specialize (HF eq_refl). destruct (sm_find (n_last_msg n) topic) as [last|]; [|contradiction].
  cbn [option_map].
  assert (HD : s_sub (s := RScalar) (stampToSec (ps_stamp msg + T)) (toSec (last + T)) = s_sub (s := RScalar) (stampToSec (ps_stamp msg)) (toSec last)).
  { rewrite !stamp_sec, !sec_later. generalize (@toSec RScalar (ps_stamp msg)) (@toSec RScalar last). intros u w. cbn in u, w |- *. match goal with |- ?a = ?b => change (@eq R a b) end. ring. }
  rewrite HD. destruct (quatToRPY _) as [[roll pitch] yaw].
  pose proof (fun lin ang cov => twist_later e e' (mkTwist (ps_stamp msg) source lin ang cov) (topic ++ "_twist") (c_base c) HV n n') as HT.
  unfold delayed_twist in HT. cbn [tw_stamp tw_frame tw_linear tw_angular tw_cov] in HT. rewrite HT by exact HR. reflexivity.
Qed.

(** ** Callbacks *)
Definition call_later (a a' : node RScalar E -> node RScalar E * list (output RScalar E)) : Prop :=
  forall n n', Rn n n' -> Rn (fst (a n)) (fst (a' n')) /\ Forall2 Ro (snd (a n)) (snd (a' n')).
Lemma skip_later : call_later skip_callback skip_callback.
Proof. intros n n' H. split; [exact H|constructor]. Qed.
Lemma then_later a a' b b' : call_later a a' -> call_later b b' -> call_later (andthen a b) (andthen a' b').
Proof.
  intros Ha Hb n n' H. unfold andthen. specialize (Ha n n' H). destruct (a n) as [n1 o1], (a' n') as [n1' o1'].
  cbn [fst snd] in *. destruct Ha as (A1 & A2). specialize (Hb n1 n1' A1). destruct (b n1) as [n2 o2], (b' n1') as [n2' o2']. cbn [fst snd] in *.
  destruct Hb as (B1 & B2). split; [exact B1|]. apply Forall2_app; assumption.
Qed.
Lemma barrier_later n n' t : Rn n n' -> late t -> (n_set_pose n' >=? t + T) = (n_set_pose n >=? t).
Proof.
  intros HR (L1 & L2). rewrite !Z.geb_leb. destruct (r_pose _ _ HR) as [->|(-> & ->)]; [apply leb_later|].
  destruct (Z.leb_spec (t + T) 0), (Z.leb_spec t 0); lia || reflexivity.
Qed.
Lemma add_diag_later n n' d : Rn n n' -> Rn (add_diag n d) (add_diag n' d).
Proof. intros HR. destruct HR. constructor; cbn; try assumption. rewrite r_diag0. reflexivity. Qed.
Lemma find_set l k (t : Z) : sm_find (sm_set l k t) k = Some t.
Proof.
  induction l as [|[a u] l IH]; cbn; [rewrite String.eqb_refl; reflexivity|]. destruct (String.eqb k a) eqn:E1; cbn; [rewrite String.eqb_refl; reflexivity|].
  destruct (String.ltb k a); cbn; [rewrite String.eqb_refl; reflexivity|]. rewrite E1. exact IH.
Qed.

Lemma sensor_later warn topic stamp upd thresh prep prep' : late stamp ->
  (forall n n' upd v0 c0, Rn n n' -> sm_find (n_last_msg n) topic <> None -> prep' n' upd v0 c0 = prep n upd v0 c0) ->
  call_later (sensorCallback pq warn topic stamp upd thresh prep) (sensorCallback pq warn topic (stamp + T) upd thresh prep').
Proof.
  intros HL HP n n' HR. unfold sensorCallback. rewrite (barrier_later n n' stamp HR HL). destruct (n_set_pose n >=? stamp).
  { cbn [fst snd]. split; [|constructor]. destruct warn; [apply add_diag_later|]; exact HR. }
  rewrite (r_msgs _ _ HR), mem_later, set_later.
  set (n1 := if sm_mem (n_last_msg n) topic then n else _). set (n1' := if sm_mem (n_last_msg n) topic then n' else _).
  assert (H1 : Rn n1 n1').
  { subst n1 n1'. destruct (sm_mem _ _); [exact HR|]. destruct HR. constructor; cbn; try assumption. reflexivity. }
  clearbody n1 n1'. clear HR n n'. rewrite (r_msgs _ _ H1), find_later.
  destruct (sm_find (n_last_msg n1) topic) as [last|] eqn:EF; cbn [option_map]; [|cbn; split; [exact H1|constructor]].
  rewrite leb_later. destruct (last <=? stamp).
  - rewrite (HP n1 n1' upd vzero mzero H1) by congruence. set (r := prep n1 upd vzero mzero). clearbody r. cbv zeta.
    rewrite (r_diag _ _ H1). destruct (pr_ok r); cbn [fst snd].
    + assert (HM : Rm (mkMeas topic stamp (pr_val r) (pr_cov r) (pr_upd r) thresh (n_ctl n1) (n_ctl_time n1))
                      (mkMeas topic (stamp + T) (pr_val r) (pr_cov r) (pr_upd r) thresh (n_ctl n1') (n_ctl_time n1'))).
      { exists (n_ctl_time n1'). rewrite (r_ctl _ _ H1). split; [reflexivity|]. split; [exact (r_ctl_time _ _ H1)|exact HL]. }
      split.
      * destruct H1. constructor; cbn; try assumption; try reflexivity; [apply push_later; assumption|]. rewrite r_msgs0. apply set_later.
      * repeat constructor. cbn. eexists. split; [reflexivity|]. exact (Rm_delayed _ _ HM).
    + split; [|constructor]. destruct H1. constructor; cbn; try assumption; try reflexivity. rewrite r_msgs0. apply set_later.
  - cbn [fst snd]. split; [|constructor]. apply add_diag_later. exact H1.
Qed.

Lemma call_pose e e' cd p target source imu : late (ps_stamp p) -> same_view T e e' (ps_stamp p) ->
  call_later (poseCallback pq e c cd p target source imu) (poseCallback pq e' c cd (delayed_pose T p) target source imu).
Proof. intros HL HV. apply sensor_later; [exact HL|]. intros n n' upd v0 c0 HR HF. apply pose_later; [exact HV|exact HR|intros _; exact HF]. Qed.
Lemma call_twist e e' cd t target : late (tw_stamp t) -> same_view T e e' (tw_stamp t) ->
  call_later (twistCallback pq e c cd t target) (twistCallback pq e' c cd (delayed_twist T t) target).
Proof. intros HL HV. apply sensor_later; [exact HL|]. intros n n' upd v0 c0 HR _. apply twist_later; assumption. Qed.
Lemma call_acc e e' cd i target : late (im_stamp i) -> same_view T e e' (im_stamp i) ->
  call_later (accelerationCallback pq e c cd i target) (accelerationCallback pq e' c cd (delayed_imu T i) target).
Proof. intros HL HV. apply sensor_later; [exact HL|]. intros n n' upd v0 c0 HR _. apply acc_later; assumption. Qed.

Lemma receive_later e e' s m : late (stamp_of m) -> same_view T e e' (stamp_of m) ->
  call_later (receive pq e c s m) (receive pq e' c s (delayed_msg T m)).
Proof.
  intros HL HV. destruct s as [topic a b|a|a|topic a b g], m as [o|p|t|i]; cbn [receive delayed_msg stamp_of] in *;
    try (intros n n' HR; split; [exact HR|constructor]).
  - intros n n' HR. cbn [receive]. unfold odometryCallback. change (o_stamp (delayed_odom T o)) with (o_stamp o + T). change (o_child (delayed_odom T o)) with (o_child o).
    rewrite (barrier_later n n' _ HR HL). destruct (_ >=? _); [split; [apply add_diag_later; exact HR|constructor]|].
    revert n n' HR. apply then_later.
    + destruct (cd_sum a >? 0); [|exact skip_later]. exact (call_pose e e' a (odom_pose o) _ _ _ HL HV).
    + destruct (cd_sum b >? 0); [|exact skip_later]. exact (call_twist e e' b (odom_twist o) _ HL HV).
  - exact (call_pose e e' a p _ _ _ HL HV).
  - exact (call_twist e e' a t _ HL HV).
  - intros n n' HR. cbn [receive]. unfold imuCallback. change (im_stamp (delayed_imu T i)) with (im_stamp i + T). change (im_ori_cov (delayed_imu T i)) with (im_ori_cov i). change (im_ang_cov (delayed_imu T i)) with (im_ang_cov i). change (im_acc_cov (delayed_imu T i)) with (im_acc_cov i).
    rewrite (barrier_later n n' _ HR HL). destruct (_ >=? _); [split; [apply add_diag_later; exact HR|constructor]|].
    revert n n' HR. apply then_later; [|apply then_later].
    + destruct (_ && _)%bool; [|exact skip_later]. exact (call_pose e e' a (imu_pose i) _ _ _ HL HV).
    + destruct (_ && _)%bool; [|exact skip_later]. exact (call_twist e e' b (imu_twist i) _ HL HV).
    + destruct (_ && _)%bool; [|exact skip_later]. apply call_acc; assumption.
Qed.

Lemma set_pose_later e e' p now n n' : Rn n n' -> late now -> same_view T e e' (ps_stamp p) ->
  Rn (setPoseCallback (ps_stamp p) (preparePose e c p "set_pose" (c_world c) (c_base c) false false false) now n)
     (setPoseCallback (ps_stamp p + T) (preparePose e' c (delayed_pose T p) "set_pose" (c_world c) (c_base c) false false false) (now + T) n').
Proof.
  intros HR HL HV. unfold setPoseCallback. cbv zeta.
  set (n2 := with_set_pose _ (ps_stamp p)). set (n2' := with_set_pose (with_state_hist (with_meas_hist (clearMeasurementQueue (with_streams n' no_streams)) []) []) (ps_stamp p + T)).
  assert (H2 : Rn n2 n2').
  { subst n2 n2'. destruct HR. constructor; cbn; try assumption; try apply Forall2_nil; [reflexivity|left; reflexivity]. }
  clearbody n2 n2'. rewrite (pose_later e e' p "set_pose" _ _ false false false HV n2 n2' _ _ _ H2) by discriminate.
  set (r := preparePose e c p _ _ _ _ _ _ n2 _ _ _). clearbody r.
  destruct H2. constructor; cbn; try assumption; try reflexivity.
  - apply last_later. apply put_later. assumption.
  - intros _. exact HL.
  - rewrite r_diag0. reflexivity.
Qed.

Lemma input_later i i' : delayed_input T lo c i i' -> call_later (fun n => deliver pq vt c n i) (fun n => deliver pq vt c n i').
Proof.
  intros [e e' s m HL HV|e e' p now HL HV|frame ctl stamp|cur later lookup HL HL2|ev HE] n n' HR; cbn [deliver node_step].
  - apply receive_later; assumption.
  - cbn [fst snd]. split; [|constructor]. apply set_pose_later; assumption.
  - cbn [fst snd]. split; [|constructor]. unfold controlStampedCallback. destruct (_ || _)%bool; [|exact HR].
    destruct HR. constructor; cbn; try assumption; try reflexivity; [apply control_later; [assumption|left; reflexivity]|left; reflexivity].
  - apply cycle_later; assumption.
  - destruct ev as [| |on| | | | |]; try contradiction; cbn [node_step].
    + unfold toggleFilterProcessingCallback. rewrite (r_toggled _ _ HR).
      destruct (Bool.eqb on (n_toggled n)); cbn [fst snd]; (split; [|repeat constructor]); [exact HR|]. destruct HR. constructor; cbn; try assumption. reflexivity.
    + unfold enableFilterSrvCallback. rewrite (r_enabled _ _ HR). cbn [fst snd]. split; [|repeat constructor].
      destruct (n_enabled n); [exact HR|]. destruct HR. constructor; cbn; try assumption. reflexivity.
    + cbn [fst snd]. split; [|constructor]. pose proof (reset_later T lo _ _ (r_filter _ _ HR)) as HF. destruct HR.
      constructor; cbn; try apply Forall2_nil; try assumption; try discriminate; try (right; split; reflexivity); try reflexivity.
      destruct HF as (last & k & HF & H1 & H2 & H3). exists last, k.
      split; [rewrite HF; reflexivity|]. split; [exact H1|]. split; [exact H2|exact H3].
    + rewrite (r_diag _ _ HR). destruct (aggregateDiagnostics (n_diag n)) as [r dg]. cbn [fst snd]. split; [|repeat constructor].
      destruct HR. constructor; cbn; try assumption. reflexivity.
Qed.

Theorem respond_later is is' : Forall2 (delayed_input T lo c) is is' -> forall n n', Rn n n' ->
  Rn (fst (respond pq vt c n is)) (fst (respond pq vt c n' is')) /\
  Forall2 Ro (snd (respond pq vt c n is)) (snd (respond pq vt c n' is')).
Proof.
  induction 1 as [|i i' is is' Hi His IH]; intros n n' HR; cbn [respond]; [split; [exact HR|constructor]|].
  pose proof (input_later i i' Hi n n' HR) as HI. cbn beta in HI. destruct (deliver pq vt c n i) as [n1 o1], (deliver pq vt c n' i') as [n1' o1'].
  cbn [fst snd] in HI. destruct HI as (A1 & A2). specialize (IH n1 n1' A1).
  destruct (respond pq vt c n1 is) as [n2 o2], (respond pq vt c n1' is') as [n2' o2']. cbn [fst snd] in *.
  destruct IH as (B1 & B2). split; [exact B1|]. apply Forall2_app; assumption.
Qed.
End Node.
