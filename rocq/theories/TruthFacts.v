(** * A filter that is told the truth knows the truth (C104) *)

From Coq Require Import Reals ZArith List Bool Arith Lia Lra.
From Verif Require Import Scalar Mat FilterBase FilterOps Ekf SpecLin SpecFilter SpecMotion SpecTurn SpecTruth
  RBridge RLin Angles EkfFacts EkfUpdate Motion TurnFilter.
Import ListNotations.
Local Open Scope R_scope.

Lemma angular_dec k : angular k \/ ~ angular k.
Proof. unfold angular. lia. Qed.
Lemma angular_is k : angular k <-> is_angle k = true.
Proof. unfold angular, is_angle. cbn. rewrite !orb_true_iff, !Nat.eqb_eq. lia. Qed.
Lemma same_angle_refl u : same_angle u u.
Proof. exists 0%Z. lra. Qed.
Lemma same_value_refl k u : same_value k u u.
Proof. split; intros; [apply same_angle_refl|reflexivity]. Qed.
Lemma same_value_trans k u v w : same_value k u v -> same_value k v w -> same_value k u w.
Proof.
  intros (A & B) (C & D). split; intros H; [apply same_angle_trans with v; auto|rewrite (B H); auto].
Qed.
Lemma wrapped_same u v : wrapped u v -> same_angle v u.
Proof. intros (_ & z & ->). exists z. reflexivity. Qed.

(** ** Prediction *)
Lemma still_truth c T T' k : still c -> truth c T k = truth c T' k.
Proof.
  intros (R0 & H). unfold truth. generalize (IZR T / 1000000000), (IZR T' / 1000000000). intros t t'.
  destruct (H 0%nat ltac:(lia)) as (v0 & a0). destruct (H 1%nat ltac:(lia)) as (v1 & a1). destruct (H 2%nat ltac:(lia)) as (v2 & a2).
  do 15 (destruct k as [|k]; [cbn [course_at rsum]; rewrite ?R0, ?v0, ?v1, ?v2, ?a0, ?a1, ?a2; ring|]). reflexivity.
Qed.
Lemma same_still c T T' x : still c -> same_state x (truth c T) -> same_state x (truth c T').
Proof. intros H S k Hk. rewrite (still_truth c T' T k H). apply S, Hk. Qed.
Lemma truthful_still c T T' m : still c -> truthful m (truth c T) -> truthful m (truth c T').
Proof. intros H (L & S). split; [exact L|]. intros k Hk. rewrite (still_truth c T' T k H). apply S, Hk. Qed.

Section Predict.
Variable c : course.
Hypothesis Hc : possible c.

Lemma motion_truth x t d x' : same_state x (course_at c t) -> motion_step x d x' -> same_state x' (course_at c (t + d)).
Proof.
  intros S (M1 & M2 & M3 & M4 & M5 & M6 & M7). destruct Hc as (C0 & HC).
  assert (V : forall k, (k < 15)%nat -> ~ angular k -> x k = course_at c t k) by (intros k Hk Hn; apply S; assumption).
  assert (A : forall k, (k < 15)%nat -> angular k -> same_angle (x k) (course_at c t k)) by (intros k Hk Hn; apply S; assumption).
  unfold angular in *.
  pose proof (V 6%nat ltac:(lia) ltac:(lia)) as V6. pose proof (V 7%nat ltac:(lia) ltac:(lia)) as V7. pose proof (V 8%nat ltac:(lia) ltac:(lia)) as V8.
  pose proof (V 9%nat ltac:(lia) ltac:(lia)) as V9. pose proof (V 10%nat ltac:(lia) ltac:(lia)) as V10. pose proof (V 11%nat ltac:(lia) ltac:(lia)) as V11.
  pose proof (V 12%nat ltac:(lia) ltac:(lia)) as V12. pose proof (V 13%nat ltac:(lia) ltac:(lia)) as V13. pose proof (V 14%nat ltac:(lia) ltac:(lia)) as V14.
  pose proof (A 3%nat ltac:(lia) ltac:(lia)) as A3. pose proof (A 4%nat ltac:(lia) ltac:(lia)) as A4. pose proof (A 5%nat ltac:(lia) ltac:(lia)) as A5.
  cbn [course_at] in *.
  destruct (same_angle_trig _ _ A3) as (C3 & S3). destruct (same_angle_trig _ _ A4) as (C4 & S4). destruct (same_angle_trig _ _ A5) as (C5 & S5).
  assert (P : forall k, (k < 3)%nat -> x' k = course_at c (t + d) k).
  { intros k Hk. rewrite (M1 k Hk). unfold next_position. rewrite (V k ltac:(lia) ltac:(lia)).
    assert (E : course_at c (t + d) k = course_at c t k +
      rsum 3 (fun l => Rrpy (co_attitude c 0%nat) (co_attitude c 1%nat) (co_attitude c 2%nat) k l *
        ((co_velocity c l + co_acceleration c l * t) * d + / 2 * co_acceleration c l * (d * d)))).
    { destruct k as [|[|[|k]]]; [| | |lia]; cbn [course_at rsum]; field. }
    rewrite E. f_equal. destruct HC as [R0|(L0 & L1 & L2)].
    - apply rsum_ext. intros l Hl. rewrite R0, Rmult_0_l, Rplus_0_r in C5, S5.
      assert (ER : Rrpy (x 3%nat) (x 4%nat) (x 5%nat) k l = Rrpy (co_attitude c 0%nat) (co_attitude c 1%nat) (co_attitude c 2%nat) k l).
      { unfold Rrpy, Rz, Ry, Rx. rewrite C3, S3, C4, S4, C5, S5. reflexivity. }
      rewrite ER. f_equal. destruct l as [|[|[|l]]]; [| | |lia]; cbn [Nat.add]; rewrite ?V6, ?V7, ?V8, ?V12, ?V13, ?V14; ring.
    - assert (Z : forall l, (l < 3)%nat -> x (6 + l)%nat = 0 /\ x (12 + l)%nat = 0).
      { intros l Hl. destruct (L2 0%nat ltac:(lia)) as (v0 & a0). destruct (L2 1%nat ltac:(lia)) as (v1 & a1). destruct (L2 2%nat ltac:(lia)) as (v2 & a2).
        destruct l as [|[|[|l]]]; [| | |lia]; cbn [Nat.add]; rewrite ?V6, ?V7, ?V8, ?V12, ?V13, ?V14, ?v0, ?v1, ?v2, ?a0, ?a1, ?a2; split; ring. }
      apply rsum_ext. intros l Hl. destruct (Z l Hl) as (-> & ->). destruct (L2 l Hl) as (-> & ->). ring. }
  assert (Q : roll_rate x = 0 /\ pitch_rate x = 0 /\ yaw_rate x = co_rate c).
  { unfold roll_rate, pitch_rate, yaw_rate. rewrite V9, V10, V11, S3, C3, S4, C4. destruct HC as [R0|(L0 & L1 & L2)].
    - rewrite R0. repeat split; ring.
    - rewrite L0, L1, sin_0, cos_0. repeat split; field. }
  destruct Q as (Q1 & Q2 & Q3). rewrite Q1, Q2, Q3 in *.
  intros k Hk. split; intros H.
  - destruct H as [->|[->| ->]]; cbn [course_at].
    + apply same_angle_trans with (x 3%nat + 0 * d); [apply wrapped_same, M2|]. rewrite Rmult_0_l, Rplus_0_r. exact A3.
    + apply same_angle_trans with (x 4%nat + 0 * d); [apply wrapped_same, M3|]. rewrite Rmult_0_l, Rplus_0_r. exact A4.
    + apply same_angle_trans with (x 5%nat + co_rate c * d); [apply wrapped_same, M4|].
      replace (co_attitude c 2%nat + co_rate c * (t + d)) with (co_attitude c 2%nat + co_rate c * t + co_rate c * d) by ring.
      apply same_angle_plus; [exact A5|reflexivity].
  - destruct (Nat.lt_ge_cases k 3) as [L|L]; [apply P; exact L|].
    do 3 (destruct k as [|k]; [lia|]). do 3 (destruct k as [|k]; [exfalso; apply H; unfold angular; lia|]).
    destruct k as [|[|[|[|[|[|[|[|[|k]]]]]]]]]; [| | | | | | | | |lia]; cbn [course_at].
    + pose proof (M5 0%nat ltac:(lia)) as M. cbn [Nat.add] in M. rewrite M, V6, V12. ring.
    + pose proof (M5 1%nat ltac:(lia)) as M. cbn [Nat.add] in M. rewrite M, V7, V13. ring.
    + pose proof (M5 2%nat ltac:(lia)) as M. cbn [Nat.add] in M. rewrite M, V8, V14. ring.
    + pose proof (M6 0%nat ltac:(lia)) as M. cbn [Nat.add] in M. rewrite M. exact V9.
    + pose proof (M6 1%nat ltac:(lia)) as M. cbn [Nat.add] in M. rewrite M. exact V10.
    + pose proof (M6 2%nat ltac:(lia)) as M. cbn [Nat.add] in M. rewrite M. exact V11.
    + pose proof (M7 0%nat ltac:(lia)) as M. cbn [Nat.add] in M. rewrite M. exact V12.
    + pose proof (M7 1%nat ltac:(lia)) as M. cbn [Nat.add] in M. rewrite M. exact V13.
    + pose proof (M7 2%nat ltac:(lia)) as M. cbn [Nat.add] in M. rewrite M. exact V14.
Qed.

(** The filter itself: no control. *)
Definition free (f : ekf RScalar) : Prop := tf_inv f /\ fb_use_control f = false.
Lemma predict_truth (f : ekf RScalar) r d T : free f -> same_state (fb_state f) (truth c T) ->
  same_state (fb_state (ekf_predict f r d)) (truth c (T + d)).
Proof.
  intros (I & U) S. unfold truth. rewrite plus_IZR.
  replace ((IZR T + IZR d) / 1000000000) with (IZR T / 1000000000 + IZR d / 1000000000) by (unfold Rdiv; ring).
  apply (motion_truth (fb_state f)); [exact S|]. apply ekf_predict_motion_free; assumption.
Qed.
End Predict.

(** ** Correction, with any gain *)
Lemma same_wrap k u v : same_value k u v -> is_angle k = true -> @normalize_angle RScalar (u - v) = 0.
Proof.
  intros (A & _) H. apply angular_is in H. destruct (A H) as (z & ->).
  assert (E : same_angle (v + IZR z * (2 * PI) - v) 0) by (exists z; ring).
  rewrite (same_angle_wrap _ _ E). apply normalize_angle_id. pose proof PI_RGT_0. lra.
Qed.
Lemma same_value_sym k u v : same_value k u v -> same_value k v u.
Proof. intros (A & B). split; intros H; [apply same_angle_sym; auto|symmetry; auto]. Qed.
Lemma wrap_state k (x : rvec) y : same_state x y -> (k < 15)%nat -> same_value k (@wrap_angles RScalar x k) (y k).
Proof.
  intros S Hk. apply same_value_trans with (x k); [|apply S; exact Hk]. rewrite wrap_angles_entry.
  destruct (is_angle k) eqn:E; [|apply same_value_refl]. split; intros H; [apply wrap_same_angle|].
  exfalso. apply H, angular_is, E.
Qed.
Lemma innovation_zero (x y : rvec) (m : meas RScalar) : truthful m y -> same_state x y ->
  forall a, (a < length (update_indices m))%nat ->
  @wrap_subset RScalar (update_indices m) (@vsub RScalar (@meas_subset RScalar (update_indices m) m) (@state_subset RScalar (update_indices m) x)) a = 0.
Proof.
  intros (L & T) S a Ha. pose proof (innov_model m L x a) as I. rewrite (selected_update_indices m L) in *. specialize (I Ha). cbv zeta in I.
  set (i := nth a (selected m) 0%nat) in *.
  assert (Hi : (i < 15)%nat /\ nth i (m_upd m) false = true).
  { pose proof (nth_In (selected m) 0%nat Ha) as Hin. unfold selected in Hin at 2. apply filter_In in Hin. destruct Hin as (Hin & F).
    apply in_seq in Hin. split; [unfold i; lia|exact F]. }
  destruct Hi as (Hi & F).
  assert (V : same_value i (m_value m i) (x i)) by (apply same_value_trans with (y i); [apply T, F|apply same_value_sym, S, Hi]).
  destruct (angular_dec i) as [An|An].
  - destruct I as (I & _). specialize (I An). destruct (proj1 V An) as (z & Ez).
    eapply wrapped_unique; [exact I|]. split; [pose proof PI_RGT_0; lra|]. exists (- z)%Z. rewrite Ez, opp_IZR. ring.
  - destruct I as (_ & I). etransitivity; [exact (I An)|]. rewrite (proj2 V An). apply Rminus_diag_eq. reflexivity.
Qed.
Lemma correct_truth eig (f : ekf RScalar) m y : truthful m y -> same_state (fb_state f) y ->
  same_state (fb_state (ekf_correct eig f m)) y.
Proof.
  intros T S. pose proof (innovation_zero (fb_state f) y m T S) as Z. unfold ekf_correct, ekf_compute_update. cbn [u_n u_innov u_Sinv u_K u_H u_R].
  set (nu := wrap_subset _ _) in *. clearbody nu. set (G := mmul _ _ (e_inv _ _ _)). clearbody G.
  destruct (checkMahalanobisThreshold _ _ _ _); [|exact S].
  unfold wrapStateAngles. cbn [fb_state set_state set_P]. intros k Hk. apply (wrap_state k _ y); [|exact Hk].
  intros j Hj. apply same_value_trans with (fb_state f j); [|apply S; exact Hj].
  assert (E : @vadd RScalar (fb_state f) (@mvmul RScalar (length (update_indices m)) G nu) j = fb_state f j).
  { unfold vadd. toR. unfold rmv. rewrite rsum_zero; [apply Rplus_0_r|]. intros a Ha. rewrite (Z a Ha). ring. }
  rewrite E. apply same_value_refl.
Qed.

(** ** Processing a measurement *)
Section Runs.
Variable c : course.
Hypothesis Hc : possible c.
Variable eig : Eigen RScalar.
Local Notation vt := (ekf_vtbl eig).

Lemma init_truth (f : ekf RScalar) m t y : truthful m y -> completes (fb_state f) m y ->
  same_state (fb_state (set_last_time (init_from f m) t)) y.
Proof.
  intros (L & T) C k Hk. rewrite init_from_state. rewrite L. apply Nat.ltb_lt in Hk as Hb. rewrite Hb. cbn [andb].
  destruct (nth k (m_upd m) false) eqn:E; [apply T; exact E|apply C; assumption].
Qed.

Lemma free_pred (f : ekf RScalar) r d : free f -> free (ekf_predict f r d).
Proof.
  intros (I & U). split; [apply ekf_tf_pred, I|]. destruct (predict_other f r d) as (_ & E & _). exact (eq_trans E U).
Qed.
Lemma free_corr (f : ekf RScalar) m : free f -> free (ekf_correct eig f m).
Proof.
  intros (I & U). split; [apply ekf_tf_corr, I|]. destruct (correct_other eig f m) as (_ & E & _). exact (eq_trans E U).
Qed.
Lemma free_predicted (p : ekf RScalar) x : free p -> free (set_predicted p x).
Proof. intros H. exact H. Qed.
Lemma free_last (p : ekf RScalar) t : free p -> free (set_last_time p t).
Proof. intros H. exact H. Qed.
Lemma state_predicted (p : ekf RScalar) x : fb_state (set_predicted p x) = fb_state p.
Proof. reflexivity. Qed.
Lemma state_last (p : ekf RScalar) t : fb_state (set_last_time p t) = fb_state p.
Proof. reflexivity. Qed.
Lemma init_predicted (p : ekf RScalar) x : fb_initialized (set_predicted p x) = fb_initialized p.
Proof. reflexivity. Qed.
Lemma init_last (p : ekf RScalar) t : fb_initialized (set_last_time p t) = fb_initialized p.
Proof. reflexivity. Qed.
Lemma free_process (f : ekf RScalar) m : free f -> free (processMeasurement vt f m).
Proof.
  intros H. unfold processMeasurement. destruct (fb_initialized f); [|exact H]. cbv zeta.
  match goal with |- context [v_correct vt ?x m] => set (s1 := x) end.
  assert (H1 : free s1).
  { unfold s1. destruct (Z.gtb _ _); [|exact H]. apply free_predicted. exact (free_pred f (m_time m) (m_time m - fb_last_time f) H). }
  clearbody s1. pose proof (free_corr s1 m H1) as H2. change (v_correct vt s1 m) with (ekf_correct eig s1 m).
  destruct (Z.geb _ _); [apply free_last|]; exact H2.
Qed.
Lemma process_truth (f : ekf RScalar) m T : free f -> fb_initialized f = true -> same_state (fb_state f) (truth c T) ->
  still c \/ fb_last_time f = T /\ (T <= m_time m)%Z -> truthful m (truth c (m_time m)) ->
  same_state (fb_state (processMeasurement vt f m)) (truth c (m_time m)).
Proof.
  intros H I S O Tm. unfold processMeasurement. rewrite I. cbv zeta.
  match goal with |- context [v_correct vt ?x m] => set (s1 := x) end.
  assert (H1 : same_state (fb_state s1) (truth c (m_time m))).
  { unfold s1. destruct (Z.gtb_spec (m_time m - fb_last_time f) 0) as [G|G].
    - rewrite state_predicted. pose proof (predict_truth c Hc f (m_time m) (m_time m - fb_last_time f) T H S) as P.
      destruct O as [O|(L & O)]; [exact (same_still c _ _ _ O P)|].
      replace (T + (m_time m - fb_last_time f))%Z with (m_time m) in P by lia. exact P.
    - destruct O as [O|(L & O)]; [exact (same_still c _ _ _ O S)|]. replace (m_time m) with T by lia. exact S. }
  clearbody s1. pose proof (correct_truth eig s1 m _ Tm H1) as H2. change (v_correct vt s1 m) with (ekf_correct eig s1 m).
  destruct (Z.geb _ _); [rewrite state_last|]; exact H2.
Qed.
Lemma process_init (f : ekf RScalar) m : fb_initialized (processMeasurement vt f m) = true.
Proof.
  unfold processMeasurement. destruct (fb_initialized f) eqn:I; [|reflexivity]. cbv zeta.
  match goal with |- context [v_correct vt ?x m] => set (s1 := x) end.
  assert (H1 : fb_initialized s1 = true).
  { unfold s1. destruct (Z.gtb _ _); [|exact I]. rewrite init_predicted. destruct (predict_other f (m_time m) (m_time m - fb_last_time f)) as (E & _). exact (eq_trans E I). }
  clearbody s1. destruct (correct_other eig s1 m) as (E & _). change (v_correct vt s1 m) with (ekf_correct eig s1 m).
  destruct (Z.geb _ _); [rewrite init_last|]; exact (eq_trans E H1).
Qed.

Lemma process_last (f : ekf RScalar) m : (fb_initialized f = true -> (fb_last_time f <= m_time m)%Z) ->
  fb_last_time (processMeasurement vt f m) = m_time m.
Proof.
  intros O. unfold processMeasurement. destruct (fb_initialized f) eqn:I; [|reflexivity]. cbv zeta. specialize (O eq_refl).
  destruct (Z.geb_spec (m_time m - fb_last_time f) 0) as [G|G]; [reflexivity|lia].
Qed.

Definition knows (f : ekf RScalar) (T : Z) : Prop :=
  free f /\ (fb_initialized f = true -> same_state (fb_state f) (truth c T)).
Lemma told_step (f : ekf RScalar) T o : knows f T -> told_op c f T o -> knows (fb_exec vt f o) (time_of_estimate T o).
Proof.
  intros (H & S) O. destruct o; cbn [told_op time_of_estimate] in *.
  - split; [exact (free_pred f reference_time delta H)|]. intros _. exact (predict_truth c Hc f reference_time delta T H (S O)).
  - destruct O as (Tm & I). split; [exact (free_corr f m H)|]. intros _. exact (correct_truth eig f m _ Tm (S I)).
  - destruct O as (Tm & A & B). split; [exact (free_process f m H)|]. intros _. destruct (fb_initialized f) eqn:I.
    + exact (process_truth f m T H I (S eq_refl) (A eq_refl) Tm).
    + cbn [fb_exec]. unfold processMeasurement. rewrite I. exact (init_truth f m _ _ Tm (B eq_refl)).
  - split; [exact H|exact S].
  - destruct O.
  - split; [exact H|exact S].
  - split; [exact H|exact S].
  - split; [exact H|exact S].
  - split; [exact H|exact S].
  - split; [exact H|exact S].
  - split; [exact H|]. exact O.
  - split; [|discriminate]. destruct H as (I & U). split; [exact (tf_inv_exec vt (ekf_tf_pred (K := RScalar)) (ekf_tf_corr eig) f OpReset I)|exact U].
Qed.
Lemma told_run os : forall (f : ekf RScalar) T, knows f T -> told c vt f T os ->
  knows (fb_run vt f os) (fold_left time_of_estimate os T).
Proof.
  induction os as [|o r IH]; intros f T K O; [exact K|]. destruct O as (O & R). cbn [fb_run fold_left].
  exact (IH _ _ (told_step f T o K O) R).
Qed.
Lemma knows_start g T : knows (@fb_init RScalar unit g tt) T.
Proof. split; [split; [apply tf_inv_init|reflexivity]|discriminate]. Qed.
Lemma truth_kept g T os : told c vt (@fb_init RScalar unit g tt) T os ->
  let f := fb_run vt (@fb_init RScalar unit g tt) os in
  fb_initialized f = true -> same_state (fb_state f) (truth c (fold_left time_of_estimate os T)).
Proof. intros O. exact (proj2 (told_run os _ T (knows_start g T) O)). Qed.
End Runs.

(** ** Courses are motions: the velocity, turned into the world frame, is the
    derivative of the position *)
Lemma square_derivative p s a t : derivable_pt_lim (fun u => p + (s * u + / 2 * a * (u * u))) t (s + a * t).
Proof.
  replace (s + a * t) with (0 + (s * 1 + / 2 * a * (1 * t + t * 1))) by field.
  apply derivable_pt_lim_plus; [apply derivable_pt_lim_const|].
  apply derivable_pt_lim_plus; [apply derivable_pt_lim_scal, derivable_pt_lim_id|].
  apply (derivable_pt_lim_scal (fun u => u * u)). apply (derivable_pt_lim_mult id id); apply derivable_pt_lim_id.
Qed.
Lemma limit_ext f g t l l' : (forall u, f u = g u) -> l = l' -> derivable_pt_lim g t l' -> derivable_pt_lim f t l.
Proof. intros E -> H e He. destruct (H e He) as (d & Hd). exists d. intros h H0 H1. rewrite !E. apply Hd; assumption. Qed.
Lemma course_moves c t : possible c ->
  (forall k, (k < 3)%nat -> derivable_pt_lim (fun u => course_at c u k) t
     (rsum 3 (fun l => Rrpy (course_at c t 3%nat) (course_at c t 4%nat) (course_at c t 5%nat) k l * course_at c t (6 + l)%nat))) /\
  derivable_pt_lim (fun u => course_at c u 5%nat) t (course_at c t 11%nat) /\
  (forall l, (l < 3)%nat -> derivable_pt_lim (fun u => course_at c u (6 + l)%nat) t (course_at c t (12 + l)%nat)).
Proof.
  intros (_ & HC). split; [|split].
  - intros k Hk.
    set (M := Rrpy (co_attitude c 0%nat) (co_attitude c 1%nat) (co_attitude c 2%nat) k).
    apply (limit_ext _ (fun u => co_position c k + (rsum 3 (fun l => M l * co_velocity c l) * u + / 2 * rsum 3 (fun l => M l * co_acceleration c l) * (u * u)))
      t _ (rsum 3 (fun l => M l * co_velocity c l) + rsum 3 (fun l => M l * co_acceleration c l) * t)); [| |apply square_derivative].
    + intros u. destruct k as [|[|[|k]]]; [| | |lia]; cbn [course_at rsum]; fold M; ring.
    + cbn [course_at rsum Nat.add]. destruct HC as [R0|(L0 & L1 & L2)].
      * rewrite R0, Rmult_0_l, Rplus_0_r. fold M. ring.
      * destruct (L2 0%nat ltac:(lia)) as (-> & ->). destruct (L2 1%nat ltac:(lia)) as (-> & ->). destruct (L2 2%nat ltac:(lia)) as (-> & ->). ring.
  - apply (limit_ext _ (fun u => co_attitude c 2%nat + (co_rate c * u + / 2 * 0 * (u * u))) t _ (co_rate c + 0 * t)); [| |apply square_derivative]; intros; cbn [course_at]; ring.
  - intros l Hl. apply (limit_ext _ (fun u => co_velocity c l + (co_acceleration c l * u + / 2 * 0 * (u * u))) t _ (co_acceleration c l + 0 * t)); [| |apply square_derivative];
      intros; destruct l as [|[|[|l]]]; try lia; cbn [course_at Nat.add]; ring.
Qed.
