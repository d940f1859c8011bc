(** * The listener's service (C92) *)

From Coq Require Import Reals ZArith List Bool Arith String Lia Lra.
From Verif Require Import EstimatorFilter Scalar Mat FilterBase Tf RosFilter RosPrepare Estimator Listener Ekf Ukf SpecLin SpecTf SpecNode SpecEstimator SpecListener SpecService
  RLin RBridge EkfFacts UkfProofs Angles EstimatorProofs ListenerProofs ListenerQuery ListenerGoals.
Import ListNotations.

Lemma column_index i j : (i < 15)%nat -> ((i + 15 * j) mod 15 = i /\ (i + 15 * j) / 15 = j)%nat.
Proof.
  intros H. split.
  - rewrite Nat.mul_comm, Nat.mod_add by lia. apply Nat.mod_small, H.
  - rewrite Nat.mul_comm, Nat.div_add by lia. rewrite Nat.div_small by exact H. reflexivity.
Qed.

Section Any.
Context {K : Scalar} {E : Type} (vt : vtbl K E).
Implicit Types (l : listener K E).

Lemma service_answers env now stamp frame l c s P l' c' :
  listener_getState_ros vt env now stamp frame "" l c = Returned (true, s, P, l', c') ->
  exists a, getStateCallback vt env now stamp frame l c = Returned (s, a, l', c') /\ by_columns P a.
Proof.
  intros H. unfold getStateCallback. rewrite H. cbn [bind]. eexists. split; [reflexivity|].
  intros i j Hi Hj. cbv beta. destruct (column_index i j Hi) as (-> & ->). reflexivity.
Qed.
Lemma service_fails env now stamp frame l c s P l' c' :
  listener_getState_ros vt env now stamp frame "" l c = Returned (false, s, P, l', c') ->
  getStateCallback vt env now stamp frame l c = Returned (fun _ => s_ofZ 0, fun _ => s_ofZ 0, l', c').
Proof. intros H. unfold getStateCallback. rewrite H. reflexivity. Qed.
Lemma service_undefined env now stamp frame l c :
  getStateCallback vt env now stamp frame l c = Undefined <-> listener_getState_ros vt env now stamp frame "" l c = Undefined.
Proof.
  unfold getStateCallback. destruct (listener_getState_ros vt env now stamp frame "" l c) as [|a]; [|destruct a as [[[[[|] s] P] l'] c']]; cbn [bind];
    split; intros H; try discriminate H; reflexivity.
Qed.
Lemma columns_are_rows (P : mat K) a : symmetric P -> by_columns P a -> by_rows P a.
Proof. intros S H i j Hi Hj. replace (15 * i + j)%nat with (j + 15 * i)%nat by lia. rewrite (H j i Hj Hi). apply S; assumption. Qed.
Lemma rows_are_symmetric (P : mat K) a : by_columns P a -> (by_rows P a <-> symmetric P).
Proof.
  intros H. split; [|intros S; apply columns_are_rows; assumption]. intros R i j Hi Hj.
  rewrite <- (R i j Hi Hj). replace (15 * i + j)%nat with (j + 15 * i)%nat by lia. apply H; assumption.
Qed.

(** ** Symmetry is kept *)
Lemma stored_symmetric (m : pair_msg (K := K)) s : symmetric_pair m -> stores m s -> symmetric (es_cov s).
Proof.
  intros (A & B & C) (_ & _ & _ & _ & _ & H) i j Hi Hj. rewrite (H i j Hi Hj), (H j i Hj Hi).
  assert (X : forall o n, block_of j i o n = block_of i j o n).
  { intros o n. unfold block_of. destruct (Nat.leb o i), (Nat.ltb i (o + n)), (Nat.leb o j), (Nat.ltb j (o + n)); reflexivity. }
  rewrite !X. clear X. destruct (block_of i j 0 6) eqn:E0.
  { unfold block_of in E0. rewrite !andb_true_iff, !Nat.ltb_lt, !Nat.leb_le in E0. apply A; lia. }
  destruct (block_of i j 6 6) eqn:E1.
  { unfold block_of in E1. rewrite !andb_true_iff, !Nat.ltb_lt, !Nat.leb_le in E1. apply B; lia. }
  destruct (block_of i j 12 3) eqn:E2; [|reflexivity].
  unfold block_of in E2. rewrite !andb_true_iff, !Nat.ltb_lt, !Nat.leb_le in E2. apply C; lia.
Qed.
Definition even_estimator (e : estimator K E) : Prop := Forall (fun s => symmetric (es_cov s)) (e_buf e) /\ plain_filter (e_filter e).
Context (PS : predicts_symmetric vt).
Lemma extrapolate_symmetric (f : fb K E) p t : plain_filter f -> symmetric (es_cov p) ->
  symmetric (es_cov (snd (est_extrapolate vt f p t))) /\ plain_filter (fst (est_extrapolate vt f p t)).
Proof. intros Hf Hp. unfold est_extrapolate. cbn [fst snd es_cov]. apply PS; [exact Hf|exact Hp]. Qed.
Lemma scan_in (t : K) rl : forall nx, match est_scan t rl nx with
  | ScanExact s => In s rl
  | ScanDone p n => (forall s, p = Some s -> In s rl) /\ (forall s, n = Some s -> In s rl \/ nx = Some s)
  end.
Proof.
  induction rl as [|s r IH]; intros nx; cbn [est_scan].
  - split; [discriminate|auto].
  - destruct (s_eqb (es_time s) t); [left; reflexivity|]. destruct (s_leb (es_time s) t).
    + split; [intros x h; injection h as <-; left; reflexivity|auto].
    + specialize (IH (Some s)). destruct (est_scan t r (Some s)) as [x|p n]; [right; exact IH|]. destruct IH as (I1 & I2). split.
      * intros x h. right. apply I1, h.
      * intros x h. left. destruct (I2 x h) as [h1|h1]; [right; exact h1|injection h1 as <-; left; reflexivity].
Qed.
Lemma back_in (a : est_state K) r : In (back a r) (a :: r).
Proof. revert a. induction r as [|b r IH]; intros a; [left; reflexivity|]. right. apply IH. Qed.
Lemma query_symmetric (e : estimator K E) t out : even_estimator e -> symmetric (es_cov out) ->
  symmetric (es_cov (snd (fst (est_getState vt e t out)))) /\ even_estimator (snd (est_getState vt e t out)).
Proof.
  intros (HB & HF) HO. unfold est_getState. destruct (e_buf e) as [|a r] eqn:Eb.
  { cbn [fst snd]. split; [exact HO|]. split; [rewrite Eb; exact HB|exact HF]. }
  rewrite Forall_forall in HB. assert (HR : forall s, In s (rev (a :: r)) -> symmetric (es_cov s)) by (intros s h; apply HB; apply in_rev; exact h).
  pose proof (scan_in t (rev (a :: r)) None) as SI. destruct (est_scan t (rev (a :: r)) None) as [s|p n].
  { cbn [fst snd]. split; [apply HR, SI|]. split; [rewrite Eb; apply Forall_forall; exact HB|exact HF]. }
  destruct SI as (S1 & S2).
  assert (G : forall b, In b (rev (a :: r)) -> forall code, let '(f, s) := est_extrapolate vt (e_filter e) b t in
    symmetric (es_cov (snd (fst (code : est_result, s, mkEstimator (a :: r) (e_cap e) f)))) /\
    even_estimator (snd (code, s, mkEstimator (a :: r) (e_cap e) f))).
  { intros b Hb code. pose proof (extrapolate_symmetric (e_filter e) b t HF (HR b Hb)) as (X1 & X2).
    destruct (est_extrapolate vt (e_filter e) b t) as [f s]. cbn [fst snd] in *. split; [exact X1|]. split; [apply Forall_forall; exact HB|exact X2]. }
  destruct p as [p|].
  - pose proof (G p (S1 p eq_refl)) as G1. destruct n as [n|].
    + specialize (G1 Interpolation). destruct (est_extrapolate vt (e_filter e) p t) as [f s]. exact G1.
    + specialize (G1 ExtrapolationIntoFuture). destruct (est_extrapolate vt (e_filter e) p t) as [f s]. exact G1.
  - destruct n as [n|].
    + destruct (S2 n eq_refl) as [h|h]; [|discriminate h]. pose proof (G n h ExtrapolationIntoPast) as G1.
      destruct (est_extrapolate vt (e_filter e) n t) as [f s]. exact G1.
    + cbn [fst snd]. split; [apply HB, back_in|]. split; [rewrite Eb; apply Forall_forall; exact HB|exact HF].
Qed.
End Any.

(** ** Over the reals *)
Lemma sandwich_symmetric (n k : nat) (G P : rmat) : (forall i j, (i < k)%nat -> (j < k)%nat -> P i j = P j i) ->
  forall i j, rmul k (rmul k G P) (rT G) i j = rmul k (rmul k G P) (rT G) j i.
Proof.
  intros Hs i j. unfold rmul, rT. transitivity (rsum k (fun l => rsum k (fun m => G i m * P m l * G j l)))%R.
  { apply rsum_ext. intros. rewrite <- rsum_scal_r. reflexivity. }
  rewrite rsum_swap. apply rsum_ext. intros a Ha. rewrite <- rsum_scal_r. apply rsum_ext. intros b Hb. rewrite (Hs a b) by assumption. ring.
Qed.
Lemma ekf_predicts_symmetric eig : predicts_symmetric (@ekf_vtbl RScalar eig).
Proof.
  intros f r d (HQ & HD) HP. cbn [ekf_vtbl v_predict]. split.
  - rewrite predict_P. unfold noise_used. rewrite HD. intros i j Hi Hj. unfold madd, mscale.
    rewrite (HQ i j Hi Hj). f_equal. apply (sandwich_symmetric 15 15). exact HP.
  - pose proof (predict_other f r d) as H. cbv zeta in H. split.
    + replace (fb_Q (ekf_predict f r d)) with (fb_Q f) by (symmetry; tauto). exact HQ.
    + replace (fb_use_dyn (ekf_predict f r d)) with (fb_use_dyn f) by (symmetry; tauto). exact HD.
Qed.
Lemma ukf_predicts_symmetric eig : predicts_symmetric (@ukf_vtbl RScalar eig).
Proof.
  intros f r d (HQ & HD) HP. cbn [ukf_vtbl v_predict]. split.
  - destruct (ukf_predict_state_P eig f r d) as [_ E]. rewrite E, HD. clear E. intros i j Hi Hj. unfold madd, mscale.
    rewrite (HQ i j Hi Hj). f_equal. unfold sigma_cov. change (@sumn RScalar) with rsum. apply rsum_ext. intros l Hl. unfold outer.
    change (s_mul (s := RScalar)) with Rmult. ring.
  - destruct (ukf_predict_keeps eig f r d) as (_ & _ & EQ & _). split; [rewrite EQ; exact HQ|].
    unfold ukf_predict. destruct (project_all _ _ _ _) as [F sg].
    destruct f as [i u dy a b c e g h k l m n o p q r' s t v w x]. cbn in HD. subst. reflexivity.
Qed.

Section Reals.
Context {E : Type} (vt : vtbl RScalar E) (PS : predicts_symmetric vt).
Lemma target_symmetric (env : lenv RScalar) target (P : rmat) : symmetric (K := RScalar) P -> symmetric (K := RScalar) (target_cov env target P).
Proof.
  intros H i j Hi Hj. unfold target_cov, set_block. cbn [Nat.leb andb Nat.add].
  destruct (Nat.ltb_spec i 6) as [Ai|Ai], (Nat.ltb_spec j 6) as [Aj|Aj]; cbn [andb]; try reflexivity.
  rewrite !Nat.sub_0_r. unfold rotateCov. apply (sandwich_symmetric 6 6). intros a b Ha Hb. apply H; lia.
Qed.
Lemma zero_symmetric : symmetric (K := RScalar) mzero.
Proof. intros i j _ _. reflexivity. Qed.
Lemma answer_symmetric env t f w (l l' : listener RScalar E) c c' b s P e : l_est l = Some e -> even_estimator e ->
  listener_getState vt env t f w l c = Returned (b, s, P, l', c') -> symmetric P /\ exists e', l_est l' = Some e' /\ even_estimator e'.
Proof.
  intros He HE. unfold listener_getState. rewrite He. destruct (_ || _)%bool.
  { intros h. injection h as <- <- <- <- <-. split; [apply zero_symmetric|]. exists e. auto. }
  pose proof (query_symmetric vt PS e t (mkEst (s_ofZ 0) vzero mzero) HE zero_symmetric) as Q.
  destruct (est_getState vt e t _) as [[code x] e'] eqn:Eq. cbn [fst snd] in Q. destruct Q as (Q1 & Q2). cbv zeta.
  assert (KEEP : forall l2, mkListener (l_base l) (l_world l) (Some e') = l2 -> exists e0, l_est l2 = Some e0 /\ even_estimator e0).
  { intros l2 <-. exists e'. auto. }
  destruct (_ && _)%bool; [intros h; injection h as _ _ <- h _; auto|].
  intros h. apply bind_returned in h. destruct h as ([[wt|] c1] & _ & h).
  - apply bind_returned in h. destruct h as (n & _ & h). destruct (q_buffer env (l_base l) f n) as [[o q]|].
    + apply bind_returned in h. destruct h as ([[|] c2] & _ & h); cbn [fst snd] in h; injection h as _ _ <- h _; (split; [|apply KEEP, h]).
      * apply target_symmetric, Q1.
      * apply zero_symmetric.
    + injection h as _ _ <- h _. split; [apply zero_symmetric|apply KEEP, h].
  - injection h as _ _ <- h _. split; [apply zero_symmetric|apply KEEP, h].
Qed.
Lemma run_even evs : forall (x y : listener RScalar E * anc_cache) e, l_est (fst x) = Some e -> even_estimator e ->
  Forall symmetric_pair (heard evs) -> listener_run vt evs x = Returned y -> exists e', l_est (fst y) = Some e' /\ even_estimator e'.
Proof.
  induction evs as [|[o a|env t f w] r IH]; intros [l c] y e He HE HS R; cbn [listener_run heard] in *.
  - injection R as <-. exists e. auto.
  - inversion HS as [|? ? H1 H2]; subst. cbn [listener_step fst snd] in R. apply bind_returned in R. destruct R as (x' & S & R).
    apply bind_returned in S. destruct S as (l' & S & Q). injection Q as <-. unfold odomAndAccelCallback in S. cbn [fst] in He. rewrite He in S. injection S as <-.
    refine (IH _ y (est_setState e (listener_state o a)) _ _ H2 R); [reflexivity|]. destruct HE as (HB & HF). split; [|exact HF]. rewrite Forall_forall in *. intros s Hs.
    apply insert_in in Hs. destruct Hs as [->|Hs]; [|apply HB, Hs]. apply (stored_symmetric (o, a)); [exact H1|apply state_stores].
  - cbn [listener_step fst snd] in R. apply bind_returned in R. destruct R as (x' & S & R). apply bind_returned in S.
    destruct S as ([[[[b v] m] l'] c'] & S & Q). injection Q as <-.
    destruct (answer_symmetric _ _ _ _ _ _ _ _ _ _ _ _ He HE S) as (_ & e' & He' & HE'). exact (IH (l', c') y e' He' HE' HS R).
Qed.

(** Symmetric covariances in, process noise symmetric: answered by rows. *)
Theorem service_rows cap (filter : fb RScalar E) reparse q l0 c0 evs l c env now stamp frame s P l' c' :
  listener_construct cap (Some filter) reparse q = Returned l0 -> fb_use_dyn filter = false ->
  (forall i j, (i < 15)%nat -> (j < 15)%nat -> nth (15 * i + j) q 0%R = nth (15 * j + i) q 0%R) ->
  Forall symmetric_pair (heard evs) -> listener_run vt evs (l0, c0) = Returned (l, c) ->
  listener_getState_ros vt env now stamp frame "" l c = Returned (true, s, P, l', c') ->
  exists a, getStateCallback vt env now stamp frame l c = Returned (s, a, l', c') /\ by_rows P a.
Proof.
  intros C HD HQ HS R G. destruct (service_answers vt env now stamp frame l c s P l' c' G) as (a & A1 & A2).
  exists a. split; [exact A1|]. apply columns_are_rows; [|exact A2].
  unfold listener_construct in C. destruct (Nat.ltb _ _); [discriminate C|]. assert (HL : l0 = mkListener "" "" (est_construct cap (Some filter) (fun i j => reparse (nth (15 * i + j) q 0%R)))).
  { match type of C with Returned ?x = Returned ?y => assert (X : forall u v : listener RScalar E, Returned u = Returned v -> v = u) by (intros u v h; injection h as ->; reflexivity); exact (X x y C) end. }
  subst l0. destruct (run_even evs (mkListener "" "" (est_construct cap (Some filter) (fun i j => reparse (nth (15 * i + j) q 0%R))), c0) (l, c) _ eq_refl) as (e & He & HE).
  - split; [constructor|]. split; [|exact HD]. intros i j Hi Hj. cbn [e_filter setProcessNoiseCovariance fb_Q set_dynQ set_Q]. rewrite (HQ i j Hi Hj). reflexivity.
  - exact HS.
  - exact R.
  - exact (proj1 (answer_symmetric _ _ _ _ _ _ _ _ _ _ _ _ He HE G)).
Qed.
End Reals.
