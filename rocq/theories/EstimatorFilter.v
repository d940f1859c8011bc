(** * Queries and the embedded filter (C24, C25) *)

From Coq Require Import Reals ZArith List Bool Arith Sorted Lra Lia FunctionalExtensionality.
From Verif Require Import Scalar Mat FilterBase FilterOps Ekf Ukf Estimator SpecEstimator
  SpecLin SpecFilter SpecMotion RLin RBridge EkfFacts EkfPsd Angles Motion UkfProofs FilterExtra EstimatorProofs FloatOrder.
Import ListNotations.

(** The transfer function forgets the persistent matrix. *)
Lemma transfer_forget {K : Scalar} (F F' : mat K) x dt :
  F_ok F -> F_ok F' -> ekf_transfer F x dt = ekf_transfer F' x dt.
Proof.
  intros H H'. apply functional_extensionality; intros i. apply functional_extensionality; intros j.
  destruct (assigned i j) eqn:Eij.
  - do 9 (destruct i as [|i];
      [do 15 (destruct j as [|j]; [try discriminate Eij; reflexivity|]); discriminate Eij|]).
    discriminate Eij.
  - rewrite (transfer_F_ok F x dt H i j Eij), (transfer_F_ok F' x dt H' i j Eij). reflexivity.
Qed.

(** ** Independence of earlier queries, for any filter whose prediction only
    depends on what is set before it *)
Section Indep.
Context {K : Scalar} {E : Type} (vt : vtbl K E).
Variable Rf : fb K E -> Prop.
Definition loaded (f : fb K E) (x : vec K) (P : mat K) : fb K E :=
  setEstimateErrorCovariance (setState f x) P.
Hypothesis Rload : forall f x P, Rf f -> Rf (loaded f x P).
Hypothesis Rpred : forall f r d, Rf f -> Rf (v_predict vt f r d).
Hypothesis Rsame : forall f1 f2 x P r d, Rf f1 -> Rf f2 ->
  fb_state (v_predict vt (loaded f1 x P) r d) = fb_state (v_predict vt (loaded f2 x P) r d) /\
  fb_P (v_predict vt (loaded f1 x P) r d) = fb_P (v_predict vt (loaded f2 x P) r d).

Lemma extrapolate_R f p t : Rf f -> Rf (fst (est_extrapolate vt f p t)).
Proof. intros H. apply Rpred, (Rload f (es_state p) (es_cov p)), H. Qed.

Lemma extrapolate_same f1 f2 p t : Rf f1 -> Rf f2 ->
  snd (est_extrapolate vt f1 p t) = snd (est_extrapolate vt f2 p t).
Proof.
  intros H1 H2. unfold est_extrapolate. cbv zeta. cbn [snd].
  destruct (Rsame f1 f2 (es_state p) (es_cov p)
    (s_trunc (es_time p * s_ofZ 1000000000)%sc) (dur_from_seconds (t - es_time p)%sc) H1 H2) as [E1 E2].
  unfold loaded in *. rewrite E1, E2. reflexivity.
Qed.

Lemma getState_R e t o : Rf (e_filter e) -> Rf (e_filter (snd (est_getState vt e t o))).
Proof.
  intros H. unfold est_getState. destruct (e_buf e) as [|a r]; [exact H|].
  destruct (est_scan _ _ _) as [s|[p|] [n|]]; try exact H;
    pose proof (extrapolate_R (e_filter e)) as X.
  - specialize (X p t H). destruct (est_extrapolate vt (e_filter e) p t). exact X.
  - specialize (X p t H). destruct (est_extrapolate vt (e_filter e) p t). exact X.
  - specialize (X n t H). destruct (est_extrapolate vt (e_filter e) n t). exact X.
Qed.

Lemma exec_R e o : Rf (e_filter e) -> Rf (e_filter (est_exec vt e o)).
Proof. intros H. destruct o; cbn [est_exec]; [exact H|apply getState_R, H|exact H|exact H]. Qed.

Lemma run_R ops : forall e, Rf (e_filter e) -> Rf (e_filter (est_run vt e ops)).
Proof. induction ops as [|o r IH]; intros e H; [exact H|]. apply IH, exec_R, H. Qed.

Lemma answer_same e1 e2 t o : Rf (e_filter e1) -> Rf (e_filter e2) -> e_buf e1 = e_buf e2 ->
  fst (est_getState vt e1 t o) = fst (est_getState vt e2 t o).
Proof.
  intros H1 H2 Eb. unfold est_getState. rewrite Eb. destruct (e_buf e2) as [|a r]; [reflexivity|].
  destruct (est_scan _ _ _) as [s|[p|] [n|]]; try reflexivity;
    pose proof (extrapolate_same (e_filter e1) (e_filter e2)) as X.
  - specialize (X p t H1 H2). destruct (est_extrapolate vt (e_filter e1) p t), (est_extrapolate vt (e_filter e2) p t).
    cbn in *. subst. reflexivity.
  - specialize (X p t H1 H2). destruct (est_extrapolate vt (e_filter e1) p t), (est_extrapolate vt (e_filter e2) p t).
    cbn in *. subst. reflexivity.
  - specialize (X n t H1 H2). destruct (est_extrapolate vt (e_filter e1) n t), (est_extrapolate vt (e_filter e2) n t).
    cbn in *. subst. reflexivity.
Qed.
End Indep.

(** ** The two filters *)

(** Settings of a filter that nobody touches after construction. *)
Definition quiet {K E} (Q : mat K) (f : fb K E) : Prop :=
  F_ok (fb_F f) /\ fb_use_control f = false /\ fb_use_dyn f = false /\
  fb_control_upd f = repeat false 6 /\ fb_Q f = Q.

Lemma quiet_init {K E} Q g (x : E) : @quiet K E Q (setProcessNoiseCovariance (fb_init g x) Q).
Proof. split; [apply meye_F_ok|repeat split]. Qed.

Lemma quiet_load {K E} Q (f : fb K E) x P : quiet Q f -> quiet Q (loaded f x P).
Proof. intros H. exact H. Qed.

Lemma ekf_quiet_pred {K} Q (f : ekf K) r d : quiet Q f -> quiet Q (ekf_predict f r d).
Proof.
  intros (H1 & H2 & H3 & H4 & H5). pose proof (predict_other f r d) as Ho. cbv zeta in Ho.
  destruct Ho as (_ & E1 & E0 & _ & _ & _ & _ & _ & _ & _ & _ & E2 & _ & E4 & _ & _ & E3 & _).
  unfold quiet. rewrite E0, E1, E2, E3, E4. repeat split; auto. apply transfer_F_ok, H1.
Qed.

Lemma ekf_quiet_same {K} Q (f1 f2 : ekf K) x P r d : quiet Q f1 -> quiet Q f2 ->
  fb_state (ekf_predict (loaded f1 x P) r d) = fb_state (ekf_predict (loaded f2 x P) r d) /\
  fb_P (ekf_predict (loaded f1 x P) r d) = fb_P (ekf_predict (loaded f2 x P) r d).
Proof.
  intros (A1 & A2 & A3 & A4 & A5) (B1 & B2 & B3 & B4 & B5).
  rewrite !predict_state, !predict_P.
  assert (EF : predict_F (loaded f1 x P) d = predict_F (loaded f2 x P) d)
    by (apply transfer_forget; assumption).
  assert (EJ : predict_J (loaded f1 x P) d = predict_J (loaded f2 x P) d).
  { unfold predict_J. rewrite EF. reflexivity. }
  assert (EA : predict_acc (loaded f1 x P) r = predict_acc (loaded f2 x P) r).
  { unfold predict_acc, prepareControl, set_control_acc. cbn [fb_control_acc].
    change (fb_use_control (loaded f1 x P)) with (fb_use_control f1).
    change (fb_use_control (loaded f2 x P)) with (fb_use_control f2).
    rewrite A2, B2. reflexivity. }
  rewrite EF, EJ, EA.
  change (fb_state (loaded f1 x P)) with x. change (fb_state (loaded f2 x P)) with x.
  change (fb_P (loaded f1 x P)) with P. change (fb_P (loaded f2 x P)) with P.
  change (fb_control_upd (loaded f1 x P)) with (fb_control_upd f1).
  change (fb_control_upd (loaded f2 x P)) with (fb_control_upd f2).
  rewrite A4, B4. split; [reflexivity|].
  unfold noise_used.
  change (fb_use_dyn (loaded f1 x P)) with (fb_use_dyn f1).
  change (fb_use_dyn (loaded f2 x P)) with (fb_use_dyn f2).
  change (fb_Q (loaded f1 x P)) with (fb_Q f1). change (fb_Q (loaded f2 x P)) with (fb_Q f2).
  rewrite A3, B3, A5, B5. reflexivity.
Qed.

(** UKF: additionally the weights and lambda. *)
Definition quiet_u {K} (Q : mat K) (sw cw : vec K) (lambda : K) (f : ukf K) : Prop :=
  quiet Q f /\ u_sw (fb_ext f) = sw /\ u_cw (fb_ext f) = cw /\ u_lambda (fb_ext f) = lambda.

Lemma project_all_forget {K : Scalar} n : forall (F F' : mat K) sg d, F_ok F -> F_ok F' ->
  snd (project_all n F sg d) = snd (project_all n F' sg d).
Proof.
  induction n; intros F F' sg d H H'; cbn [project_all]; [reflexivity|].
  pose proof (project_all_F_ok n F sg d H) as G. pose proof (project_all_F_ok n F' sg d H') as G'.
  specialize (IHn F F' sg d H H').
  destruct (project_all n F sg d) as [F1 sg1], (project_all n F' sg d) as [F2 sg2].
  cbn [fst snd] in *. subst sg2. unfold projectSigmaPoint. cbn [snd].
  rewrite !transfer_same, (transfer_forget F1 F2) by assumption. reflexivity.
Qed.

Lemma ukf_predict_settings {K} eig (s : ukf K) r d :
  fb_use_dyn (ukf_predict eig s r d) = fb_use_dyn s /\ fb_Q (ukf_predict eig s r d) = fb_Q s.
Proof.
  unfold ukf_predict. destruct (project_all _ _ _ _) as [F sg].
  destruct s as [i u dy a b c e f g h k l m n o p q r' s t v w]. destruct dy; split; reflexivity.
Qed.

Lemma ukf_predict_weights {K} eig (s : ukf K) r d :
  u_sw (fb_ext (ukf_predict eig s r d)) = u_sw (fb_ext s) /\
  u_cw (fb_ext (ukf_predict eig s r d)) = u_cw (fb_ext s) /\
  u_lambda (fb_ext (ukf_predict eig s r d)) = u_lambda (fb_ext s).
Proof.
  unfold ukf_predict. destruct (project_all _ _ _ _) as [F sg].
  destruct s as [i u dy a b c e f g h k l m n o p q r' s t v w]. destruct dy; repeat split; reflexivity.
Qed.

Lemma ukf_quiet_pred {K} eig Q sw cw la (f : ukf K) r d :
  quiet_u Q sw cw la f -> quiet_u Q sw cw la (ukf_predict eig f r d).
Proof.
  intros ((H1 & H2 & H3 & H4 & H5) & H6 & H7 & H8).
  destruct (ukf_predict_ctl eig f r d) as [E1 E2]. destruct (ukf_predict_settings eig f r d) as [E3 E4].
  destruct (ukf_predict_weights eig f r d) as (E5 & E6 & E7).
  unfold quiet_u, quiet. rewrite E1, E2, E3, E4, E5, E6, E7, ukf_predict_F. repeat split; auto.
  apply project_all_F_ok, H1.
Qed.

Lemma ukf_quiet_same {K} eig Q sw cw la (f1 f2 : ukf K) x P r d :
  quiet_u Q sw cw la f1 -> quiet_u Q sw cw la f2 ->
  fb_state (ukf_predict eig (loaded f1 x P) r d) = fb_state (ukf_predict eig (loaded f2 x P) r d) /\
  fb_P (ukf_predict eig (loaded f1 x P) r d) = fb_P (ukf_predict eig (loaded f2 x P) r d).
Proof.
  intros ((A1 & A2 & A3 & A4 & A5) & A6 & A7 & A8) ((B1 & B2 & B3 & B4 & B5) & B6 & B7 & B8).
  destruct (ukf_predict_state_P eig (loaded f1 x P) r d) as [E1 E2].
  destruct (ukf_predict_state_P eig (loaded f2 x P) r d) as [E3 E4].
  rewrite E1, E2, E3, E4. clear E1 E2 E3 E4.
  change (fb_use_dyn (loaded f1 x P)) with (fb_use_dyn f1).
  change (fb_use_dyn (loaded f2 x P)) with (fb_use_dyn f2).
  change (fb_Q (loaded f1 x P)) with (fb_Q f1). change (fb_Q (loaded f2 x P)) with (fb_Q f2).
  change (fb_F (loaded f1 x P)) with (fb_F f1). change (fb_F (loaded f2 x P)) with (fb_F f2).
  rewrite A3, B3, A5, B5.
  assert (ES : u_sigma (fb_ext (generateSigmaPoints eig (loaded f1 x P))) =
               u_sigma (fb_ext (generateSigmaPoints eig (loaded f2 x P)))).
  { unfold generateSigmaPoints, ext_set_sigma, set_ext. cbn [fb_ext u_sigma].
    change (u_lambda (fb_ext (loaded f1 x P))) with (u_lambda (fb_ext f1)).
    change (u_lambda (fb_ext (loaded f2 x P))) with (u_lambda (fb_ext f2)).
    rewrite A8, B8. reflexivity. }
  rewrite ES.
  change (u_sw (fb_ext (generateSigmaPoints eig (loaded f1 x P)))) with (u_sw (fb_ext f1)).
  change (u_sw (fb_ext (generateSigmaPoints eig (loaded f2 x P)))) with (u_sw (fb_ext f2)).
  change (u_cw (fb_ext (generateSigmaPoints eig (loaded f1 x P)))) with (u_cw (fb_ext f1)).
  change (u_cw (fb_ext (generateSigmaPoints eig (loaded f2 x P)))) with (u_cw (fb_ext f2)).
  rewrite A6, A7, B6, B7.
  rewrite (project_all_forget 31 (fb_F f1) (fb_F f2)) by assumption.
  split; reflexivity.
Qed.

(** ** History independence *)

Lemma ekf_answer_history {K} eig cap1 cap2 g Q (e1 e2 : estimator K unit) ops1 ops2 t o :
  est_construct cap1 (Some (fb_init g tt)) Q = Some e1 ->
  est_construct cap2 (Some (fb_init g tt)) Q = Some e2 ->
  e_buf (est_run (ekf_vtbl eig) e1 ops1) = e_buf (est_run (ekf_vtbl eig) e2 ops2) ->
  fst (est_getState (ekf_vtbl eig) (est_run (ekf_vtbl eig) e1 ops1) t o) =
  fst (est_getState (ekf_vtbl eig) (est_run (ekf_vtbl eig) e2 ops2) t o).
Proof.
  intros H1 H2 Hb. injection H1 as <-. injection H2 as <-.
  apply (answer_same (ekf_vtbl eig) (quiet Q)); try exact Hb.
  - intros. apply ekf_quiet_same with (Q := Q); assumption.
  - apply run_R; [apply quiet_load|apply ekf_quiet_pred|apply quiet_init].
  - apply run_R; [apply quiet_load|apply ekf_quiet_pred|apply quiet_init].
Qed.

Lemma ukf_answer_history {K} eig cap1 cap2 (f : ukf K) Q (e1 e2 : estimator K (ukf_ext K)) ops1 ops2 t o :
  (exists g gs gq gl, f = ukf_init g gs gq gl \/
     exists alpha kappa beta, f = setConstants (ukf_init g gs gq gl) alpha kappa beta) ->
  est_construct cap1 (Some f) Q = Some e1 -> est_construct cap2 (Some f) Q = Some e2 ->
  e_buf (est_run (ukf_vtbl eig) e1 ops1) = e_buf (est_run (ukf_vtbl eig) e2 ops2) ->
  fst (est_getState (ukf_vtbl eig) (est_run (ukf_vtbl eig) e1 ops1) t o) =
  fst (est_getState (ukf_vtbl eig) (est_run (ukf_vtbl eig) e2 ops2) t o).
Proof.
  intros Hf H1 H2 Hb. injection H1 as <-. injection H2 as <-.
  assert (Hq : quiet_u Q (u_sw (fb_ext f)) (u_cw (fb_ext f)) (u_lambda (fb_ext f)) (setProcessNoiseCovariance f Q)).
  { destruct Hf as (g & gs & gq & gl & [->|(a & k & b & ->)]); (split; [split; [apply meye_F_ok|repeat split]|repeat split]). }
  apply (answer_same (ukf_vtbl eig) (quiet_u Q (u_sw (fb_ext f)) (u_cw (fb_ext f)) (u_lambda (fb_ext f)))); try exact Hb.
  - intros. eapply ukf_quiet_same; eassumption.
  - apply run_R; [intros ? ? ? X; exact X|intros; apply ukf_quiet_pred; assumption|exact Hq].
  - apply run_R; [intros ? ? ? X; exact X|intros; apply ukf_quiet_pred; assumption|exact Hq].
Qed.

(** ** The prediction made by a query *)

Definition query_stamp {K : Scalar} (p : est_state K) : Z := s_trunc (es_time p * s_ofZ 1000000000)%sc.
Definition query_delta {K : Scalar} (p : est_state K) (t : K) : Z := dur_from_seconds (t - es_time p)%sc.
Lemma extrapolate_eq {K : Scalar} {E} (vt : vtbl K E) f p t :
  snd (est_extrapolate vt f p t) =
  mkEst t (fb_state (v_predict vt (loaded f (es_state p) (es_cov p)) (query_stamp p) (query_delta p t)))
          (fb_P (v_predict vt (loaded f (es_state p) (es_cov p)) (query_stamp p) (query_delta p t))).
Proof. reflexivity. Qed.

Local Open Scope R_scope.

Lemma Rtrunc_close x : Rabs (IZR (Rtrunc x) - x) < 1.
Proof.
  unfold Rtrunc. destruct (Rle_dec 0 x).
  - pose proof (Int_part_bounds x). apply Rabs_def1; lra.
  - pose proof (Int_part_bounds (- x)). rewrite opp_IZR. apply Rabs_def1; lra.
Qed.
Lemma Rtrunc_nonneg x : 0 <= x -> (0 <= Rtrunc x)%Z.
Proof.
  intros H. unfold Rtrunc. destruct (Rle_dec 0 x); [|contradiction].
  pose proof (Int_part_bounds x). apply Z.lt_succ_r, lt_IZR. rewrite succ_IZR. lra.
Qed.
Lemma Rtrunc_IZR z : Rtrunc (IZR z) = z.
Proof.
  pose proof (Rtrunc_close (IZR z)) as H. rewrite <- minus_IZR, <- abs_IZR in H. apply lt_IZR in H. lia.
Qed.

Lemma dur_from_seconds_close (x : R) :
  Rabs (IZR (@dur_from_seconds RScalar x) / 1000000000 - x) < / 1000000000.
Proof.
  unfold dur_from_seconds. pose proof (Rtrunc_close (x * 1000000000)) as H.
  change (@s_trunc RScalar) with Rtrunc. change (s_mul (s := RScalar)) with Rmult.
  change (@s_ofZ RScalar) with IZR.
  apply Rabs_def2 in H. apply Rabs_def1; lra.
Qed.

Lemma quiet_tf {E} Q (f : fb RScalar E) : quiet Q f -> tf_inv f /\ fb_use_control f = false.
Proof.
  intros (H1 & H2 & H3 & H4 & H5). split; [split; [exact H1|]|exact H2].
  intros _ i. rewrite H4. do 7 (destruct i; try reflexivity).
Qed.

Lemma ekf_extrapolate_motion eig Q (f : ekf RScalar) (p : est_state RScalar) (t : R) : quiet Q f ->
  exists dt, Rabs (dt - (t - es_time p)) < / 1000000000 /\
    es_time (snd (est_extrapolate (ekf_vtbl eig) f p t)) = t /\
    motion_step (es_state p) dt (es_state (snd (est_extrapolate (ekf_vtbl eig) f p t))).
Proof.
  intros H. exists (IZR (@dur_from_seconds RScalar (t - es_time p)) / 1000000000).
  split; [apply dur_from_seconds_close|]. split; [reflexivity|].
  apply (quiet_load Q f (es_state p) (es_cov p)) in H. apply quiet_tf in H. destruct H as [H1 H2].
  rewrite extrapolate_eq. cbn [es_state v_predict ekf_vtbl].
  pose proof (ekf_predict_motion_free (loaded f (es_state p) (es_cov p)) (query_stamp p) (query_delta p t) H1 H2) as M.
  exact M.
Qed.

Lemma ekf_extrapolate_psd eig Q (f : ekf RScalar) (p : est_state RScalar) (t : R) : quiet Q f -> psd 15 Q -> psd 15 (es_cov p) ->
  es_time p <= t -> psd 15 (es_cov (snd (est_extrapolate (ekf_vtbl eig) f p t))).
Proof.
  intros H HQ HP Ht.
  rewrite extrapolate_eq. cbn [es_cov v_predict ekf_vtbl].
  rewrite predict_P. unfold noise_used. destruct H as (H1 & H2 & H3 & H4 & H5).
  change (fb_use_dyn (loaded f (es_state p) (es_cov p))) with (fb_use_dyn f). rewrite H3.
  change (fb_Q (loaded f (es_state p) (es_cov p))) with (fb_Q f). rewrite H5.
  apply psd_plus; [apply psd_sandwich; exact HP|]. apply psd_scale; [|exact HQ].
  rewrite toSec_R. apply Rmult_le_pos; [|lra]. apply (IZR_le 0). apply Rtrunc_nonneg.
  change (0 <= (t - es_time p) * 1000000000). nra.
Qed.

(** Exact formula of the returned covariance, forward or backward. *)
Lemma ekf_extrapolate_cov eig Q (f : ekf RScalar) (p : est_state RScalar) (t : R) : quiet Q f ->
  exists (J : rmat) (d : Z), IZR d / 1000000000 = IZR (Rtrunc ((t - es_time p) * 1000000000)) / 1000000000 /\
  forall i j, es_cov (snd (est_extrapolate (ekf_vtbl eig) f p t)) i j =
    rmul 15 (rmul 15 J (es_cov p)) (rT J) i j + IZR d / 1000000000 * Q i j.
Proof.
  intros (H1 & H2 & H3 & H4 & H5).
  exists (predict_J (loaded f (es_state p) (es_cov p)) (@dur_from_seconds RScalar (t - es_time p))),
    (@dur_from_seconds RScalar (t - es_time p)).
  split; [reflexivity|]. intros i j.
  rewrite extrapolate_eq. cbn [es_cov v_predict ekf_vtbl].
  rewrite predict_P. unfold noise_used.
  change (fb_use_dyn (loaded f (es_state p) (es_cov p))) with (fb_use_dyn f). rewrite H3.
  change (fb_Q (loaded f (es_state p) (es_cov p))) with (fb_Q f). rewrite H5.
  unfold madd, mscale. rewrite toSec_R. reflexivity.
Qed.

(** UKF with non-negative covariance weights. *)
Lemma sigma_cov_psd (cw : rvec) sg (x : rvec) : (forall i, (i < 31)%nat -> 0 <= cw i) ->
  psd 15 (@sigma_cov RScalar cw sg x).
Proof.
  intros Hw.
  set (G := fun a i => @sigma_diff_full RScalar sg x i a).
  apply (psd_ext 15 (rmul 31 (rmul 31 G (fun i j => if Nat.eqb i j then cw i else 0)) (rT G))).
  - intros a b Ha Hb. unfold sigma_cov, rmul, rT.
    change (@sumn RScalar) with rsum. apply rsum_ext. intros i Hi.
    rewrite (rsum_single 31 i); [|assumption|intros l Hl Hne; destruct (Nat.eqb_spec l i); [congruence|ring]].
    rewrite Nat.eqb_refl. unfold outer, G. change (s_mul (s := RScalar)) with Rmult. ring.
  - apply psd_sandwich. apply psd_diag. exact Hw.
Qed.

Lemma ukf_extrapolate_psd eig Q sw cw la (f : ukf RScalar) (p : est_state RScalar) (t : R) :
  quiet_u Q sw cw la f -> (forall i, (i < 31)%nat -> 0 <= cw i) -> psd 15 Q ->
  es_time p <= t -> psd 15 (es_cov (snd (est_extrapolate (ukf_vtbl eig) f p t))).
Proof.
  intros ((H1 & H2 & H3 & H4 & H5) & H6 & H7 & H8) Hw HQ Ht.
  rewrite extrapolate_eq. cbn [es_cov v_predict ukf_vtbl].
  match goal with |- psd 15 (fb_P (ukf_predict eig ?s ?r ?d)) =>
    destruct (ukf_predict_state_P eig s r d) as [_ E] end.
  rewrite E. clear E.
  change (fb_use_dyn (loaded f (es_state p) (es_cov p))) with (fb_use_dyn f). rewrite H3.
  change (fb_Q (loaded f (es_state p) (es_cov p))) with (fb_Q f). rewrite H5.
  apply psd_plus.
  - apply sigma_cov_psd.
    change (u_cw (fb_ext (generateSigmaPoints eig (loaded f (es_state p) (es_cov p))))) with (u_cw (fb_ext f)).
    rewrite H7. exact Hw.
  - apply psd_scale; [|exact HQ].
    rewrite dur_seconds_R. apply Rmult_le_pos; [|lra]. apply (IZR_le 0). apply Rtrunc_nonneg.
    change (0 <= (t - es_time p) * 1000000000). nra.
Qed.

(** ** Queries on reachable estimators *)

Lemma ekf_reach_quiet eig cap g Q (e0 : estimator RScalar unit) ops :
  est_construct cap (Some (fb_init g tt)) Q = Some e0 ->
  quiet Q (e_filter (est_run (ekf_vtbl eig) e0 ops)).
Proof.
  intros H. injection H as <-.
  apply run_R; [apply quiet_load|apply ekf_quiet_pred|apply quiet_init].
Qed.

Lemma ukf_reach_quiet eig cap g gs gq gl (alpha kappa beta : R) Q (e0 : estimator RScalar (ukf_ext RScalar)) ops :
  est_construct cap (Some (@setConstants RScalar (ukf_init g gs gq gl) alpha kappa beta)) Q = Some e0 ->
  quiet_u Q (@ukf_sw RScalar (@ukf_lambda RScalar alpha kappa))
    (@ukf_cw RScalar alpha beta (@ukf_lambda RScalar alpha kappa)) (@ukf_lambda RScalar alpha kappa)
    (e_filter (est_run (ukf_vtbl eig) e0 ops)).
Proof.
  intros H. injection H as <-.
  apply run_R; [intros ? ? ? X; exact X|intros; apply ukf_quiet_pred; assumption|].
  split; [split; [apply meye_F_ok|repeat split]|repeat split].
Qed.

(** Codes standing for a prediction. *)
Definition predicted_code (c : est_result) : Prop :=
  c = Interpolation \/ c = ExtrapolationIntoFuture \/ c = ExtrapolationIntoPast.

Lemma query_anchor {K : Scalar} {E} (vt : vtbl K E) (e : estimator K E) t o c x :
  order_ok K -> buf_ok e -> s_isnan t = false ->
  fst (est_getState vt e t o) = (c, x) -> predicted_code c ->
  exists p, query_verdict (e_buf e) t (VAnchored c p) /\ x = snd (est_extrapolate vt (e_filter e) p t).
Proof.
  intros Ho Hb Ht Hx Hc.
  destruct (answer_verdict vt Ho e t o Hb Ht) as ([|s|c' p] & Hv & He).
  - exfalso. rewrite He in Hx. injection Hx as <- <-. destruct Hc as [H|[H|H]]; discriminate.
  - exfalso. rewrite He in Hx. injection Hx as <- <-. destruct Hc as [H|[H|H]]; discriminate.
  - rewrite He in Hx. injection Hx as <- <-. exists p. auto.
Qed.

Lemma ekf_query_motion eig cap g Q (e0 : estimator RScalar unit) ops (t : R) (o : est_state RScalar) c (x : est_state RScalar) :
  est_construct cap (Some (fb_init g tt)) Q = Some e0 -> Forall op_stamped ops ->
  let e := est_run (ekf_vtbl eig) e0 ops in
  fst (est_getState (ekf_vtbl eig) e t o) = (c, x) -> predicted_code c ->
  exists (p : est_state RScalar) (dt : R),
    query_verdict (e_buf e) t (VAnchored c p) /\ Rabs (dt - (t - es_time p)) < / 1000000000 /\
    es_time x = t /\ motion_step (es_state p) dt (es_state x).
Proof.
  intros H0 Hops e Hx Hc.
  destruct (query_anchor (ekf_vtbl eig) e t o c x FloatOrder.real_order
    (buffer_reachable (ekf_vtbl eig) FloatOrder.real_order cap _ Q e0 ops H0 Hops) eq_refl Hx Hc) as (p & Hv & ->).
  destruct (ekf_extrapolate_motion eig Q (e_filter e) p t (ekf_reach_quiet eig cap g Q e0 ops H0)) as (dt & H1 & H2 & H3).
  exists p, dt. auto.
Qed.

Lemma anchor_before {K : Scalar} (l : list (est_state K)) t c p :
  query_verdict l t (VAnchored c p) -> c = Interpolation \/ c = ExtrapolationIntoFuture ->
  In p l /\ earlier p t.
Proof.
  intros Hv [-> | ->]; cbn in Hv.
  - destruct Hv as (l1 & n & l2 & -> & H & _). split; [apply in_or_app; right; left; reflexivity|exact H].
  - destruct Hv as (l1 & -> & H). split; [apply in_or_app; right; left; reflexivity|exact H].
Qed.

Lemma ekf_query_psd eig cap g Q (e0 : estimator RScalar unit) ops (t : R) (o : est_state RScalar) c (x : est_state RScalar) :
  est_construct cap (Some (fb_init g tt)) Q = Some e0 -> Forall op_stamped ops ->
  let e := est_run (ekf_vtbl eig) e0 ops in
  psd 15 Q -> Forall (fun s : est_state RScalar => psd 15 (es_cov s)) (e_buf e) ->
  fst (est_getState (ekf_vtbl eig) e t o) = (c, x) ->
  c = Interpolation \/ c = ExtrapolationIntoFuture -> psd 15 (es_cov x).
Proof.
  intros H0 Hops e HQ HP Hx Hc.
  assert (Hc' : predicted_code c) by (unfold predicted_code; tauto).
  destruct (query_anchor (ekf_vtbl eig) e t o c x FloatOrder.real_order
    (buffer_reachable (ekf_vtbl eig) FloatOrder.real_order cap _ Q e0 ops H0 Hops) eq_refl Hx Hc') as (p & Hv & ->).
  destruct (anchor_before _ _ _ _ Hv Hc) as [Hin Hlt].
  apply (ekf_extrapolate_psd eig Q); auto.
  - exact (ekf_reach_quiet eig cap g Q e0 ops H0).
  - rewrite Forall_forall in HP. apply HP, Hin.
  - apply Rltb_true in Hlt. lra.
Qed.

Lemma ukf_query_psd eig cap g gs gq gl (alpha kappa beta : R) Q (e0 : estimator RScalar (ukf_ext RScalar)) ops (t : R) (o : est_state RScalar) c (x : est_state RScalar) :
  est_construct cap (Some (@setConstants RScalar (ukf_init g gs gq gl) alpha kappa beta)) Q = Some e0 ->
  Forall op_stamped ops ->
  let e := est_run (ukf_vtbl eig) e0 ops in
  psd 15 Q ->
  (forall i, (i < 31)%nat -> 0 <= @ukf_cw RScalar alpha beta (@ukf_lambda RScalar alpha kappa) i) ->
  fst (est_getState (ukf_vtbl eig) e t o) = (c, x) ->
  c = Interpolation \/ c = ExtrapolationIntoFuture -> psd 15 (es_cov x).
Proof.
  intros H0 Hops e HQ Hw Hx Hc.
  assert (Hc' : predicted_code c) by (unfold predicted_code; tauto).
  destruct (query_anchor (ukf_vtbl eig) e t o c x FloatOrder.real_order
    (buffer_reachable (ukf_vtbl eig) FloatOrder.real_order cap _ Q e0 ops H0 Hops) eq_refl Hx Hc') as (p & Hv & ->).
  destruct (anchor_before _ _ _ _ Hv Hc) as [Hin Hlt].
  eapply (ukf_extrapolate_psd eig Q).
  - exact (ukf_reach_quiet eig cap g gs gq gl alpha kappa beta Q e0 ops H0).
  - exact Hw.
  - exact HQ.
  - apply Rltb_true in Hlt. lra.
Qed.

Lemma ekf_query_cov eig cap g Q (e0 : estimator RScalar unit) ops (t : R) (o : est_state RScalar) c (x : est_state RScalar) :
  est_construct cap (Some (fb_init g tt)) Q = Some e0 -> Forall op_stamped ops ->
  let e := est_run (ekf_vtbl eig) e0 ops in
  fst (est_getState (ekf_vtbl eig) e t o) = (c, x) -> predicted_code c ->
  exists (p : est_state RScalar) (J : rmat) (dt : R), query_verdict (e_buf e) t (VAnchored c p) /\
    Rabs (dt - (t - es_time p)) < / 1000000000 /\
    forall i j, es_cov x i j = rmul 15 (rmul 15 J (es_cov p)) (rT J) i j + dt * Q i j.
Proof.
  intros H0 Hops e Hx Hc.
  destruct (query_anchor (ekf_vtbl eig) e t o c x FloatOrder.real_order
    (buffer_reachable (ekf_vtbl eig) FloatOrder.real_order cap _ Q e0 ops H0 Hops) eq_refl Hx Hc) as (p & Hv & ->).
  destruct (ekf_extrapolate_cov eig Q (e_filter e) p t (ekf_reach_quiet eig cap g Q e0 ops H0)) as (J & d & Hd & H).
  exists p, J, (IZR d / 1000000000). split; [exact Hv|]. split; [|exact H].
  rewrite Hd. apply dur_from_seconds_close.
Qed.

(** Backward by one nanosecond or more from a certain state: negative variance. *)
Lemma past_not_psd eig cap g Q (e0 : estimator RScalar unit) ops (t : R) (o x : est_state RScalar) i :
  est_construct cap (Some (fb_init g tt)) Q = Some e0 -> Forall op_stamped ops ->
  let e := est_run (ekf_vtbl eig) e0 ops in
  fst (est_getState (ekf_vtbl eig) e t o) = (ExtrapolationIntoPast, x) ->
  (forall p, In p (e_buf e) -> forall a b, es_cov p a b = 0) ->
  (forall p, In p (e_buf e) -> t + / 1000000000 <= es_time p) ->
  (i < 15)%nat -> 0 < Q i i -> es_cov x i i < 0 /\ ~ psd 15 (es_cov x).
Proof.
  intros H0 Hops e Hx Hz Hp Hi HQ.
  destruct (ekf_query_cov eig cap g Q e0 ops t o _ x H0 Hops Hx ltac:(unfold predicted_code; tauto))
    as (p & J & dt & Hv & Hdt & Hcov). fold e in Hv. cbn in Hv. destruct Hv as (l2 & El & _).
  assert (Hin : In p (e_buf e)) by (rewrite El; left; reflexivity).
  specialize (Hz p Hin). specialize (Hp p Hin).
  assert (Hneg : es_cov x i i < 0).
  { rewrite Hcov.
    replace (rmul 15 (rmul 15 J (es_cov p)) (rT J) i i) with 0.
    - apply Rabs_def2 in Hdt. assert (dt < 0) by lra. nra.
    - symmetry. unfold rmul. apply rsum_zero. intros k Hk. rewrite rsum_zero; [ring|].
      intros l Hl. rewrite Hz. ring. }
  split; [exact Hneg|]. intros [_ Hq].
  specialize (Hq (fun k => if Nat.eqb k i then 1 else 0)).
  assert (Eq : quad 15 (es_cov x) (fun k => if Nat.eqb k i then 1 else 0) = es_cov x i i).
  { unfold quad. rewrite (rsum_single 15 i); [|exact Hi|].
    - rewrite (rsum_single 15 i); [|exact Hi|]; rewrite ?Nat.eqb_refl; [ring|].
      intros j Hj Hne. destruct (Nat.eqb_spec j i); [congruence|ring].
    - intros k Hk Hne. apply rsum_zero. intros j Hj. destruct (Nat.eqb_spec k i); [congruence|ring]. }
  rewrite Eq in Hq. lra.
Qed.
