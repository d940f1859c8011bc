(** * The filters do not depend on the choice of the epoch (C99) *)

From Coq Require Import ZArith List Bool Lia String.
From Verif Require Import Scalar Mat FilterBase FilterOps Ekf Ukf StrMap Tf RosFilter RosConfig RosPrepare SpecNode SpecPrepare SpecEpoch NodeProofs NodeInv NodeSmooth.
Import ListNotations.
Local Open Scope Z_scope.

Section Filter.
Context {K : Scalar} {E : Type}.
Variable vt : vtbl K E.
Variable T lo : Z.

(** [T] later, or still the zero it was constructed with *)
Definition kept (t t' : Z) : Prop := t' = t + T \/ t = 0 /\ t' = 0.

(** What the two filters have in common: all but the times. *)
Definition Rf (f f' : fb K E) : Prop :=
  exists last ctl, f' = retimed f last ctl /\ kept (fb_control_time f) ctl /\
    (if fb_initialized f then last = fb_last_time f + T else kept (fb_last_time f) last) /\
    fb_control_timeout f <= lo.

(** The filter's functions do not look at the times otherwise. *)
Definition epoch_blind : Prop :=
  (forall f last ctl r r' d, control_timed_out (retimed f last ctl) r' = control_timed_out f r ->
     v_predict vt (retimed f last ctl) r' d = retimed (v_predict vt f r d) last ctl) /\
  (forall f last ctl m m', delayed_meas T m m' ->
     v_correct vt (retimed f last ctl) m' = retimed (v_correct vt f m) last ctl) /\
  (forall f r d, let g := v_predict vt f r d in
     fb_initialized g = fb_initialized f /\ fb_last_time g = fb_last_time f /\
     fb_control_time g = fb_control_time f /\ fb_control_timeout g = fb_control_timeout f) /\
  (forall f m, let g := v_correct vt f m in
     fb_initialized g = fb_initialized f /\ fb_last_time g = fb_last_time f /\
     fb_control_time g = fb_control_time f /\ fb_control_timeout g = fb_control_timeout f).
Hypothesis Hvt : epoch_blind.

Lemma timeout_same (f : fb K E) last ctl r : kept (fb_control_time f) ctl -> fb_control_timeout f <= lo -> late T lo r ->
  control_timed_out (retimed f last ctl) (r + T) = control_timed_out f r.
Proof.
  unfold control_timed_out. change (fb_control_time (retimed f last ctl)) with ctl.
  change (fb_control_timeout (retimed f last ctl)) with (fb_control_timeout f).
  intros [->|(H0 & ->)] HT (H1 & H2).
  - f_equal. lia.
  - rewrite H0. rewrite !Z.geb_leb. rewrite (proj2 (Z.leb_le _ _)) by lia. symmetry. apply Z.leb_le. lia.
Qed.

Lemma predict_later f f' r d : Rf f f' -> late T lo r -> Rf (v_predict vt f r d) (v_predict vt f' (r + T) d).
Proof.
  intros (last & ctl & -> & H1 & H2 & H3) HL. destruct Hvt as (P & _ & N & _). destruct (N f r d) as (N1 & N2 & N3 & N4).
  exists last, ctl. split; [apply P; apply timeout_same; assumption|]. rewrite N1, N2, N3, N4. auto.
Qed.
Lemma correct_later f f' m m' : Rf f f' -> delayed_meas T m m' -> Rf (v_correct vt f m) (v_correct vt f' m').
Proof.
  intros (last & ctl & -> & H1 & H2 & H3) HM. destruct Hvt as (_ & P & _ & N). destruct (N f m) as (N1 & N2 & N3 & N4).
  exists last, ctl. split; [apply P; assumption|]. rewrite N1, N2, N3, N4. auto.
Qed.
Lemma last_later (f f' : fb K E) t : Rf f f' -> Rf (set_last_time f t) (set_last_time f' (t + T)).
Proof.
  intros (last & ctl & -> & H1 & H2 & H3). exists (t + T), ctl. split; [reflexivity|]. split; [exact H1|]. split; [|exact H3].
  change (fb_initialized (set_last_time f t)) with (fb_initialized f). change (fb_last_time (set_last_time f t)) with t.
  destruct (fb_initialized f); [reflexivity|left; reflexivity].
Qed.
Lemma control_later (f f' : fb K E) u t t' : Rf f f' -> kept t t' -> Rf (setControl f u t) (setControl f' u t').
Proof. intros (last & ctl & -> & H1 & H2 & H3) HT. exists last, t'. split; [reflexivity|]. split; [exact HT|]. split; assumption. Qed.
Lemma put_later (f f' : fb K E) x P : Rf f f' -> Rf (set_P (set_state f x) P) (set_P (set_state f' x) P).
Proof. intros (last & ctl & -> & H1 & H2 & H3). exists last, ctl. split; [reflexivity|]. auto. Qed.
Lemma predicted_later (f f' : fb K E) x : Rf f f' -> Rf (set_predicted f x) (set_predicted f' x).
Proof. intros (last & ctl & -> & H1 & H2 & H3). exists last, ctl. split; [reflexivity|]. auto. Qed.
Lemma reset_later (f f' : fb K E) : Rf f f' -> Rf (fb_reset f) (fb_reset f').
Proof.
  intros (last & ctl & -> & H1 & H2 & H3). exists 0, ctl. split; [reflexivity|]. split; [exact H1|]. split; [|exact H3].
  cbn. right. auto.
Qed.
Lemma state_later (f f' : fb K E) : Rf f f' -> fb_state f' = fb_state f /\ fb_P f' = fb_P f /\ fb_initialized f' = fb_initialized f /\
  fb_sensor_timeout f' = fb_sensor_timeout f /\ (fb_initialized f = true -> fb_last_time f' = fb_last_time f + T).
Proof.
  intros (last & ctl & -> & H1 & H2 & H3). repeat split. intros HI. rewrite HI in H2. exact H2.
Qed.

Lemma process_later f f' m m' : Rf f f' -> delayed_meas T m m' -> late T lo (m_time m) ->
  Rf (processMeasurement vt f m) (processMeasurement vt f' m').
Proof.
  intros HF HM HL. destruct (state_later _ _ HF) as (_ & _ & I1 & _ & L1). unfold processMeasurement. rewrite I1.
  assert (EM : m_time m' = m_time m + T) by (destruct HM as (t & ->); reflexivity).
  destruct (fb_initialized f) eqn:HI.
  - rewrite (L1 eq_refl), EM. replace (m_time m + T - (fb_last_time f + T)) with (m_time m - fb_last_time f) by lia. cbv zeta.
    set (s1 := if m_time m - fb_last_time f >? 0 then _ else f).
    set (s1' := if m_time m - fb_last_time f >? 0 then set_predicted (v_predict vt f' _ _) _ else f').
    assert (H1 : Rf s1 s1').
    { subst s1 s1'. destruct (_ >? 0); [|exact HF]. pose proof (predict_later _ _ (m_time m) (m_time m - fb_last_time f) HF HL) as HP.
      rewrite (proj1 (state_later _ _ HP)). apply predicted_later. exact HP. }
    pose proof (correct_later _ _ _ _ H1 HM) as HC. destruct (_ >=? 0); [apply last_later|]; exact HC.
  - apply last_later with (t := m_time m) in HF. rewrite EM. destruct HM as (t & ->).
    destruct HF as (last & ctl & E' & H1 & H2 & H3). exists (m_time m + T), ctl.
    assert (EF : exists l, f' = retimed f l ctl).
    { destruct f, f'. unfold retimed, set_control_time, set_last_time in *. cbn in *. injection E'. intros. subst. eexists. reflexivity. }
    destruct EF as (l & ->). split; [reflexivity|]. split; [exact H1|]. split; [reflexivity|exact H3].
Qed.

(** ** Histories of calls *)
Lemma op_later o o' f f' : delayed_op T lo o o' -> Rf f f' -> Rf (fb_exec vt f o) (fb_exec vt f' o').
Proof.
  intros [m m' HL HM|m m' HM|r d HL|u t|upd timeout al ag dl dg HL|t|op HO] HF; cbn [fb_exec].
  - apply process_later; assumption.
  - apply correct_later; assumption.
  - apply predict_later; assumption.
  - apply control_later; [exact HF|left; reflexivity].
  - destruct HF as (last & ctl & -> & H1 & H2 & H3). exists last, ctl. split; [reflexivity|]. auto.
  - apply last_later. exact HF.
  - destruct op; try contradiction; try (apply reset_later; exact HF);
      destruct HF as (last & ctl & -> & H1 & H2 & H3); exists last, ctl; (split; [reflexivity|]); auto.
Qed.
Lemma run_later ops ops' : Forall2 (delayed_op T lo) ops ops' -> forall f f', Rf f f' -> Rf (fb_run vt f ops) (fb_run vt f' ops').
Proof.
  unfold fb_run. induction 1 as [|o o' ops ops' HO _ IH]; intros f f' HF; [exact HF|]. cbn [fold_left]. apply IH. apply op_later; assumption.
Qed.
End Filter.

(** ** The two filters *)
Lemma prepareControl_retimed {K : Scalar} {E} (f : fb K E) last ctl r r' :
  control_timed_out (retimed f last ctl) r' = control_timed_out f r ->
  prepareControl (retimed f last ctl) r' = retimed (prepareControl f r) last ctl.
Proof.
  intros H. unfold prepareControl. rewrite H. reflexivity.
Qed.

Lemma ekf_blind {K : Scalar} eig T : epoch_blind (@ekf_vtbl K eig) T.
Proof.
  split; [|split; [|split]].
  - intros f last ctl r r' d H. cbn [v_predict ekf_vtbl]. unfold ekf_predict. rewrite (prepareControl_retimed _ _ _ _ _ H).
    change (fb_state (retimed f last ctl)) with (fb_state f). set (g := prepareControl f r). clearbody g.
    change (fb_use_dyn (set_J (set_F (retimed g last ctl) (ekf_transfer (fb_F (retimed g last ctl)) (fb_state f) (toSec d)))
      (ekf_jacobian (ekf_transfer (fb_F (retimed g last ctl)) (fb_state f) (toSec d)) (fb_state f) (toSec d)))) with (fb_use_dyn g).
    change (fb_use_dyn (set_J (set_F g (ekf_transfer (fb_F g) (fb_state f) (toSec d)))
      (ekf_jacobian (ekf_transfer (fb_F g) (fb_state f) (toSec d)) (fb_state f) (toSec d)))) with (fb_use_dyn g).
    destruct (fb_use_dyn g) eqn:ED; cbv zeta; [|rewrite ?ED; reflexivity].
    reflexivity.
  - intros f last ctl m m' (t & ->). cbn [v_correct ekf_vtbl]. unfold ekf_correct.
    change (ekf_compute_update eig (fb_state (retimed f last ctl)) (fb_P (retimed f last ctl)) _) with (ekf_compute_update eig (fb_state f) (fb_P f) m).
    cbn [m_thresh]. set (u := ekf_compute_update eig (fb_state f) (fb_P f) m). clearbody u. cbv zeta.
    destruct (checkMahalanobisThreshold _ _ _ _); reflexivity.
  - intros f r d. cbn [v_predict ekf_vtbl]. unfold ekf_predict. cbv zeta.
    match goal with |- context [if ?b then _ else _] => destruct b end; repeat split.
  - intros f m. cbn [v_correct ekf_vtbl]. unfold ekf_correct. cbv zeta. destruct (checkMahalanobisThreshold _ _ _ _); repeat split.
Qed.

Lemma ukf_blind {K : Scalar} eig T : epoch_blind (@ukf_vtbl K eig) T.
Proof.
  split; [|split; [|split]].
  - intros f last ctl r r' d H. cbn [v_predict ukf_vtbl]. unfold ukf_predict. rewrite (prepareControl_retimed _ _ _ _ _ H).
    set (g := prepareControl f r). clearbody g.
    change (generateSigmaPoints eig (retimed g last ctl)) with (retimed (generateSigmaPoints eig g) last ctl).
    set (h := generateSigmaPoints eig g). clearbody h. cbv zeta.
    change (fb_F (retimed h last ctl)) with (fb_F h). change (fb_ext (retimed h last ctl)) with (fb_ext h).
    destruct (project_all _ _ _ _) as [F sg]. cbn [fb_use_dyn set_F set_ext set_state retimed set_control_time set_last_time].
    destruct (fb_use_dyn h) eqn:ED; reflexivity.
  - intros f last ctl m m' (t & ->). cbn [v_correct ukf_vtbl]. unfold ukf_correct.
    change (fb_ext (retimed f last ctl)) with (fb_ext f).
    change (generateSigmaPoints eig (retimed f last ctl)) with (retimed (generateSigmaPoints eig f) last ctl).
    destruct (u_uncorrected (fb_ext f)); [set (g := f)|set (g := generateSigmaPoints eig f)]; clearbody g; cbv zeta;
      change (ukf_compute_update eig (fb_ext (retimed g last ctl)) (fb_state (retimed g last ctl)) _) with (ukf_compute_update eig (fb_ext g) (fb_state g) m);
      cbn [m_thresh]; set (u := ukf_compute_update eig (fb_ext g) (fb_state g) m); clearbody u;
      destruct (checkMahalanobisThreshold _ _ _ _); reflexivity.
  - intros f r d. cbn [v_predict ukf_vtbl]. unfold ukf_predict. cbv zeta. destruct (project_all _ _ _ _) as [F sg].
    match goal with |- context [if ?b then _ else _] => destruct b end; repeat split.
  - intros f m. cbn [v_correct ukf_vtbl]. unfold ukf_correct. cbv zeta.
    destruct (u_uncorrected (fb_ext f)); destruct (checkMahalanobisThreshold _ _ _ _); repeat split.
Qed.
