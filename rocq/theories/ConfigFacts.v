(** * Consequences for what loadParams leaves behind *)

From Coq Require Import ZArith List Bool String Ascii Arith Lia.
From Verif Require Import Scalar Mat FilterBase StrMap Diagnostics RosFilter RosConfig SpecConfig NodeScenario ConfigProofs ConfigAll.
Import ListNotations.

Section Facts.
Context {K : Scalar} {E : Type}.

(** ** Counters *)
Lemma zsum_count {P : Type} (g : P -> bool) (f : P -> nat -> Z) ps k :
  (forall o, f o k = Z.b2z (g o)) -> zsum f ps k = Z.of_nat (count g ps).
Proof.
  intros H. unfold zsum, count. induction ps as [|o ps IH]; [reflexivity|]. cbn [fold_right filter].
  rewrite IH, H. destruct (g o); cbn [List.length Z.b2z]; lia.
Qed.
Lemma zsum_add {P : Type} (f g : P -> nat -> Z) ps k : zsum (fun o k => (f o k + g o k)%Z) ps k = (zsum f ps k + zsum g ps k)%Z.
Proof. unfold zsum. induction ps as [|o ps IH]; [reflexivity|]. cbn [fold_right]. lia. Qed.

Lemma abs_count (p : params K) k : (k < 6)%nat -> abs_total p k = Z.of_nat (pose_inputs p false k).
Proof.
  intros Hk. unfold abs_total, pose_inputs.
  rewrite (zsum_count (fun o => Bool.eqb (op_differential o) false && configured (op_config o) k)%bool).
  2: { intros o. unfold odom_abs. destruct (op_differential o); [reflexivity|]. destruct (Nat.ltb_spec k 6); [reflexivity|lia]. }
  rewrite (zsum_count (fun o => Bool.eqb (pp_differential o) false && configured (pp_config o) k)%bool).
  2: { intros o. unfold pose_abs. destruct (pp_differential o); [reflexivity|]. destruct (Nat.ltb_spec k 6); [reflexivity|lia]. }
  rewrite (zsum_count (fun o => Bool.eqb (ip_differential o) false && Nat.leb 3 k && configured (ip_config o) k)%bool).
  2: { intros o. unfold imu_abs, within. destruct (ip_differential o); [reflexivity|]. destruct (Nat.ltb_spec k 6); [|lia].
       destruct (Nat.leb 3 k); reflexivity. }
  lia.
Qed.

Lemma tw_count (p : params K) k : (k < 6)%nat ->
  tw_total p (k + 6) = Z.of_nat (velocity_inputs_of p k (if Nat.eqb k 1 then 0 else k)).
Proof.
  intros Hk. unfold tw_total, velocity_inputs_of, pose_inputs. unfold odom_tw, imu_tw.
  assert (W : within 6 12 (k + 6) = true) by (apply within_spec; lia).
  rewrite !zsum_add.
  rewrite (zsum_count (fun o => Bool.eqb (op_differential o) true && configured (op_config o) k)%bool).
  2: { intros o. rewrite W. destruct (op_differential o); [|reflexivity]. replace (k + 6 - 6)%nat with k by lia. reflexivity. }
  rewrite (zsum_count (fun o => configured (op_config o) ((if Nat.eqb k 1 then 0 else k) + 6))).
  2: { intros o. rewrite W. do 2 f_equal. destruct (Nat.eqb_spec (k + 6) 7), (Nat.eqb_spec k 1); lia. }
  rewrite (zsum_count (fun o => Bool.eqb (pp_differential o) true && configured (pp_config o) k)%bool).
  2: { intros o. unfold pose_tw. rewrite W. destruct (pp_differential o); [|reflexivity]. replace (k + 6 - 6)%nat with k by lia. reflexivity. }
  rewrite (zsum_count (fun o => configured (tp_config o) (k + 6))).
  2: { intros o. unfold twist_tw. rewrite W. reflexivity. }
  assert (W9 : within 9 12 (k + 6) = Nat.leb 3 k).
  { destruct (Nat.leb_spec 3 k); [apply within_spec; lia|apply within_false; lia]. }
  rewrite (zsum_count (fun o => Bool.eqb (ip_differential o) true && Nat.leb 3 k && configured (ip_config o) k)%bool).
  2: { intros o. rewrite W9. replace (k + 6 - 6)%nat with k by lia. destruct (ip_differential o), (Nat.leb 3 k); reflexivity. }
  rewrite (zsum_count (fun o => Nat.leb 3 k && configured (ip_config o) (k + 6))%bool).
  2: { intros o. rewrite W9. destruct (Nat.leb 3 k); reflexivity. }
  lia.
Qed.

(** ** Diagnostics of the pose variables *)
Lemma key_inj v v' : (v < 6)%nat -> (v' < 6)%nat -> (pose_var_name v ++ "_configuration" = report_key v')%string -> v = v'.
Proof.
  intros H H'. do 6 (destruct v as [|v]; [do 6 (destruct v' as [|v']; [cbn; intros; try reflexivity; discriminate|]); lia|]). lia.
Qed.
Lemma key_same v : report_key v = (pose_var_name v ++ "_configuration")%string.
Proof. reflexivity. Qed.
Lemma says_check_other td a t d v v' text : (v < 6)%nat -> (v' < 6)%nat -> v <> v' ->
  (says (check_var td a t d v) v' text <-> says d v' text).
Proof.
  intros H H' Hne. unfold check_var, says.
  assert (Hk : String.eqb (pose_var_name v ++ "_configuration") (report_key v') = false).
  { apply String.eqb_neq. intros Hc. apply Hne, key_inj; assumption. }
  destruct (Z.gtb (a v) 1); [|destruct (Z.eqb (a v) 0 && unmeasured td t v)%bool];
    cbn [addDiagnostic dc_static d_static dc_key dc_text]; rewrite ?sm_set_find, ?Hk; tauto.
Qed.
Lemma says_check_same td a t d v text : says (check_var td a t d v) v text <->
  (if Z.gtb (a v) 1 then text = multiple_text
   else if (Z.eqb (a v) 0 && unmeasured td t v)%bool then text = unmeasured_text else says d v text).
Proof.
  unfold check_var, says. rewrite key_same.
  destruct (Z.gtb (a v) 1); [|destruct (Z.eqb (a v) 0 && unmeasured td t v)%bool];
    cbn [addDiagnostic dc_static d_static dc_key dc_text]; rewrite ?sm_set_find, ?String.eqb_refl;
    [split; [intros [= <-]; reflexivity|intros ->; reflexivity]..|tauto].
Qed.
Lemma says_fold td a t v text : forall l d, (v < 6)%nat -> Forall (fun w => w < 6)%nat l -> NoDup l ->
  (says (fold_left (check_var td a t) l d) v text <->
   if in_dec Nat.eq_dec v l then
     (if Z.gtb (a v) 1 then text = multiple_text
      else if (Z.eqb (a v) 0 && unmeasured td t v)%bool then text = unmeasured_text else says d v text)
   else says d v text).
Proof.
  induction l as [|w l IH]; intros d Hv Hf Hnd; cbn [fold_left]; [destruct (in_dec Nat.eq_dec v []) as [[]|]; tauto|].
  inversion Hf; subst. inversion Hnd; subst. rewrite IH by assumption.
  destruct (Nat.eq_dec w v) as [->|Hne].
  - destruct (in_dec Nat.eq_dec v l); [contradiction|]. destruct (in_dec Nat.eq_dec v (v :: l)) as [_|Hn]; [|elim Hn; left; reflexivity].
    apply says_check_same.
  - assert (Ho : says (check_var td a t d w) v text <-> says d v text) by (apply says_check_other; assumption).
    destruct (in_dec Nat.eq_dec v l) as [Hin|Hn], (in_dec Nat.eq_dec v (w :: l)) as [Hin'|Hn'];
      [|elim Hn'; right; exact Hin|destruct Hin'; contradiction|exact Ho].
    destruct (Z.gtb (a v) 1); [tauto|]. destruct (Z.eqb (a v) 0 && unmeasured td t v)%bool; tauto.
Qed.
Lemma only_listed_says d v text : only_listed d -> text <> listed_text -> ~ says d v text.
Proof. intros H Hne Hs. apply Hne, (H _ _ Hs). Qed.
Lemma check_vars_says (p : params K) a t d v : (v < 6)%nat -> only_listed d -> (0 <= a v)%Z ->
  (says (check_vars p a t d) v multiple_text <-> p_print_diag p = true /\ (2 <= a v)%Z) /\
  (says (check_vars p a t d) v unmeasured_text <->
     p_print_diag p = true /\ a v = 0%Z /\ t (v + 6)%nat = 0%Z /\ ~ (p_two_d p = true /\ planar_free v = true)).
Proof.
  intros Hv Hd Ha. unfold check_vars. destruct (p_print_diag p).
  2: { split; (split; [intros H; exfalso; revert H; apply only_listed_says; [exact Hd|discriminate]|intros (H & _); discriminate]). }
  assert (Hf : Forall (fun w => w < 6)%nat (seq 0 6)) by (apply Forall_forall; intros w Hw; apply in_seq in Hw; lia).
  rewrite !(says_fold _ _ _ _ _ _ _ Hv Hf (seq_NoDup 6 0)).
  destruct (in_dec Nat.eq_dec v (seq 0 6)) as [_|Hn]; [|elim Hn; apply in_seq; lia].
  destruct (Z.gtb_spec (a v) 1) as [G|G].
  - split; [split; [intros _; split; [reflexivity|lia]|reflexivity]|].
    split; [discriminate|]. intros (_ & H & _). lia.
  - assert (Hu : (Z.eqb (a v) 0 && unmeasured (p_two_d p) t v)%bool = true <->
      a v = 0%Z /\ t (v + 6)%nat = 0%Z /\ ~ (p_two_d p = true /\ planar_free v = true)).
    { unfold unmeasured, planar_free, within. change StateMemberZ with 2%nat. change StateMemberPitch with 4%nat.
      change POSITION_V_OFFSET with 6%nat.
      replace (Nat.ltb v 5) with (Nat.leb v 4) by (destruct (Nat.leb_spec v 4), (Nat.ltb_spec v 5); try reflexivity; lia).
      rewrite !andb_true_iff, orb_true_iff, !negb_true_iff, !Z.eqb_eq, andb_false_iff.
      destruct (p_two_d p), (Nat.leb 2 v), (Nat.leb v 4); intuition congruence. }
    destruct (Z.eqb (a v) 0 && unmeasured (p_two_d p) t v)%bool.
    + split; [split; [discriminate|intros (_ & H); lia]|]. rewrite <- Hu. tauto.
    + split; (split; [intros H; exfalso; revert H; apply only_listed_says; [exact Hd|discriminate]|]).
      * intros (_ & H). lia.
      * intros (_ & H). apply Hu in H. discriminate.
Qed.

(** ** The result of loadParams *)
Lemma loadParams_eq (p : params K) period now (f : fb K E) :
  loadParams p period now f =
  (l4 <- load_inputs p (cp_config (load_control p));;
   Q <- load_covariance (p_Q p);;
   P <- load_covariance (p_P p);;
   let cp := load_control p in
   let use_control := (cp_use cp && negb (Z.eqb (accumulate (l_control l4)) 0))%bool in
   let prefixed := fun s => match p_tf_prefix p with Some _ => appendPrefix "" s | None => s end in
   let sensor_timeout :=
     dur_from_seconds (match p_sensor_timeout p with Some s => s | None => s_div (s_ofZ 1) (p_frequency p) end) in
   let f1 := setUseDynamicProcessNoiseCovariance (setSensorTimeout f sensor_timeout) (p_dynamic_noise p) in
   let f2 := match p_initial_state p with
             | Some v => if Nat.eqb (List.length v) STATE_SIZE then setState f1 (fun i => nth i v (s_ofZ 0)) else f1
             | None => f1
             end in
   let f3 := setLastMeasurementTime f2 now in
   let f4 := if use_control
             then setControlParams f3 (l_control l4) (dur_from_seconds (p_control_timeout p))
                    (cp_acc_limits cp) (cp_acc_gains cp) (cp_dec_limits cp) (cp_dec_gains cp)
             else f3 in
   Ok (mkLoaded
    (mkConfig (p_smooth p) (p_predict_now p) use_control (p_permit p) (p_publish_tf p) (p_publish_acc p)
       (p_print_diag p) (dur_from_seconds (s_abs (p_history p))) sensor_timeout (dur_from_seconds (p_tf_offset p))
       period (or_zero Q) (or_zero P) (prefixed (match p_world p with Some s => s | None => p_odom p end))
       (prefixed (p_map p)) (prefixed (p_odom p))
       (prefixed (p_base p)) (prefixed (match p_base_out p with Some s => s | None => p_base p end)))
    (when P (when Q f4 setProcessNoiseCovariance) setEstimateErrorCovariance)
    (check_vars p (l_abs l4) (l_twist l4) (l_diag l4)) (l_subs l4) (l_gravity l4) (p_gravity p) (p_two_d p)
    (dur_from_seconds (p_tf_timeout p)) (negb (p_disabled p)))).
Proof.
  unfold loadParams, load_inputs. cbv zeta.
  destruct (load_all load_odom 0 (p_odoms p) _) as [l1|]; cbn [obind]; [|reflexivity].
  destruct (load_all load_pose 0 (p_poses p) l1) as [l2|]; cbn [obind]; [|reflexivity].
  destruct (load_all load_twist 0 (p_twists p) l2) as [l3|]; cbn [obind]; [|reflexivity].
  destruct (load_all load_imu 0 (p_imus p) l3) as [l4|]; cbn [obind]; reflexivity.
Qed.

Lemma load_covariance_ok (o : option (list K)) :
  match load_covariance o with
  | Ok m => cov_size_ok o /\ (m = None <-> o = None)
  | Undefined => ~ cov_size_ok o
  end.
Proof.
  unfold load_covariance, cov_size_ok. destruct o as [v|]; [|tauto].
  destruct (Nat.eqb_spec (List.length v) STATE_SIZE) as [H|H]; [split; [left; exact H|split; discriminate]|].
  destruct (Nat.leb_spec 225 (List.length v)) as [H2|H2]; [split; [right; exact H2|split; discriminate]|].
  intros [Hc|Hc]; [apply H, Hc|lia].
Qed.

Lemma control_size (p : params K) : (p_imus p <> [] -> (3 <= List.length (cp_config (load_control p)))%nat) <-> control_size_ok p.
Proof.
  unfold control_size_ok, load_control. destruct (p_use_control p); cbn [cp_config].
  - destruct (p_control_config p) as [v|].
    + split.
      * intros H. destruct (p_imus p); [left; reflexivity|]. right; right. exists v. split; [reflexivity|]. apply H. discriminate.
      * intros [->|[Hd|(w & [= <-] & Hw)]]; [intros Hn; elim Hn; reflexivity|discriminate|auto].
    + cbn [List.length]. split.
      * intros H. destruct (p_imus p); [left; reflexivity|]. exfalso. specialize (H ltac:(discriminate)). lia.
      * intros [->|[Hd|(w & Hw & _)]]; [intros Hn; elim Hn; reflexivity|discriminate|discriminate].
  - split; [auto|]. intros _ _. cbn. lia.
Qed.

Lemma loadParams_spec (p : params K) period now (f : fb K E) :
  match loadParams p period now f with
  | Ok ld => sizes_ok p /\ exists l Q P,
      inputs_loaded p (cp_config (load_control p)) l /\
      load_covariance (p_Q p) = Ok Q /\ load_covariance (p_P p) = Ok P /\
      ld_subs ld = l_subs l /\ ld_diag ld = check_vars p (l_abs l) (l_twist l) (l_diag l) /\
      c_use_control (ld_config ld) = (cp_use (load_control p) && negb (Z.eqb (accumulate (l_control l)) 0))%bool /\
      fb_control_upd (ld_filter ld) = (if c_use_control (ld_config ld) then l_control l else fb_control_upd f) /\
      fb_use_control (ld_filter ld) = (c_use_control (ld_config ld) || fb_use_control f)%bool
  | Undefined => ~ sizes_ok p
  end.
Proof.
  rewrite loadParams_eq. pose proof (load_inputs_spec p (cp_config (load_control p))) as HI.
  assert (Hs : sizes_ok p <-> inputs_ok p (List.length (cp_config (load_control p))) /\ cov_size_ok (p_Q p) /\ cov_size_ok (p_P p)).
  { unfold sizes_ok, inputs_ok. rewrite control_size. tauto. }
  destruct (load_inputs p (cp_config (load_control p))) as [l|]; cbn [obind]; [|tauto].
  pose proof (load_covariance_ok (p_Q p)) as HQ. destruct (load_covariance (p_Q p)) as [Q|] eqn:EQ; cbn [obind]; [|tauto].
  pose proof (load_covariance_ok (p_P p)) as HP. destruct (load_covariance (p_P p)) as [P|] eqn:EP; cbn [obind]; [|tauto].
  split; [tauto|]. exists l, Q, P. cbv zeta. cbn [ld_subs ld_diag ld_config ld_filter c_use_control].
  repeat (split; [first [reflexivity|tauto]|]).
  set (u := (cp_use (load_control p) && negb (Z.eqb (accumulate (l_control l)) 0))%bool).
  destruct P, Q; cbn [when]; destruct u; cbn; (split; [|]);
    (reflexivity || (destruct (p_initial_state p) as [w|]; [destruct (Nat.eqb (List.length w) STATE_SIZE)|]; reflexivity)).
Qed.

Lemma loadParams_ok_iff (p : params K) period now (f : fb K E) :
  (exists ld, loadParams p period now f = Ok ld) <-> sizes_ok p.
Proof.
  pose proof (loadParams_spec p period now f) as H. destruct (loadParams p period now f) as [ld|].
  - split; [tauto|]. intros _. eexists. reflexivity.
  - split; [intros (ld & Hd); discriminate|tauto].
Qed.

(** ** Control *)
Lemma control_fold (imus : list (imu_par K)) v j :
  List.length (fold_left (fun v o => keep_control o v) imus v) = List.length v /\
  ((j < List.length v)%nat ->
   nth j (fold_left (fun v o => keep_control o v) imus v) false =
   (nth j v false && negb (Nat.ltb j 3 && existsb (fun o => configured (ip_config o) (j + 12)) imus))%bool).
Proof.
  revert v. induction imus as [|o imus IH]; intros v; cbn [fold_left existsb].
  - split; [reflexivity|]. intros _. rewrite andb_false_r, andb_true_r. reflexivity.
  - destruct (IH (keep_control o v)) as (L & N). rewrite keep_control_length in *. split; [exact L|]. intros Hj.
    rewrite N by exact Hj.
    assert (Hk : nth j (keep_control o v) false = (nth j v false && negb (Nat.ltb j 3 && configured (ip_config o) (j + 12)))%bool).
    { unfold keep_control.
      set (g := fun q : nat * bool => (snd q && negb (Nat.ltb (fst q) 3 && configured (ip_config o) (fst q + 12)))%bool).
      transitivity (g (nth j (combine (seq 0 (List.length v)) v) (0%nat, false))).
      - exact (map_nth g _ (0%nat, false) j).
      - rewrite nth_combine_seq by exact Hj. reflexivity. }
    rewrite Hk. rewrite <- !andb_assoc. f_equal.
    destruct (Nat.ltb j 3), (configured (ip_config o) (j + 12)), (existsb (fun o0 => configured (ip_config o0) (j + 12)) imus); reflexivity.
Qed.

Lemma loaded_control_flags (p : params K) period now (f : fb K E) ld j :
  loadParams p period now f = Ok ld -> c_use_control (ld_config ld) = true -> (j < 6)%nat ->
  nth j (fb_control_upd (ld_filter ld)) false =
  (configured (p_control_config p) j && negb (Nat.ltb j 3 && existsb (fun o => configured (ip_config o) (j + 12)) (p_imus p)))%bool.
Proof.
  intros HL Hu Hj. pose proof (loadParams_spec p period now f) as H. rewrite HL in H.
  destruct H as (_ & l & Q & P & Hin & _ & _ & _ & _ & Hc & Hf & _). rewrite Hu in Hc, Hf. rewrite Hf, (il_control _ _ _ Hin).
  symmetry in Hc. apply andb_true_iff in Hc. destruct Hc as (Hc & _). unfold load_control in *.
  destruct (p_use_control p); [|discriminate]. cbn [cp_use cp_config] in *.
  destruct (p_control_config p) as [v|]; [|discriminate]. cbn [given_six] in Hc.
  unfold six in Hc. rewrite !andb_true_iff, Nat.eqb_eq in Hc. destruct Hc as ((Hl & _) & _). change TWIST_SIZE with 6%nat in Hl.
  destruct (control_fold (p_imus p) v j) as (_ & HN). apply HN. lia.
Qed.

Lemma control_used_iff (p : params K) period now (f : fb K E) ld :
  loadParams p period now f = Ok ld ->
  (c_use_control (ld_config ld) = true <->
   p_use_control p = true /\
   (exists v, p_control_config p = Some v /\ List.length v = 6%nat) /\
   (forall v, p_acc_limits p = Some v -> List.length v = 6%nat) /\
   (forall v, p_dec_limits p = Some v -> List.length v = 6%nat) /\
   exists j, (j < 6)%nat /\ configured (p_control_config p) j = true /\
     ((j < 3)%nat -> forall o, In o (p_imus p) -> configured (ip_config o) (j + 12) = false)).
Proof.
  intros HL. pose proof (loadParams_spec p period now f) as H. rewrite HL in H.
  destruct H as (_ & l & Q & P & Hin & _ & _ & _ & _ & Hc & _ & _). rewrite Hc, (il_control _ _ _ Hin). clear Hc Hin HL.
  unfold load_control. destruct (p_use_control p); cbn [cp_use cp_config]; [|split; [discriminate|intros (H & _); discriminate]].
  rewrite !andb_true_iff, negb_true_iff, Z.eqb_neq.
  assert (G : forall o : option (list K), given_six o true = true <-> forall v, o = Some v -> List.length v = 6%nat).
  { intros [v|]; cbn [given_six]; [unfold six; rewrite Nat.eqb_eq; split; [intros H w [= <-]; exact H|auto]|split; [discriminate|auto]]. }
  rewrite !G. clear G. destruct (p_control_config p) as [v|].
  2: { cbn [given_six]. split; [intros (((H & _) & _) & _); discriminate|intros (_ & (v & H & _) & _); discriminate]. }
  cbn [given_six configured]. unfold six. rewrite Nat.eqb_eq. change TWIST_SIZE with 6%nat.
  destruct (Nat.eq_dec (List.length v) 6) as [Hl|Hl].
  2: { split; [intros (((H & _) & _) & _); contradiction|]. intros (_ & (w & [= <-] & H) & _). contradiction. }
  assert (HA : accumulate (fold_left (fun v o => keep_control o v) (p_imus p) v) <> 0%Z <->
    exists j, (j < 6)%nat /\ nth j v false = true /\
     ((j < 3)%nat -> forall o, In o (p_imus p) -> configured (ip_config o) (j + 12) = false)).
  { assert (HN : forall j, (j < 6)%nat ->
      (nth j (fold_left (fun v o => keep_control o v) (p_imus p) v) false = true <->
       nth j v false = true /\ ((j < 3)%nat -> forall o, In o (p_imus p) -> configured (ip_config o) (j + 12) = false))).
    { intros j Hj. destruct (control_fold (p_imus p) v j) as (_ & HN). rewrite HN by lia.
      rewrite andb_true_iff, negb_true_iff, andb_false_iff, Nat.ltb_ge.
      assert (HX : existsb (fun o => configured (ip_config o) (j + 12)) (p_imus p) = false <->
        forall o, In o (p_imus p) -> configured (ip_config o) (j + 12) = false).
      { split.
        - intros Hx o Ho. destruct (configured (ip_config o) (j + 12)) eqn:Hc; [|reflexivity].
          assert (existsb (fun o => configured (ip_config o) (j + 12)) (p_imus p) = true) by (apply existsb_exists; eauto). congruence.
        - intros Hx. destruct (existsb _ (p_imus p)) eqn:He; [|reflexivity]. apply existsb_exists in He.
          destruct He as (o & Ho & Hc). rewrite Hx in Hc by exact Ho. discriminate. }
      rewrite HX. split.
      - intros (H1 & [H2|H2]); (split; [exact H1|]); [intros; lia|intros _; exact H2].
      - intros (H1 & H2). split; [exact H1|]. destruct (Nat.le_gt_cases 3 j); auto. }
    split.
    - intros Ha. destruct (accumulate_ex _ Ha) as (j & Hj).
      assert (Hj6 : (j < 6)%nat).
      { destruct (control_fold (p_imus p) v j) as (HLn & _). destruct (Nat.lt_ge_cases j 6); [assumption|].
        rewrite nth_overflow in Hj; [discriminate|lia]. }
      exists j. split; [exact Hj6|]. apply HN; assumption.
    - intros (j & Hj6 & Hj) H0. apply HN in Hj; [|exact Hj6].
      apply (proj1 (accumulate_zero _)) with (i := j) in H0. congruence. }
  rewrite HA. split.
  - intros (((_ & H1) & H2) & H3). repeat split; eauto.
  - intros (_ & _ & H1 & H2 & H3). tauto.
Qed.

Lemma loaded_filter (p : params K) period now (f : fb K E) ld :
  loadParams p period now f = Ok ld ->
  let cp := load_control p in
  (c_use_control (ld_config ld) = true ->
     fb_acc_limits (ld_filter ld) = cp_acc_limits cp /\ fb_acc_gains (ld_filter ld) = cp_acc_gains cp /\
     fb_dec_limits (ld_filter ld) = cp_dec_limits cp /\ fb_dec_gains (ld_filter ld) = cp_dec_gains cp) /\
  (p_Q p = None -> fb_Q (ld_filter ld) = fb_Q f /\ c_Q (ld_config ld) = mzero) /\
  (p_P p = None -> fb_P (ld_filter ld) = fb_P f /\ c_P (ld_config ld) = mzero) /\
  (p_Q p <> None -> fb_Q (ld_filter ld) = c_Q (ld_config ld)) /\
  (p_P p <> None -> fb_P (ld_filter ld) = c_P (ld_config ld)) /\
  fb_state (ld_filter ld) = match p_initial_state p with
    | Some v => if Nat.eqb (List.length v) 15 then (fun i => nth i v (s_ofZ 0)) else fb_state f
    | None => fb_state f end.
Proof.
  rewrite loadParams_eq. destruct (load_inputs p (cp_config (load_control p))) as [l|]; cbn [obind]; [|discriminate].
  pose proof (load_covariance_ok (p_Q p)) as HQ. destruct (load_covariance (p_Q p)) as [Q|] eqn:EQ; cbn [obind]; [|discriminate].
  pose proof (load_covariance_ok (p_P p)) as HP. destruct (load_covariance (p_P p)) as [P|] eqn:EP; cbn [obind]; [|discriminate].
  destruct HQ as (_ & HQ), HP as (_ & HP). cbv zeta. intros [= <-]. cbn [ld_config ld_filter c_use_control c_Q c_P].
  set (u := (cp_use (load_control p) && negb (Z.eqb (accumulate (l_control l)) 0))%bool).
  change STATE_SIZE with 15%nat.
  split; [|split; [|split; [|split; [|split]]]].
  - intros ->. destruct P, Q; repeat split.
  - intros H. apply HQ in H. subst Q. cbn [or_zero when]. split; [|reflexivity].
    destruct P, u, (p_initial_state p) as [w|]; cbn; try destruct (Nat.eqb (List.length w) 15); reflexivity.
  - intros H. apply HP in H. subst P. cbn [or_zero when]. split; [|reflexivity].
    destruct Q, u, (p_initial_state p) as [w|]; cbn; try destruct (Nat.eqb (List.length w) 15); reflexivity.
  - intros H. destruct Q as [Q|]; [|elim H; apply HQ; reflexivity]. destruct P; reflexivity.
  - intros H. destruct P as [P|]; [|elim H; apply HP; reflexivity]. reflexivity.
  - destruct P, Q, u, (p_initial_state p) as [w|]; cbn; try destruct (Nat.eqb (List.length w) 15); reflexivity.
Qed.

Lemma control_access_init (p : params K) period now g (e : E) ld :
  loadParams p period now (fb_init g e) = Ok ld ->
  (control_access_ok (ld_filter ld) = true <-> c_use_control (ld_config ld) = false \/ p_acc_gains p <> None).
Proof.
  intros HL. pose proof (loadParams_spec p period now (fb_init g e)) as H. rewrite HL in H.
  destruct H as (_ & l & Q & P & Hin & _ & _ & _ & _ & Hc & Hf & Hfu). cbn [fb_init fb_reset fb_use_control fb_control_upd] in Hf, Hfu.
  rewrite orb_false_r in Hfu.
  destruct (loaded_filter p period now _ ld HL) as (Hg & _).
  pose proof (control_used_iff p period now _ ld HL) as Hiff.
  pose proof (fun j => loaded_control_flags p period now _ ld j HL) as Hfl.
  unfold control_access_ok. rewrite Hfu. destruct (c_use_control (ld_config ld)).
  2: { rewrite Hf. cbn. split; auto. }
  destruct (Hg eq_refl) as (G1 & G2 & G3 & G4). rewrite G1, G2, G3, G4. clear Hg G1 G2 G3 G4.
  destruct (proj1 Hiff eq_refl) as (U & (v & Hv & Lv) & Ha & Hd & j & Hj & Cj & Ij).
  assert (Lu : List.length (fb_control_upd (ld_filter ld)) = 6%nat).
  { rewrite Hf, (il_control _ _ _ Hin). rewrite (proj1 (control_fold (p_imus p) _ 0)). unfold load_control. rewrite U, Hv. exact Lv. }
  rewrite Lu. change TWIST_SIZE with 6%nat. cbn [Nat.leb andb negb orb].
  assert (Fj : nth j (fb_control_upd (ld_filter ld)) false = true).
  { rewrite Hfl by auto. rewrite Cj. cbn [andb]. rewrite negb_true_iff. destruct (Nat.ltb_spec j 3); [|reflexivity]. cbn [andb].
    destruct (existsb _ (p_imus p)) eqn:He; [|reflexivity]. apply existsb_exists in He. destruct He as (o & Ho & Hc').
    rewrite Ij in Hc' by assumption. discriminate. }
  unfold load_control. rewrite U. cbn [cp_acc_limits cp_acc_gains cp_dec_limits cp_dec_gains].
  assert (L1 : List.length (match p_acc_limits p with Some v => v | None => ones end) = 6%nat)
    by (destruct (p_acc_limits p); [apply Ha; reflexivity|reflexivity]).
  assert (L2 : List.length (match p_dec_limits p with Some v => v | None => match p_acc_limits p with Some v => v | None => ones end end) = 6%nat)
    by (destruct (p_dec_limits p); [apply Hd; reflexivity|exact L1]).
  assert (Lg : forall w : list K, List.length (gains w) = 6%nat).
  { intros w. unfold gains, six. destruct (Nat.eqb_spec (List.length w) TWIST_SIZE) as [H|H]; [exact H|reflexivity]. }
  split.
  - intros H. right. intros Hn. rewrite Hn in H.
    assert (Hs : In j (seq 0 6)) by (apply in_seq; lia). rewrite forallb_forall in H. specialize (H j Hs).
    unfold flag in H. rewrite Fj in H. cbn [negb orb] in H. rewrite !andb_true_iff in H. destruct H as (((_ & H) & _) & _).
    apply Nat.ltb_lt in H. cbn in H. lia.
  - intros [Hx|Hx]; [discriminate|]. destruct (p_acc_gains p) as [ga|]; [|elim Hx; reflexivity].
    apply forallb_forall. intros i Hi. apply in_seq in Hi. rewrite L1, L2, Lg.
    assert (L4 : List.length (match p_dec_gains p with Some v => gains v | None => gains ga end) = 6%nat)
      by (destruct (p_dec_gains p); apply Lg).
    rewrite L4. destruct (Nat.ltb_spec i 6); [|lia]. apply orb_true_r.
Qed.

(** ** Start-up report *)
Lemma report_spec (p : params K) period now (f : fb K E) ld v :
  loadParams p period now f = Ok ld -> (v < 6)%nat ->
  (says (ld_diag ld) v multiple_text <-> p_print_diag p = true /\ (2 <= pose_inputs p false v)%nat) /\
  (says (ld_diag ld) v unmeasured_text <->
     p_print_diag p = true /\ pose_inputs p false v = 0%nat /\
     velocity_inputs_of p v (if Nat.eqb v 1 then 0 else v) = 0%nat /\ ~ (p_two_d p = true /\ planar_free v = true)).
Proof.
  intros HL Hv. pose proof (loadParams_spec p period now f) as H. rewrite HL in H.
  destruct H as (_ & l & Q & P & Hin & _ & _ & _ & Hd & _). rewrite Hd.
  destruct (check_vars_says p (l_abs l) (l_twist l) (l_diag l) v Hv (il_diag _ _ _ Hin)) as (H1 & H2).
  { rewrite (il_abs _ _ _ Hin), abs_count by exact Hv. lia. }
  rewrite H1, H2, (il_abs _ _ _ Hin), (il_tw _ _ _ Hin), abs_count, tw_count by exact Hv. split.
  - split; intros (A & B); (split; [exact A|lia]).
  - split; intros (A & B & C & D); (split; [exact A|split; [lia|split; [lia|exact D]]]).
Qed.

(** ** Frames *)
Lemma prefix_unused (p : params K) period now (f : fb K E) ld :
  loadParams p period now f = Ok ld ->
  c_map (ld_config ld) = p_map p /\ c_odom (ld_config ld) = p_odom p /\ c_base (ld_config ld) = p_base p /\
  c_base_out (ld_config ld) = match p_base_out p with Some s => s | None => p_base p end /\
  c_world (ld_config ld) = match p_world p with Some s => s | None => p_odom p end.
Proof.
  rewrite loadParams_eq. destruct (load_inputs p (cp_config (load_control p))) as [l|]; cbn [obind]; [|discriminate].
  destruct (load_covariance (p_Q p)) as [Q|]; cbn [obind]; [|discriminate].
  destruct (load_covariance (p_P p)) as [P|]; cbn [obind]; [|discriminate].
  cbv zeta. intros [= <-]. cbn [ld_config c_map c_odom c_base c_base_out c_world]. destruct (p_tf_prefix p); repeat split.
Qed.

(** ** Subscriptions *)
Lemma subs_from (p : params K) period now (f : fb K E) ld s :
  loadParams p period now f = Ok ld -> In s (ld_subs ld) ->
  (exists i o, nth_error (p_odoms p) i = Some o /\ odom_sub i o s) \/
  (exists i o, nth_error (p_poses p) i = Some o /\ pose_sub i o s) \/
  (exists i o, nth_error (p_twists p) i = Some o /\ twist_sub i o s) \/
  (exists i o, nth_error (p_imus p) i = Some o /\ imu_sub i o s).
Proof.
  intros HL. pose proof (loadParams_spec p period now f) as H. rewrite HL in H.
  destruct H as (_ & l & Q & P & Hin & _ & _ & -> & _). apply (il_from _ _ _ Hin).
Qed.
Lemma subs_all (p : params K) period now (f : fb K E) ld :
  loadParams p period now f = Ok ld ->
  (forall i o, nth_error (p_odoms p) i = Some o -> useful (op_config o) (fun _ => true) ->
     exists s, In s (ld_subs ld) /\ odom_sub i o s) /\
  (forall i o, nth_error (p_poses p) i = Some o -> useful (pp_config o) (fun k => negb (within 6 15 k)) ->
     exists s, In s (ld_subs ld) /\ pose_sub i o s) /\
  (forall i o, nth_error (p_twists p) i = Some o -> useful (tp_config o) (fun k => negb (within 0 6 k)) ->
     exists s, In s (ld_subs ld) /\ twist_sub i o s) /\
  (forall i o, nth_error (p_imus p) i = Some o -> useful (ip_config o) (fun k => within 3 6 k || Nat.leb 9 k)%bool ->
     exists s, In s (ld_subs ld) /\ imu_sub i o s).
Proof.
  intros HL. pose proof (loadParams_spec p period now f) as H. rewrite HL in H.
  destruct H as (_ & l & Q & P & Hin & _ & _ & -> & _). destruct Hin. auto.
Qed.
Lemma subs_names (p : params K) period now (f : fb K E) ld :
  loadParams p period now f = Ok ld -> NoDup (List.concat (map stream_names (ld_subs ld))).
Proof.
  intros HL. pose proof (loadParams_spec p period now f) as H. rewrite HL in H.
  destruct H as (_ & l & Q & P & Hin & _ & _ & -> & _). apply (il_names _ _ _ Hin).
Qed.

Lemma acceleration_kept (p : params K) period now (f : fb K E) ld i k :
  loadParams p period now f = Ok ld -> (12 <= k < 15)%nat ->
  (forall o, nth_error (p_odoms p) i = Some o -> configured (op_config o) k = true ->
     exists a b, In (SubOdom (numbered "odom" i) a b) (ld_subs ld) /\ nth k (cd_upd a) false = true /\ nth k (cd_upd b) false = true) /\
  (forall o, nth_error (p_twists p) i = Some o -> configured (tp_config o) k = true ->
     exists a, In (SubTwist a) (ld_subs ld) /\ nth k (cd_upd a) false = true).
Proof.
  intros HL Hk. destruct (subs_all p period now f ld HL) as (HO & _ & HT & _). split.
  - intros o Ho Hc. destruct (HO i o Ho) as (s & Hs & a & b & -> & (_ & Ha) & (_ & Hb) & _); [exists k; auto|].
    exists a, b. split; [exact Hs|]. rewrite Ha, Hb, Hc. split; rewrite andb_true_r; apply negb_true_iff, within_false; lia.
  - intros o Ho Hc. destruct (HT i o Ho) as (s & Hs & a & -> & (_ & Ha) & _).
    { exists k. split; [apply negb_true_iff, within_false; lia|exact Hc]. }
    exists a. split; [exact Hs|]. rewrite Ha, Hc, andb_true_r. apply negb_true_iff, within_false; lia.
Qed.
Lemma acceleration_witness (p : params K) period now (f : fb K E) o :
  (match loadParams p period now f with Ok _ => true | Undefined => false end) = true ->
  nth_error (p_odoms p) 0 = Some o -> configured (op_config o) 12 = true ->
  exists p ld o d, loadParams p period now f = Ok ld /\
    In (SubOdom "odom0" o d) (ld_subs ld) /\ nth 12 (cd_upd o) false = true /\ nth 12 (cd_upd d) false = true.
Proof.
  intros H Ho Hc. destruct (loadParams p period now f) as [ld|] eqn:HL; [|discriminate].
  destruct (acceleration_kept p period now f ld 0 12 HL ltac:(lia)) as (HA & _). destruct (HA o Ho Hc) as (a & b & HH).
  exists p, ld, a, b. split; [exact HL|exact HH].
Qed.

(** ** Reset after a start without covariances *)
Lemma reset_unconfigured (p : params K) period now later g (e : E) ang nothing ld n :
  start p period now later (fb_init g e) ang nothing = Ok (ld, n) -> p_Q p = None -> p_P p = None ->
  fb_Q (n_filter n) = default_Q /\ fb_P (n_filter n) = mscale (lit 1 9) meye /\
  fb_Q (n_filter (reset (ld_config ld) n)) = mzero /\ fb_P (n_filter (reset (ld_config ld) n)) = mzero.
Proof.
  unfold start. destruct (loadParams p period now (fb_init g e)) as [ld'|] eqn:HL; cbn [obind]; [|discriminate].
  cbv zeta. intros [= <- <-] HQ HP. destruct (loaded_filter p period now _ ld' HL) as (_ & H1 & H2 & _).
  destruct (H1 HQ) as (A & B). destruct (H2 HP) as (C & D).
  split; [exact A|]. split; [exact C|]. cbn [reset n_filter with_diag]. split; [exact B|exact D].
Qed.
Lemma reset_initial_state (p : params K) period now later (f : fb K E) ang nothing ld n v :
  start p period now later f ang nothing = Ok (ld, n) -> p_initial_state p = Some v -> List.length v = 15%nat ->
  (forall i, fb_state (n_filter n) i = nth i v (s_ofZ 0)) /\
  (forall i, fb_state (n_filter (reset (ld_config ld) n)) i = s_ofZ 0).
Proof.
  unfold start. destruct (loadParams p period now f) as [ld'|] eqn:HL; cbn [obind]; [|discriminate].
  cbv zeta. intros [= <- <-] HS Hl. destruct (loaded_filter p period now _ ld' HL) as (_ & _ & _ & _ & _ & H).
  rewrite HS, Hl in H. cbn [Nat.eqb] in H. split; [|reflexivity]. intros i. change (fb_state (ld_filter ld') i = nth i v (s_ofZ 0)).
  rewrite H. reflexivity.
Qed.

End Facts.

(** ** Prefixing *)
Lemma appendPrefix_empty f : appendPrefix "" f = f.
Proof. reflexivity. Qed.
Lemma strip_plain s : plain_name s -> strip_slash s = s.
Proof. destruct s as [|c r]; [intros []|]. cbn [strip_slash plain_name]. intros H. destruct (Ascii.eqb_spec c slash); [contradiction|reflexivity]. Qed.
Lemma strip_one s : strip_slash (String "/"%char s) = s.
Proof. reflexivity. Qed.
Lemma appendPrefix_plain a b a' b' : plain_name a -> plain_name b ->
  (a' = a \/ a' = String "/"%char a) -> (b' = b \/ b' = String "/"%char b) ->
  appendPrefix a' b' = (a ++ "/" ++ b)%string.
Proof.
  intros Ha Hb A B.
  assert (SA : strip_slash a' = a) by (destruct A as [->| ->]; [apply strip_plain, Ha|apply strip_one]).
  assert (SB : strip_slash b' = b) by (destruct B as [->| ->]; [apply strip_plain, Hb|apply strip_one]).
  unfold appendPrefix. rewrite SA, SB. destruct a'; [|reflexivity].
  destruct A as [<-|H]; [destruct Ha|discriminate].
Qed.
