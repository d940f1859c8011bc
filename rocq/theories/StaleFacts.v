(** * The unset velocity command has no influence (C91) *)

From Coq Require Import ZArith List Bool String Lia.
From Verif Require Import Scalar Mat FilterBase Tf StrMap Diagnostics RosFilter RosConfig RosPrepare Ekf Ukf SpecNode SpecStale NodeProofs ConfigProofs ConfigAll ConfigFacts StartFacts.
Import ListNotations.
Local Open Scope list_scope.

Section Stale.
Context {K : Scalar} {E : Type}.
Implicit Types (n : node K E) (f : fb K E).

Definition forget (s : fstate K) : fstate K := mkFs (fs_state s) (fs_P s) (fs_time s) vzero (fs_control_time s).

(** Saved states up to the command. *)
Lemma pop_while_forget (q : fstate K -> bool) (Hq : forall s s', forget s = forget s' -> q s = q s') l l' :
  map forget l = map forget l' ->
  map forget (fst (pop_while q l)) = map forget (fst (pop_while q l')) /\
  map forget (snd (pop_while q l)) = map forget (snd (pop_while q l')).
Proof.
  revert l'. induction l as [|s l IH]; intros [|s' l'] H; try discriminate; [split; reflexivity|].
  cbn [map] in H. injection H as H1 H2 H3 H4 H5. 
  assert (HF : forget s = forget s') by (unfold forget; congruence).
  cbn [pop_while]. rewrite (Hq _ _ HF). destruct (q s').
  - destruct (IH _ H5) as (I1 & I2). destruct (pop_while q l), (pop_while q l'). cbn in *. split; [exact I1|]. rewrite HF, I2. reflexivity.
  - cbn. rewrite HF, H5. split; reflexivity.
Qed.
Lemma pop_back_forget (q : fstate K -> bool) (Hq : forall s s', forget s = forget s' -> q s = q s') l l' :
  map forget l = map forget l' ->
  map forget (fst (pop_back_while q l)) = map forget (fst (pop_back_while q l')) /\
  map forget (snd (pop_back_while q l)) = map forget (snd (pop_back_while q l')).
Proof.
  intros H. unfold pop_back_while. assert (HR : map forget (rev l) = map forget (rev l')) by (rewrite !map_rev, H; reflexivity).
  destruct (pop_while_forget q Hq _ _ HR) as (A & B). destruct (pop_while q (rev l)), (pop_while q (rev l')). cbn in *.
  split; [rewrite !map_rev, A; reflexivity|exact B].
Qed.
Lemma last_forget l l' : map forget l = map forget l' ->
  option_map forget (last_opt l) = option_map forget (last_opt l').
Proof.
  intros H. unfold last_opt. assert (HR : map forget (rev l) = map forget (rev l')) by (rewrite !map_rev, H; reflexivity).
  destruct (rev l), (rev l'); try discriminate; [reflexivity|]. cbn in *. congruence.
Qed.

(** ** Related nodes *)
Variable T : Z.
Definition quiet f : Prop :=
  fb_use_control f = false \/ (fb_control_time f = 0%Z /\ (fb_control_timeout f <= T)%Z).
Definition rel n n' : Prop :=
  exists u hs, n' = with_state_hist (with_filter n (set_control (n_filter n) u)) hs /\
    map forget hs = map forget (n_state_hist n) /\ (u = fb_control (n_filter n) \/ quiet (n_filter n)).

Lemma set_same f : set_control f (fb_control f) = f.
Proof. destruct f; reflexivity. Qed.
Lemma quiet_at f r : quiet f -> (T <= r)%Z -> timed_out_at f r.
Proof. intros [H|(H1 & H2)] Hr; [left; exact H|right]. rewrite H1. lia. Qed.
Lemma same_quiet f f' : same_settings f f' -> quiet f -> quiet f'.
Proof. unfold same_settings, quiet. intros (-> & -> & ->). exact (fun x => x). Qed.

Variable vt : vtbl K E.
Hypothesis Hvt : blind_when_timed_out vt.

Lemma process_rel f u m : (u = fb_control f \/ quiet f) -> (T <= m_time m)%Z ->
  exists v, processMeasurement vt (set_control f u) m = set_control (processMeasurement vt f m) v /\
    (v = fb_control (processMeasurement vt f m) \/ quiet (processMeasurement vt f m)).
Proof.
  intros [->|Q] Hm.
  - exists (fb_control (processMeasurement vt f m)). rewrite !set_same. auto.
  - destruct Hvt as (V1 & V2 & V3 & V4). exists u. unfold processMeasurement. cbn [set_control fb_initialized fb_last_time].
    destruct (fb_initialized f).
    + assert (HP : v_predict vt (set_control f u) (m_time m) (m_time m - fb_last_time f) =
                   set_control (v_predict vt f (m_time m) (m_time m - fb_last_time f)) u)
        by (apply V1; apply quiet_at; assumption).
      destruct (_ >? 0)%Z.
      * rewrite HP. cbn [fb_state set_control].
        change (set_predicted (set_control ?x ?y) ?z) with (set_control (set_predicted x z) y).
        change (set_control (set_predicted ?x ?z) u) with (with_command u (set_predicted x z)). rewrite V2.
        set (s2 := v_correct vt _ m). split; [destruct (_ >=? 0)%Z; reflexivity|].
        right. assert (Q2 : quiet s2).
        { subst s2. eapply same_quiet; [apply V4|]. eapply (same_quiet (v_predict vt f (m_time m) (m_time m - fb_last_time f)));
            [repeat split|]. eapply same_quiet; [apply V3|exact Q]. }
        destruct (_ >=? 0)%Z; exact Q2.
      * change (set_control f u) with (with_command u f). rewrite V2.
        split; [destruct (_ >=? 0)%Z; reflexivity|]. right.
        assert (Q2 : quiet (v_correct vt f m)) by (eapply same_quiet; [apply V4|exact Q]).
        destruct (_ >=? 0)%Z; exact Q2.
    + split; [reflexivity|]. right. exact Q.
Qed.

Lemma rel_intro n u hs : map forget hs = map forget (n_state_hist n) -> (u = fb_control (n_filter n) \/ quiet (n_filter n)) ->
  rel n (with_state_hist (with_filter n (set_control (n_filter n) u)) hs).
Proof. intros H Q. exists u, hs. auto. Qed.

Lemma save_rel n n' : rel n n' -> rel (saveFilterState n) (saveFilterState n').
Proof.
  intros (u & hs & -> & H & Q). unfold saveFilterState.
  exists u, (hs ++ [mkFs (fb_state (n_filter n)) (fb_P (n_filter n)) (fb_last_time (n_filter n)) u (fb_control_time (n_filter n))]).
  split; [reflexivity|]. cbn [n_state_hist with_state_hist n_filter]. rewrite !map_app, H. split; [reflexivity|exact Q].
Qed.

Lemma loop_rel pq c fuel now : forall restored n n', rel n n' ->
  let r := integrate_loop pq vt c fuel now restored n in
  let r' := integrate_loop pq vt c fuel now restored n' in
  fused_from T (snd r) -> rel (fst r) (fst r') /\ map observed (snd r) = map observed (snd r').
Proof.
  induction fuel as [|fuel IH]; intros restored n n' R; [cbn; auto|].
  destruct R as (u & hs & -> & H & Q). cbn [integrate_loop n_queue with_state_hist with_filter n_filter].
  destruct (pq_pop pq (n_queue n)) as [[m rest]|]; [|cbn; intros _; split; [apply rel_intro; assumption|reflexivity]].
  destruct (now <? m_time m)%Z; [cbn; intros _; split; [apply rel_intro; assumption|reflexivity]|].
  set (use := (c_use_control c && (restored >? 0)%Z)%bool).
  set (f1 := if use then setControl (n_filter n) (m_control m) (m_control_time m) else n_filter n).
  set (f1' := if use then setControl (set_control (n_filter n) u) (m_control m) (m_control_time m) else set_control (n_filter n) u).
  assert (HF : exists u1, f1' = set_control f1 u1 /\ (u1 = fb_control f1 \/ quiet f1)).
  { subst f1 f1'. destruct use; [|exists u; auto]. exists (m_control m). split; [reflexivity|left; reflexivity]. }
  destruct HF as (u1 & EF & Q1).
  cbv zeta.
  match goal with |- context [integrate_loop pq vt c fuel now ?re (if c_smooth c then match pq_pop pq rest with None => saveFilterState (with_meas_hist ?A _) | _ => _ end else _)] =>
    set (n1 := A) end.
  match goal with |- context [integrate_loop pq vt c fuel now ?re (if c_smooth c then match pq_pop pq rest with None => saveFilterState (with_meas_hist (with_filter ?A (processMeasurement vt f1' m)) _) | _ => _ end else _)] =>
    set (n1' := with_filter A (processMeasurement vt f1' m)) end.
  match goal with |- context [integrate_loop pq vt c fuel now ?re ?A] => set (re0 := re); set (n2 := A) end.
  match goal with |- context [let '(_, _) := integrate_loop pq vt c fuel now re0 ?A in (_, OutFused f1' m :: _)] => set (n2' := A) end.
  destruct (integrate_loop pq vt c fuel now re0 n2) as [n3 o3] eqn:E3.
  destruct (integrate_loop pq vt c fuel now re0 n2') as [n3' o3'] eqn:E3'. cbn [fst snd]. intros HT.
  inversion HT as [|? ? Hm HT']; subst.
  destruct (process_rel f1 u1 m Q1 Hm) as (v & EP & QP). rewrite <- EF in EP.
  assert (R1 : rel n1 n1').
  { exists v, hs. split; [|split; [exact H|exact QP]]. unfold n1, n1'. rewrite EP. reflexivity. }
  assert (R2 : rel n2 n2').
  { unfold n2, n2'. destruct (c_smooth c); [|exact R1].
    assert (RM : rel (with_meas_hist n1 (n_meas_hist n1 ++ [m])) (with_meas_hist n1' (n_meas_hist n1' ++ [m]))).
    { destruct R1 as (v1 & h1 & -> & A & B). exists v1, h1. split; [reflexivity|]. split; [exact A|exact B]. }
    destruct (pq_pop pq rest) as [[top ?]|]; [|apply save_rel; exact RM].
    assert (EL : fb_last_time (n_filter (with_meas_hist n1' (n_meas_hist n1' ++ [m]))) =
                 fb_last_time (n_filter (with_meas_hist n1 (n_meas_hist n1 ++ [m])))).
    { destruct RM as (v1 & h1 & -> & _). reflexivity. }
    rewrite EL. destruct (negb _); [apply save_rel; exact RM|exact RM]. }
  specialize (IH re0 n2 n2' R2). rewrite E3, E3' in IH. cbv zeta in IH. cbn [fst snd] in IH. destruct (IH HT') as (A & B).
  split; [exact A|]. cbn [map]. rewrite B. f_equal. rewrite EF. reflexivity.
Qed.

Lemma restore_rel pq n n' s s' t : rel n n' -> forget s = forget s' ->
  rel (restoreSnapshot pq n s t) (restoreSnapshot pq n' s' t).
Proof.
  intros (u & hs & -> & H & Q) HF. unfold restoreSnapshot. cbn [n_meas_hist with_state_hist with_filter n_queue n_filter].
  assert (E1 : fs_state s' = fs_state s) by (change (fs_state s) with (fs_state (forget s)); rewrite HF; reflexivity).
  assert (E2 : fs_P s' = fs_P s) by (change (fs_P s) with (fs_P (forget s)); rewrite HF; reflexivity).
  assert (E3 : fs_time s' = fs_time s) by (change (fs_time s) with (fs_time (forget s)); rewrite HF; reflexivity).
  rewrite E1, E2, E3. destruct (pop_back_while _ _) as [kept popped].
  exists u, hs. split; [reflexivity|]. split; [exact H|exact Q].
Qed.
Lemma revert_rel pq n n' t : rel n n' -> rel (snd (revertTo pq n t)) (snd (revertTo pq n' t)).
Proof.
  intros R. assert (R0 := R). destruct R as (u & hs & E' & H & Q). unfold revertTo.
  assert (Hq : forall s s' : fstate K, forget s = forget s' -> (fs_time s >? t)%Z = (fs_time s' >? t)%Z).
  { intros s s' HF. change (fs_time s) with (fs_time (forget s)). rewrite HF. reflexivity. }
  assert (HH : n_state_hist n' = hs) by (rewrite E'; reflexivity).
  rewrite <- HH in H. destruct (pop_back_forget _ Hq _ _ H) as (A & B).
  destruct (pop_back_while _ (n_state_hist n)) as [k d]. destruct (pop_back_while _ (n_state_hist n')) as [k' d']. cbn [fst snd] in A, B.
  assert (RK : rel (with_state_hist n k) (with_state_hist n' k')).
  { rewrite E'. exists u, k'. split; [reflexivity|]. split; [exact A|exact Q]. }
  pose proof (last_forget _ _ A) as LA. pose proof (last_forget _ _ B) as LB.
  destruct (last_opt k) as [s|], (last_opt k') as [s'|]; try discriminate; cbn [snd].
  - apply restore_rel; [exact RK|]. cbn in LA. congruence.
  - destruct (last_opt d) as [s|], (last_opt d') as [s'|]; try discriminate; cbn [snd]; [|exact RK].
    apply restore_rel; [exact RK|]. cbn in LB. congruence.
Qed.

Lemma rel_queue n n' : rel n n' -> n_queue n' = n_queue n.
Proof. intros (u & hs & -> & _). reflexivity. Qed.
Lemma lag_rel pq c n n' : rel n n' ->
  fst (revert_if_lagged pq c n') = fst (revert_if_lagged pq c n) /\ rel (snd (revert_if_lagged pq c n)) (snd (revert_if_lagged pq c n')).
Proof.
  intros R. unfold revert_if_lagged. rewrite (rel_queue _ _ R).
  assert (EL : fb_last_time (n_filter n') = fb_last_time (n_filter n)) by (destruct R as (u & hs & -> & _); reflexivity).
  destruct (pq_pop pq (n_queue n)) as [[m r]|]; [|cbn; auto]. rewrite EL.
  destruct (_ && _)%bool; [|cbn; auto]. cbn [fst snd].
  pose proof (revert_rel pq n n' (m_time m - 1) R) as R1. rewrite (rel_queue _ _ R1), ?(rel_queue _ _ R). auto.
Qed.

Lemma predict_rel f u r d : (u = fb_control f \/ quiet f) -> (T <= r)%Z ->
  exists v, v_predict vt (set_control f u) r d = set_control (v_predict vt f r d) v /\
    (v = fb_control (v_predict vt f r d) \/ quiet (v_predict vt f r d)).
Proof.
  intros [->|Q] Hr.
  - exists (fb_control (v_predict vt f r d)). rewrite !set_same. auto.
  - destruct Hvt as (V1 & V2 & V3 & V4). exists u. split; [apply (V1 f u r d); apply quiet_at; assumption|]. right. eapply same_quiet; [apply V3|exact Q].
Qed.

Lemma rel_fields n n' : rel n n' -> fb_initialized (n_filter n') = fb_initialized (n_filter n) /\
  fb_last_time (n_filter n') = fb_last_time (n_filter n) /\ fb_sensor_timeout (n_filter n') = fb_sensor_timeout (n_filter n) /\
  fb_state (n_filter n') = fb_state (n_filter n) /\ fb_P (n_filter n') = fb_P (n_filter n).
Proof. intros (u & hs & -> & _). repeat split. Qed.

Lemma fused_app os os' : fused_from (K := K) (E := E) T (os ++ os') -> fused_from T os /\ fused_from T os'.
Proof. intros H. apply Forall_app in H. exact H. Qed.

Lemma integrate_rel pq c now n n' : rel n n' -> (T <= now)%Z ->
  let r := integrateMeasurements pq vt c now n in
  let r' := integrateMeasurements pq vt c now n' in
  fused_from T (snd r) -> rel (fst r) (fst r') /\ map observed (snd r) = map observed (snd r').
Proof.
  intros R Hn r r'. subst r r'. unfold integrateMeasurements. rewrite (rel_queue _ _ R).
  destruct (rel_fields _ _ R) as (F1 & F2 & F3 & _).
  set (A := match pq_pop pq (n_queue n) with Some _ => _ | None => _ end).
  set (A' := match pq_pop pq (n_queue n) with Some _ => let '(_, _) := revert_if_lagged pq c n' in _ | None => _ end).
  assert (HA : fused_from T (snd (fst A)) -> rel (fst (fst A)) (fst (fst A')) /\ map observed (snd (fst A)) = map observed (snd (fst A')) /\ snd A = snd A').
  { subst A A'. destruct (pq_pop pq (n_queue n)).
    - destruct (lag_rel pq c n n' R) as (L1 & L2). destruct (revert_if_lagged pq c n) as [z m0]. destruct (revert_if_lagged pq c n') as [z' m0'].
      cbn [fst snd] in *. subst z'. rewrite (rel_queue _ _ L2).
      pose proof (loop_rel pq c (List.length (n_queue m0)) now z m0 m0' L2) as HL.
      destruct (integrate_loop pq vt c (List.length (n_queue m0)) now z m0) as [m1 o1].
      destruct (integrate_loop pq vt c (List.length (n_queue m0)) now z m0') as [m1' o1']. cbn [fst snd] in *. intros HT. destruct (HL HT). auto.
    - rewrite F1, F2, F3. destruct (fb_initialized (n_filter n)); cbn; auto. }
  destruct A as [[n1 o1] p]. destruct A' as [[n1' o1'] p']. cbn [fst snd] in HA. intros HT.
  assert (HT1 : fused_from T o1).
  { destruct (_ && _)%bool in HT; cbn [snd] in HT; [apply fused_app in HT; tauto|exact HT]. }
  destruct (HA HT1) as (R1 & O1 & <-). destruct (rel_fields _ _ R1) as (G1 & G2 & _). rewrite G1.
  destruct (fb_initialized (n_filter n1) && p)%bool; cbn [fst snd]; [|auto].
  rewrite G2. destruct R1 as (u & hs & -> & H & Q). cbn [n_filter with_state_hist with_filter].
  destruct (predict_rel (n_filter n1) u now (now - fb_last_time (n_filter n1)) Q Hn) as (v & EP & QP). rewrite EP.
  split; [|rewrite !map_app, O1; reflexivity].
  exists v, hs. split; [reflexivity|]. split; [exact H|]. exact QP.
Qed.

Lemma differentiate_rel now n n' : rel n n' -> rel (differentiateMeasurements now n) (differentiateMeasurements now n').
Proof.
  intros (u & hs & -> & H & Q). unfold differentiateMeasurements. cbn [n_filter with_state_hist with_filter fb_initialized set_control fb_state fb_P n_ang].
  destruct (fb_initialized (n_filter n)); exists u, hs; auto.
Qed.

Lemma obs_plain os : (forall f m, ~ In (OutFused f m) os) -> map (observed (K := K) (E := E)) os = os.
Proof.
  induction os as [|o os IH]; intros H; [reflexivity|]. cbn [map]. rewrite IH by (intros f m I; apply (H f m); right; exact I).
  f_equal. destruct o; try reflexivity. exfalso. eapply H. left; reflexivity.
Qed.

(** The publishing part of a cycle. *)
Definition cycle_tail (c : config K) (cur : Z) (lookup : option (trans K)) (n1 : node K E) (o1 : list (output K E)) : node K E * list (output K E) :=
    let '(n2, o2, corrected) :=
      match getFilteredOdometryMessage c n1 with
      | Some o =>
          let corrected := (negb (c_permit c) && Z.geb (n_last_pub n1) (o_stamp o))%bool in
          (with_last_pub n1 (o_stamp o),
           (if validateFilterOutput o then [] else [OutNonFinite]) ++
           (if (c_publish_tf c && negb corrected)%bool then broadcast c o lookup else []) ++
           (if corrected then [] else [OutOdom o]),
           corrected)
      | None => (n1, [], false)
      end in
    let o3 :=
      if (negb corrected && c_publish_acc c)%bool then
        match getFilteredAccelMessage c n2 with Some a => [OutAccel a] | None => [] end
      else [] in
    let duration := (cur - n_last_diag n2)%Z in
    let '(n3, o4) :=
      if (c_print_diag c && (Z.geb duration (c_diag_period c) || Z.ltb duration 0))%bool then
        let '(r, d) := aggregateDiagnostics (n_diag n2) in
        (with_last_diag (with_diag n2 d) cur, [OutReport r])
      else (n2, []) in
    let n4 := if c_smooth c
              then clearExpiredHistory n3 (fb_last_time (n_filter n3) - c_history c) else n3 in
    (n4, o1 ++ o2 ++ o3 ++ o4).
Lemma expire_rel n n' t : rel n n' -> rel (clearExpiredHistory n t) (clearExpiredHistory n' t).
Proof.
  intros (u & hs & -> & H & Q). unfold clearExpiredHistory, pop_front_while. cbn [n_meas_hist n_state_hist with_state_hist with_filter].
  assert (Hq : forall s s' : fstate K, forget s = forget s' -> (fs_time s <? t)%Z = (fs_time s' <? t)%Z).
  { intros s s' HF. change (fs_time s) with (fs_time (forget s)). rewrite HF. reflexivity. }
  destruct (pop_while_forget _ Hq _ _ H) as (A & _).
  exists u, (fst (pop_while (fun s => (fs_time s <? t)%Z) hs)). split; [reflexivity|]. split; [exact A|exact Q].
Qed.
Lemma tail_rel c cur lookup n n' o o' : rel n n' -> map observed o = map observed o' ->
  rel (fst (cycle_tail c cur lookup n o)) (fst (cycle_tail c cur lookup n' o')) /\
  map observed (snd (cycle_tail c cur lookup n o)) = map observed (snd (cycle_tail c cur lookup n' o')).
Proof.
  intros R Ho. unfold cycle_tail.
  assert (EO : getFilteredOdometryMessage c n' = getFilteredOdometryMessage c n) by (destruct R as (u & hs & -> & _); reflexivity).
  assert (EL : n_last_pub n' = n_last_pub n) by (destruct R as (u & hs & -> & _); reflexivity). rewrite EO, EL.
  set (A := match getFilteredOdometryMessage c n with Some _ => _ | None => _ end).
  set (A' := match getFilteredOdometryMessage c n with Some _ => (with_last_pub n' _, _, _) | None => _ end).
  assert (HA : rel (fst (fst A)) (fst (fst A')) /\ snd (fst A') = snd (fst A) /\ snd A' = snd A).
  { subst A A'. destruct (getFilteredOdometryMessage c n); cbn [fst snd]; [|auto]. split; [|auto].
    destruct R as (u & hs & -> & H & Q). exists u, hs. auto. }
  destruct A as [[n2 o2] k]. destruct A' as [[n2' o2'] k']. cbn [fst snd] in HA. destruct HA as (R2 & -> & ->). clear R EO EL n n'.
  assert (EA : getFilteredAccelMessage c n2' = getFilteredAccelMessage c n2) by (destruct R2 as (u & hs & -> & _); reflexivity).
  assert (ED : n_last_diag n2' = n_last_diag n2 /\ n_diag n2' = n_diag n2) by (destruct R2 as (u & hs & -> & _); auto).
  destruct ED as (ED1 & ED2). cbv zeta. rewrite EA, ED1, ED2.
  set (o3 := if (negb k && c_publish_acc c)%bool then _ else _).
  set (B := if (c_print_diag c && _)%bool then let '(r, d) := aggregateDiagnostics (n_diag n2) in (with_last_diag (with_diag n2 d) cur, [OutReport r]) else (n2, [])).
  set (B' := if (c_print_diag c && _)%bool then let '(r, d) := aggregateDiagnostics (n_diag n2) in (with_last_diag (with_diag n2' d) cur, [OutReport r]) else (n2', [])).
  assert (HB : rel (fst B) (fst B') /\ snd B' = snd B).
  { subst B B'. destruct (c_print_diag c && _)%bool; cbn [fst snd]; [|auto]. destruct (aggregateDiagnostics (n_diag n2)) as [r d]. cbn [fst snd].
    split; [|reflexivity]. destruct R2 as (u & hs & -> & H & Q). exists u, hs. auto. }
  destruct B as [n3 o4]. destruct B' as [n3' o4']. cbn [fst snd] in HB. destruct HB as (R3 & ->). cbn [fst snd].
  split; [|rewrite !map_app, Ho; reflexivity].
  destruct (rel_fields _ _ R3) as (_ & EL & _). destruct (c_smooth c); [|exact R3]. rewrite EL. apply expire_rel. exact R3.
Qed.

Lemma tail_outputs c cur lookup n o : exists o', snd (cycle_tail c cur lookup n o) = o ++ o'.
Proof.
  unfold cycle_tail. destruct (match getFilteredOdometryMessage c n with Some _ => _ | None => _ end) as [[n2 o2] k]. cbv zeta.
  destruct (if (c_print_diag c && _)%bool then _ else _) as [n3 o4]. eexists. reflexivity.
Qed.

Lemma cycle_rel pq c cur later lookup n n' : rel n n' -> (T <= cur)%Z ->
  let r := periodicUpdate pq vt c cur later lookup n in
  let r' := periodicUpdate pq vt c cur later lookup n' in
  fused_from T (snd r) -> rel (fst r) (fst r') /\ map observed (snd r) = map observed (snd r').
Proof.
  intros R Hc r r'. subst r r'.
  assert (EP : forall n, periodicUpdate pq vt c cur later lookup n =
    if negb (n_enabled n) then (n, []) else
    let '(n1, o1) :=
      if n_toggled n then
        let '(n0, o) := integrateMeasurements pq vt c cur n in
        (differentiateMeasurements cur n0, o)
      else
        let n0 := clearMeasurementQueue n in
        ((if fb_initialized (n_filter n0)
          then with_filter n0 (setLastMeasurementTime (n_filter n0) later) else n0), []) in
    cycle_tail c cur lookup n1 o1) by reflexivity.
  rewrite !EP. clear EP.
  assert (Een : n_enabled n' = n_enabled n /\ n_toggled n' = n_toggled n) by (destruct R as (u & hs & -> & _); auto).
  destruct Een as (-> & ->). destruct (negb (n_enabled n)); [cbn; auto|].
  set (A := if n_toggled n then _ else _).
  set (A' := if n_toggled n then let '(_, _) := integrateMeasurements pq vt c cur n' in _ else _).
  assert (HA : fused_from T (snd A) -> rel (fst A) (fst A') /\ map observed (snd A) = map observed (snd A')).
  { subst A A'. destruct (n_toggled n).
    - pose proof (integrate_rel pq c cur n n' R Hc) as HI. destruct (integrateMeasurements pq vt c cur n) as [m o].
      destruct (integrateMeasurements pq vt c cur n') as [m' o']. cbn [fst snd] in *. intros HT. destruct (HI HT) as (I1 & I2).
      split; [apply differentiate_rel; exact I1|exact I2].
    - cbn [fst snd]. intros _. split; [|reflexivity]. destruct R as (u & hs & -> & H & Q).
      cbn [clearMeasurementQueue with_queue with_state_hist with_filter n_filter set_control fb_initialized].
      destruct (fb_initialized (n_filter n)); exists u, hs; auto. }
  destruct A as [n1 o1]. destruct A' as [n1' o1']. cbn [fst snd] in HA. intros HT.
  destruct (tail_outputs c cur lookup n1 o1) as (o2 & E2). rewrite E2 in HT. apply fused_app in HT. destruct HT as (HT & _).
  destruct (HA HT) as (R1 & O1). apply tail_rel; assumption.
Qed.

Lemma sensor_rel pq warn topic stamp upd thresh prep n n' : rel n n' -> blind_prep prep ->
  let r := sensorCallback pq warn topic stamp upd thresh prep n in
  let r' := sensorCallback pq warn topic stamp upd thresh prep n' in
  rel (fst r) (fst r') /\ map observed (snd r) = map observed (snd r').
Proof.
  intros (u & hs & -> & H & Q) HB r r'. subst r r'. unfold sensorCallback. cbn [n_set_pose with_state_hist with_filter n_last_msg].
  destruct (n_set_pose n >=? stamp)%Z.
  { cbn [fst snd]. split; [|reflexivity]. destruct warn; exists u, hs; auto. }
  set (n1 := if sm_mem (n_last_msg n) topic then n else with_last_msg n (sm_set (n_last_msg n) topic stamp)).
  match goal with |- context [sm_find (n_last_msg ?A) topic] =>
    match A with context [with_state_hist] => set (n1' := A) end end.
  assert (E1 : n1' = with_state_hist (with_filter n1 (set_control (n_filter n1) u)) hs).
  { subst n1 n1'. destruct (sm_mem (n_last_msg n) topic); reflexivity. }
  assert (EH : n_state_hist n1 = n_state_hist n /\ n_filter n1 = n_filter n) by (subst n1; destruct (sm_mem (n_last_msg n) topic); auto).
  destruct EH as (EH & EF). rewrite <- EH in H. rewrite <- EF in Q. clearbody n1 n1'. subst n1'. cbn [n_last_msg with_state_hist with_filter].
  destruct (sm_find (n_last_msg n1) topic) as [last|]; [|cbn [fst snd]; split; [exists u, hs; auto|reflexivity]].
  destruct (last <=? stamp)%Z; [|cbn [fst snd]; split; [exists u, hs; auto|reflexivity]].
  cbv zeta.
  change (prep (with_state_hist (with_filter n1 (set_control (n_filter n1) u)) hs)) with (prep (with_state_hist (other_memory u n1) hs)).
  rewrite (HB n1 u hs). set (pr := prep n1 upd vzero mzero). destruct (pr_ok pr); cbn [fst snd].
  - split; [exists u, hs; auto|reflexivity].
  - split; [exists u, hs; auto|reflexivity].
Qed.

Lemma step_rel pq c ev n n' : rel n n' -> blind_event ev -> cycles_from T [ev] ->
  fused_from T (snd (node_step pq vt c n ev)) ->
  rel (fst (node_step pq vt c n ev)) (fst (node_step pq vt c n' ev)) /\
  map observed (snd (node_step pq vt c n ev)) = map observed (snd (node_step pq vt c n' ev)).
Proof.
  intros R HB HC HT. inversion HC as [|? ? HC1 _]; subst.
  destruct ev as [warn topic stamp upd thresh prep|frame ctl stamp|on| | |stamp prep now| |cur later lookup]; cbn [node_step] in *.
  - apply sensor_rel; assumption.
  - split; [|reflexivity]. cbn [fst]. unfold controlStampedCallback. destruct (_ || _)%bool; [|exact R].
    destruct R as (u & hs & -> & H & Q). exists ctl, hs. split; [reflexivity|]. split; [exact H|]. left. reflexivity.
  - unfold toggleFilterProcessingCallback. assert (E1 : n_toggled n' = n_toggled n) by (destruct R as (u & hs & -> & _); auto). rewrite E1.
    destruct (Bool.eqb on (n_toggled n)); [cbn; auto|]. cbn [fst snd]. split; [|reflexivity]. destruct R as (u & hs & -> & H & Q). exists u, hs; auto.
  - unfold enableFilterSrvCallback. assert (E1 : n_enabled n' = n_enabled n) by (destruct R as (u & hs & -> & _); auto). rewrite E1.
    cbn [fst snd]. split; [|reflexivity]. destruct (n_enabled n); [exact R|]. destruct R as (u & hs & -> & H & Q). exists u, hs; auto.
  - cbn [fst snd]. split; [|reflexivity]. destruct R as (u & hs & -> & H & Q). exists u, []. split; [reflexivity|]. split; [reflexivity|]. exact Q.
  - cbn [fst snd]. split; [|reflexivity]. destruct R as (u & hs & -> & H & Q). unfold setPoseCallback. cbv zeta.
    match goal with |- context [prep (with_set_pose (with_state_hist (with_meas_hist (clearMeasurementQueue (with_streams (with_state_hist (with_filter n ?g) hs) no_streams)) []) []) stamp)] =>
      change (prep (with_set_pose (with_state_hist (with_meas_hist (clearMeasurementQueue (with_streams (with_state_hist (with_filter n g) hs) no_streams)) []) []) stamp)) with
      (prep (with_state_hist (other_memory u (with_set_pose (with_state_hist (with_meas_hist (clearMeasurementQueue (with_streams n no_streams)) []) []) stamp)) [])) end.
    rewrite (HB _ u []). set (pr := prep _ _ _ _). clearbody pr.
    exists u, []. split; [reflexivity|]. split; [reflexivity|]. exact Q.
  - assert (E1 : n_diag n' = n_diag n) by (destruct R as (u & hs & -> & _); auto). rewrite E1.
    destruct (aggregateDiagnostics (n_diag n)) as [r d]. cbn [fst snd]. split; [|reflexivity]. destruct R as (u & hs & -> & H & Q). exists u, hs; auto.
  - apply cycle_rel; assumption.
Qed.

Theorem run_rel pq c es : forall n n', rel n n' -> Forall blind_event es -> cycles_from T es ->
  fused_from T (snd (node_run pq vt c n es)) ->
  map observed (snd (node_run pq vt c n es)) = map observed (snd (node_run pq vt c n' es)).
Proof.
  induction es as [|ev es IH]; intros n n' R HB HC HT; [reflexivity|]. cbn [node_run] in *.
  inversion HB; subst. inversion HC; subst.
  pose proof (step_rel pq c ev n n' R) as HS. destruct (node_step pq vt c n ev) as [n1 o1]. destruct (node_step pq vt c n' ev) as [n1' o1']. cbn [fst snd] in HS.
  specialize (IH n1 n1'). destruct (node_run pq vt c n1 es) as [n2 o2]. destruct (node_run pq vt c n1' es) as [n2' o2']. cbn [snd] in *.
  apply fused_app in HT. destruct HT as (HT1 & HT2). destruct HS as (R1 & O1); try assumption.
  { constructor; [assumption|constructor]. }
  rewrite !map_app, O1, IH by assumption. reflexivity.
Qed.

(** Another content of the command member of an unfused node. *)
Lemma memory_rel n u : quiet (n_filter n) -> rel n (other_memory u n).
Proof. intros Q. exists u, (n_state_hist n). split; [destruct n; reflexivity|]. split; [reflexivity|]. right. exact Q. Qed.
End Stale.

(** ** The two filters *)
Lemma ekf_blind {K : Scalar} eig : blind_when_timed_out (@ekf_vtbl K eig).
Proof.
  split; [|split; [|split]].
  - intros f u r d H. cbn [ekf_vtbl v_predict]. unfold with_command.
    assert (HC : fb_control_acc (prepareControl (set_control f u) r) = fb_control_acc (prepareControl f r)).
    { unfold prepareControl. cbn [set_control_acc fb_control_acc set_control fb_use_control fb_control_upd fb_state fb_control fb_acc_limits fb_acc_gains fb_dec_limits fb_dec_gains].
      change (control_timed_out (set_control f u) r) with (control_timed_out f r).
      destruct H as [->|H]; [reflexivity|].
      assert (X : control_timed_out f r = true) by (unfold control_timed_out; apply Z.geb_le; exact H). rewrite X. reflexivity. }
    assert (HP : prepareControl (set_control f u) r = set_control (prepareControl f r) u).
    { unfold prepareControl in *. cbn [set_control_acc fb_control_acc] in HC. rewrite HC. reflexivity. }
    unfold ekf_predict. rewrite HP. generalize (prepareControl f r). intros g. destruct g as [a1 a2 [|] a4 a5 a6 a7 a8 a9 a10 a11 a12 a13 a14 a15 a16 a17 a18 a19 a20 a21 a22]; reflexivity.
  - intros f u m. cbn [ekf_vtbl v_correct]. unfold ekf_correct, with_command. cbn [fb_state fb_P set_control]. destruct (checkMahalanobisThreshold _ _ _ _); reflexivity.
  - intros f r d. cbn [ekf_vtbl v_predict]. unfold ekf_predict, prepareControl. destruct f as [a1 a2 [|] a4 a5 a6 a7 a8 a9 a10 a11 a12 a13 a14 a15 a16 a17 a18 a19 a20 a21 a22]; repeat split.
  - intros f m. cbn [ekf_vtbl v_correct]. unfold ekf_correct. destruct (checkMahalanobisThreshold _ _ _ _); repeat split.
Qed.
Lemma ukf_blind {K : Scalar} eig : blind_when_timed_out (@ukf_vtbl K eig).
Proof.
  split; [|split; [|split]].
  - intros f u r d H. cbn [ukf_vtbl v_predict]. unfold with_command.
    assert (HC : fb_control_acc (prepareControl (set_control f u) r) = fb_control_acc (prepareControl f r)).
    { unfold prepareControl. cbn [set_control_acc fb_control_acc set_control fb_use_control fb_control_upd fb_state fb_control fb_acc_limits fb_acc_gains fb_dec_limits fb_dec_gains].
      change (control_timed_out (set_control f u) r) with (control_timed_out f r).
      destruct H as [->|H]; [reflexivity|].
      assert (X : control_timed_out f r = true) by (unfold control_timed_out; apply Z.geb_le; exact H). rewrite X. reflexivity. }
    assert (HP : prepareControl (set_control f u) r = set_control (prepareControl f r) u).
    { unfold prepareControl in *. cbn [set_control_acc fb_control_acc] in HC. rewrite HC. reflexivity. }
    unfold ukf_predict. rewrite HP. generalize (prepareControl f r). intros g.
    destruct g as [a1 a2 [|] a4 a5 a6 a7 a8 a9 a10 a11 a12 a13 a14 a15 a16 a17 a18 a19 a20 a21 a22];
    cbv zeta; unfold generateSigmaPoints; cbn [fb_ext fb_F set_control set_ext fb_state fb_P];
    destruct (project_all _ _ _ _); reflexivity.
  - intros f u m. cbn [ukf_vtbl v_correct]. unfold ukf_correct, with_command. cbn [fb_ext set_control].
    destruct (u_uncorrected (fb_ext f)); cbv zeta; unfold generateSigmaPoints; cbn [fb_state fb_P set_control fb_ext set_ext];
    destruct (checkMahalanobisThreshold _ _ _ _); reflexivity.
  - intros f r d. cbn [ukf_vtbl v_predict]. unfold ukf_predict, prepareControl, generateSigmaPoints.
    destruct f as [a1 a2 [|] a4 a5 a6 a7 a8 a9 a10 a11 a12 a13 a14 a15 a16 a17 a18 a19 a20 a21 a22]; cbv zeta; cbn [fb_ext fb_F set_control set_ext fb_state fb_P set_control_acc];
    destruct (project_all _ _ _ _); repeat split.
  - intros f m. cbn [ukf_vtbl v_correct]. unfold ukf_correct, generateSigmaPoints. cbv zeta. destruct (u_uncorrected (fb_ext f)); destruct (checkMahalanobisThreshold _ _ _ _); repeat split.
Qed.

(** ** Preparation *)
Lemma pose_blind {K : Scalar} {E : Type} e c msg topic target source differential relative imu :
  blind_prep (preparePose (K := K) (E := E) e c msg topic target source differential relative imu).
Proof. intros n u hs. reflexivity. Qed.
Lemma twist_blind {K : Scalar} {E : Type} e c msg topic target : blind_prep (prepareTwist (K := K) (E := E) e c msg topic target).
Proof. intros n u hs. reflexivity. Qed.
Lemma acceleration_blind {K : Scalar} {E : Type} e c msg topic target relative :
  blind_prep (prepareAcceleration (K := K) (E := E) e c msg topic target relative).
Proof. intros n u hs. reflexivity. Qed.

(** ** A started node *)
Lemma start_memory {K : Scalar} {E : Type} (p : params K) period now later g g' (e : E) ang nothing ld n :
  start p period now later (fb_init g e) ang nothing = Ok (ld, n) ->
  exists ld', start p period now later (fb_init g' e) ang nothing = Ok (ld', other_memory g' n) /\ ld_config ld' = ld_config ld.
Proof.
  intros H. apply start_eq in H. destruct H as (H & ->). unfold start. rewrite loadParams_eq in *.
  apply obind_Ok in H. destruct H as (l & HI & H). apply obind_Ok in H. destruct H as (Q & HQ & H).
  apply obind_Ok in H. destruct H as (P & HP & H). cbv zeta in H. apply Ok_inj in H. rewrite HI. cbn [obind]. rewrite HQ. cbn [obind]. rewrite HP. cbn [obind].
  cbv zeta. rewrite <- H. clear H. cbn [ld_config ld_filter ld_diag c_use_control].
  set (u := (cp_use (load_control p) && negb (Z.eqb (accumulate (l_control l)) 0))%bool). clearbody u.
  destruct P, Q, u; cbn [when]; (destruct (p_initial_state p) as [w|]; [destruct (Nat.eqb (List.length w) STATE_SIZE)|]);
    eexists; (split; reflexivity).
Qed.
Lemma start_quiet {K : Scalar} {E : Type} (p : params K) period now later g (e : E) ang nothing ld n :
  start p period now later (fb_init g e) ang nothing = Ok (ld, n) ->
  forall T, (c_use_control (ld_config ld) = true -> (dur_from_seconds (p_control_timeout p) <= T)%Z) -> quiet T (n_filter n).
Proof.
  intros H. apply start_eq in H. destruct H as (H & ->). rewrite loadParams_eq in H.
  apply obind_Ok in H. destruct H as (l & HI & H). apply obind_Ok in H. destruct H as (Q & HQ & H).
  apply obind_Ok in H. destruct H as (P & HP & H). cbv zeta in H. apply Ok_inj in H. rewrite <- H. clear H. intros T.
  cbn [ld_config ld_filter ld_diag c_use_control n_filter with_diag node_init].
  set (u := (cp_use (load_control p) && negb (Z.eqb (accumulate (l_control l)) 0))%bool). clearbody u. unfold quiet.
  destruct u; intros HT; [right|left].
  - specialize (HT eq_refl). destruct P, Q; cbn [when]; (destruct (p_initial_state p) as [w|]; [destruct (Nat.eqb (List.length w) STATE_SIZE)|]);
      cbn; (split; [reflexivity|exact HT]).
  - destruct P, Q; cbn [when]; (destruct (p_initial_state p) as [w|]; [destruct (Nat.eqb (List.length w) STATE_SIZE)|]); reflexivity.
Qed.

(** When control is not used, time does not matter. *)
Definition no_control_quiet {K : Scalar} {E : Type} T (f : fb K E) : fb_use_control f = false -> quiet T f := fun H => or_introl H.

(** Two executions that differ in what the command member held at the start. *)
Theorem unset_command {K : Scalar} {E : Type} (pq : pqueue K) (vt : vtbl K E) (p : params K) period now later g g' (e : E) ang nothing ld n :
  blind_when_timed_out vt -> start p period now later (fb_init g e) ang nothing = Ok (ld, n) ->
  forall es t, Forall blind_event es ->
  (dur_from_seconds (p_control_timeout p) <= t)%Z -> cycles_from t es -> fused_from t (snd (node_run pq vt (ld_config ld) n es)) ->
  exists ld' n', start p period now later (fb_init g' e) ang nothing = Ok (ld', n') /\ ld_config ld' = ld_config ld /\
    map observed (snd (node_run pq vt (ld_config ld') n' es)) = map observed (snd (node_run pq vt (ld_config ld) n es)).
Proof.
  intros Hvt H es t HB HT HC HF. destruct (start_memory p period now later g g' e ang nothing ld n H) as (ld' & H1 & H2).
  exists ld', (other_memory g' n). split; [exact H1|]. split; [exact H2|]. rewrite H2. symmetry.
  apply (run_rel t vt Hvt); try assumption. apply memory_rel. apply (start_quiet _ _ _ _ _ _ _ _ _ _ H). intros _. exact HT.
Qed.
