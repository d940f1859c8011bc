(** * Facts about cycles and runs of the node *)

From Coq Require Import ZArith List Permutation Sorting.Sorted Bool Lia String Arith.
From Verif Require Import Scalar Mat FilterBase Tf StrMap Diagnostics RosFilter SpecNode NodeProofs NodeInv.
Import ListNotations.
Local Open Scope Z_scope.

Section Facts.
Context {K : Scalar} {E : Type}.
Variable pq : pqueue K.
Variable vt : vtbl K E.
Variable c : config K.
Hypothesis Hpq : pq_ok pq.

(** ** Queue accounting *)

Lemma incl_app_split (A : Type) (l a b : list A) : l = a ++ b -> incl b l.
Proof. intros -> x Hx. apply in_or_app; right; exact Hx. Qed.

Lemma revert_queue (n : node K E) : let '(restored, n0) := revert_if_lagged pq c n in
  exists back, Permutation (n_queue n0) (n_queue n ++ back) /\ incl back (n_meas_hist n) /\
    (c_smooth c = false -> back = []) /\ untouched n0 = untouched n /\
    incl (n_meas_hist n0) (n_meas_hist n).
Proof.
  assert (Hid : exists back, Permutation (n_queue n) (n_queue n ++ back) /\ incl back (n_meas_hist n) /\
    (c_smooth c = false -> back = []) /\ untouched n = untouched n /\ incl (n_meas_hist n) (n_meas_hist n)).
  { exists []. rewrite app_nil_r. split; [apply Permutation_refl|]. split; [intros x []|].
    split; [reflexivity|]. split; [reflexivity|apply incl_refl]. }
  unfold revert_if_lagged. destruct (pq_pop pq (n_queue n)) as [[first r]|]; [|exact Hid].
  destruct (c_smooth c && (m_time first <? fb_last_time (n_filter n)))%bool eqn:Hb; [|exact Hid].
  apply andb_true_iff in Hb. destruct Hb as [Hsm _].
  pose proof (revert_cases pq Hpq n (m_time first - 1)) as Hr.
  destruct (revertTo pq n (m_time first - 1)) as [ok n0]. cbn [snd].
  assert (Hcom : forall s kept, revert_to_snapshot n n0 (m_time first - 1) s kept ->
    exists back, Permutation (n_queue n0) (n_queue n ++ back) /\ incl back (n_meas_hist n) /\
    (c_smooth c = false -> back = []) /\ untouched n0 = untouched n /\ incl (n_meas_hist n0) (n_meas_hist n)).
  { intros s kept (_ & _ & (d & Hm & _ & _ & Hq) & Hu).
    exists (filter (fun m => fs_time s <=? m_time m) d). split; [exact Hq|]. split.
    - intros x Hx. apply filter_In in Hx. rewrite Hm. apply in_or_app; right; tauto.
    - split; [congruence|]. split; [exact Hu|]. intros x Hx. rewrite Hm. apply in_or_app; left; exact Hx. }
  destruct Hr as [(_ & _ & ->)|[(pre & s & post & _ & _ & _ & _ & Hrs)|(s & post & _ & _ & _ & Hrs)]].
  - exact Hid.
  - apply (Hcom _ _ Hrs).
  - apply (Hcom _ _ Hrs).
Qed.

(** measurement part of a toggled-on cycle *)
Definition part_post (now : Z) (n n' : node K E) (o : list (output K E)) : Prop :=
  Forall (fun m => m_time m <= now) (fused o) /\
  Forall (fun m => now < m_time m) (n_queue n') /\
  in_order (fused o) /\
  (exists back, Permutation (fused o ++ n_queue n') (n_queue n ++ back) /\
     incl back (n_meas_hist n) /\ (c_smooth c = false -> back = [])) /\
  queued o = [] /\ odoms o = [] /\
  incl (n_meas_hist n') (n_meas_hist n ++ fused o).

Lemma catch_up_post now n : part_post now n (fst (catch_up pq vt c now n)) (snd (catch_up pq vt c now n)) /\
  fuse_only (snd (catch_up pq vt c now n)).
Proof.
  unfold catch_up. destruct (n_queue n) as [|m q] eqn:Hq.
  - cbn. split; [|apply fuse_only_nil]. unfold part_post. cbn. rewrite Hq.
    split; [constructor|]. split; [constructor|]. split; [constructor|]. split.
    + exists []. split; [apply Permutation_refl|]. split; [intros x []|reflexivity].
    + split; [reflexivity|]. split; [reflexivity|]. rewrite app_nil_r. apply incl_refl.
  - pose proof (revert_queue n) as Hr. destruct (revert_if_lagged pq c n) as [restored n0].
    destruct Hr as (back & Hperm & Hinc & Hns & Hun & Hmi).
    destruct (integrate_loop pq vt c (List.length (n_queue n0)) now restored n0) as [n1 o1] eqn:Hl.
    pose proof (loop_spec pq vt c Hpq _ _ _ _ _ _ (le_n _) Hl) as (P1 & P2 & P3 & P4 & P5 & P6 & P7).
    cbn. split; [|exact P5]. unfold part_post.
    split; [exact P2|]. split; [exact P3|]. split; [exact P4|]. split.
    + exists back. split; [|split; assumption]. eapply Permutation_trans; [exact P1|exact Hperm].
    + destruct (fuse_only_obs _ P5) as (O1 & O2 & _). split; [exact O1|]. split; [exact O2|].
      rewrite P7. destruct (c_smooth c).
      * intros x Hx. apply in_app_or in Hx. apply in_or_app. destruct Hx; [left; apply Hmi; assumption|right; assumption].
      * intros x Hx. apply in_or_app; left. apply Hmi; exact Hx.
Qed.

Lemma integrate_post now n :
  part_post now n (fst (integrateMeasurements pq vt c now n)) (snd (integrateMeasurements pq vt c now n)).
Proof.
  rewrite (integrate_eq pq vt c Hpq). destruct (catch_up_post now n) as [(H1 & H2 & H3 & H4 & H5 & H6 & H8) _].
  destruct (catch_up pq vt c now n) as [n1 o1]. cbn in *.
  destruct (fb_initialized (n_filter n1) && projects c now n)%bool; cbn.
  - unfold part_post. rewrite fused_app, queued_app, odoms_app. cbn. rewrite !app_nil_r.
    repeat (split; [assumption|]). exact H8.
  - unfold part_post. repeat (split; [assumption|]). exact H8.
Qed.


Lemma catch_up_untouched now n : untouched (fst (catch_up pq vt c now n)) = untouched n.
Proof.
  unfold catch_up. destruct (n_queue n); [reflexivity|].
  pose proof (revert_queue n) as Hr. destruct (revert_if_lagged pq c n) as [restored n0].
  destruct Hr as (_ & _ & _ & _ & Hun & _).
  destruct (integrate_loop pq vt c (List.length (n_queue n0)) now restored n0) as [n1 o1] eqn:Hl.
  pose proof (loop_spec pq vt c Hpq _ _ _ _ _ _ (le_n _) Hl) as (_ & _ & _ & _ & _ & P6 & _).
  cbn. congruence.
Qed.

Lemma integrate_untouched now n : untouched (fst (integrateMeasurements pq vt c now n)) = untouched n.
Proof.
  rewrite (integrate_eq pq vt c Hpq). rewrite <- (catch_up_untouched now n).
  destruct (catch_up pq vt c now n) as [n1 o1].
  destruct (fb_initialized (n_filter n1) && projects c now n)%bool; reflexivity.
Qed.

(** fields of the node that a cycle's measurement part keeps *)
Definition kept_fields (n n' : node K E) : Prop :=
  n_set_pose n' = n_set_pose n /\ n_toggled n' = n_toggled n /\ n_enabled n' = n_enabled n /\
  n_last_pub n' = n_last_pub n /\ n_last_msg n' = n_last_msg n /\ n_streams n' = n_streams n /\
  n_ctl n' = n_ctl n /\ n_ctl_time n' = n_ctl_time n /\ n_diag n' = n_diag n /\ n_last_diag n' = n_last_diag n.

Lemma working_post cur later n :
  (n_toggled n = true /\
   part_post cur n (fst (working pq vt c cur later n)) (snd (working pq vt c cur later n)) \/
   n_toggled n = false /\ snd (working pq vt c cur later n) = [] /\
   n_queue (fst (working pq vt c cur later n)) = [] /\
   n_meas_hist (fst (working pq vt c cur later n)) = n_meas_hist n) /\
  kept_fields n (fst (working pq vt c cur later n)).
Proof.
  unfold working, kept_fields. destruct (n_toggled n) eqn:Ht.
  - pose proof (integrate_post cur n) as H. pose proof (integrate_untouched cur n) as H7. unfold part_post in *.
    destruct (integrateMeasurements pq vt c cur n) as [n0 o]. cbn in *.
    destruct (diff_fields cur n0) as (A1 & A2 & A3 & A4 & A5 & A6 & A7 & A8 & A9 & A10 & A11 & A12 & A13 & A14).
    unfold untouched in H7. injection H7 as B1 B2 B3 B4 B5 B6 B7 B8 B9 B10 B11.
    rewrite A2, A3, A5, A6, A7, A8, A9, A10, A11, A12, A13, A14.
    split; [left; split; [reflexivity|assumption]|repeat split; congruence].
  - cbn. split; [right|]; destruct (fb_initialized (n_filter n)); repeat split; cbn; assumption.
Qed.

(** ** C26, C27: one cycle *)
Lemma cycle_disabled cur later lookup n : n_enabled n = false ->
  periodicUpdate pq vt c cur later lookup n = (n, []).
Proof. intros H. unfold periodicUpdate. rewrite H. reflexivity. Qed.

Lemma cycle_obs cur later lookup n : n_enabled n = true ->
  let r := periodicUpdate pq vt c cur later lookup n in
  let w := working pq vt c cur later n in
  fused (snd r) = fused (snd w) /\ queued (snd r) = queued (snd w) /\
  intervals (snd r) = intervals (snd w) /\
  odoms (snd r) = odoms (snd w) ++
    match getFilteredOdometryMessage c (fst w) with
    | Some o => if corrected c (fst w) then [] else [o] | None => [] end /\
  n_queue (fst r) = n_queue (fst w) /\ n_filter (fst r) = n_filter (fst w).
Proof.
  intros He. rewrite (cycle_eq pq vt c cur later lookup n He). cbv zeta.
  destruct (working pq vt c cur later n) as [n1 o1]. cbn [fst snd].
  destruct (visible_obs c n1 lookup) as (V1 & V2 & V3 & V4).
  destruct (report_obs (K:=K) (E:=E) (diag_due c cur n1) (fst (aggregateDiagnostics (n_diag n1)))) as (R1 & R2 & R3 & R4).
  rewrite !fused_app, !queued_app, !intervals_app, !odoms_app, V1, V2, V3, V4, R1, R2, R3, R4.
  rewrite !app_nil_r. repeat split.
Qed.

Lemma cycle_order cur later lookup n n' o :
  periodicUpdate pq vt c cur later lookup n = (n', o) ->
  Forall (fun m => m_time m <= cur) (fused o) /\ in_order (fused o) /\
  (n_enabled n = true -> n_toggled n = true ->
     Forall (fun m => cur < m_time m) (n_queue n') /\
     exists back, Permutation (fused o ++ n_queue n') (n_queue n ++ back) /\
       incl back (n_meas_hist n) /\ (c_smooth c = false -> back = [])) /\
  (n_enabled n = false -> n' = n /\ o = []) /\
  (n_enabled n = true -> n_toggled n = false -> fused o = [] /\ n_queue n' = []) /\
  queued o = [].
Proof.
  intros Hrun. destruct (n_enabled n) eqn:He.
  - pose proof (cycle_obs cur later lookup n He) as Hob. rewrite Hrun in Hob. cbn in Hob.
    destruct Hob as (O1 & O2 & _ & _ & O5 & _). rewrite O1, O2, O5.
    destruct (working_post cur later n) as [[[Ht P]|(Ht & Z1 & Z2 & _)] _].
    + destruct P as (P1 & P2 & P3 & P4 & P5 & _). split; [exact P1|]. split; [exact P3|].
      split; [intros _ _; split; assumption|]. split; [discriminate|]. split; [intros _ Hf; congruence|exact P5].
    + rewrite Z1, Z2. split; [constructor|]. split; [constructor|]. split; [congruence|].
      split; [discriminate|]. split; [split; reflexivity|reflexivity].
  - rewrite (cycle_disabled _ _ _ _ He) in Hrun. injection Hrun as <- <-.
    split; [constructor|]. split; [constructor|]. split; [discriminate|]. split; [split; reflexivity|].
    split; [discriminate|reflexivity].
Qed.

Lemma cycle_later_stay cur later lookup n n' o m :
  periodicUpdate pq vt c cur later lookup n = (n', o) -> n_toggled n = true ->
  In m (n_queue n) -> cur < m_time m -> In m (n_queue n').
Proof.
  intros Hrun Ht Hin Hlt. destruct (cycle_order _ _ _ _ _ _ Hrun) as (H1 & _ & H3 & H4 & _).
  destruct (n_enabled n) eqn:He.
  - destruct (H3 eq_refl Ht) as (_ & back & Hp & _).
    assert (Hx : In m (fused o ++ n_queue n')).
    { eapply Permutation_in; [apply Permutation_sym, Hp|]. apply in_or_app; left; exact Hin. }
    apply in_app_or in Hx. destruct Hx as [Hx|Hx]; [|exact Hx].
    rewrite Forall_forall in H1. specialize (H1 m Hx). cbn in H1. lia.
  - destruct (H4 eq_refl) as [-> _]. exact Hin.
Qed.

(** ** C27: runs *)
Lemma sensor_queue warn topic stamp upd thresh prep (n : node K E) :
  let r := sensorCallback pq warn topic stamp upd thresh prep n in
  Permutation (n_queue (fst r)) (n_queue n ++ queued (snd r)) /\ fused (snd r) = [] /\
  odoms (snd r) = [] /\ intervals (snd r) = [] /\
  Forall (fun m => n_set_pose n < m_time m) (queued (snd r)).
Proof.
  unfold sensorCallback.
  assert (Hid : Permutation (n_queue n) (n_queue n ++ [])) by (rewrite app_nil_r; apply Permutation_refl).
  rewrite Z.geb_leb. destruct (Z.leb_spec stamp (n_set_pose n)) as [Hz|Hz].
  { destruct warn; cbn; (split; [exact Hid|]; repeat split; constructor). }
  assert (Hgen : forall n1 : node K E, n_queue n1 = n_queue n ->
    let r := match sm_find (n_last_msg n1) topic with
             | Some last => if last <=? stamp then
                let r := prep n1 upd vzero mzero in
                let n2 := with_diag (with_streams n1 (pr_streams r))
                            (fold_left addDiagnostic (pr_diag r) (n_diag n1)) in
                let '(n3, o) :=
                  if pr_ok r then enqueueMeasurement pq n2 topic (pr_val r) (pr_cov r) (pr_upd r) thresh stamp
                  else (n2, []) in
                (with_last_msg n3 (sm_set (n_last_msg n3) topic stamp), o)
                else (add_diag n1 (stale_call topic backwards_text), [])
             | None => (n1, []) end in
    Permutation (n_queue (fst r)) (n_queue n ++ queued (snd r)) /\ fused (snd r) = [] /\
    odoms (snd r) = [] /\ intervals (snd r) = [] /\
    Forall (fun m => n_set_pose n < m_time m) (queued (snd r))).
  { intros n1 Hq. destruct (sm_find (n_last_msg n1) topic) as [last|].
    2:{ cbn. rewrite Hq. split; [exact Hid|]. repeat split; constructor. }
    destruct (last <=? stamp).
    2:{ cbn. rewrite Hq. split; [exact Hid|]. repeat split; constructor. }
    cbv zeta. destruct (pr_ok _); cbn.
    - rewrite Hq. split; [|repeat split; repeat constructor; cbn; lia].
      eapply Permutation_trans; [apply (push_perm pq Hpq)|]. apply Permutation_cons_append.
    - rewrite Hq. split; [exact Hid|]. repeat split; constructor. }
  apply Hgen. destruct (sm_mem (n_last_msg n) topic); reflexivity.
Qed.

Lemma step_account n e : c_smooth c = false ->
  let r := node_step pq vt c n e in
  Permutation (fused (snd r) ++ n_queue (fst r) ++ (if discards n e then n_queue n else []))
              (n_queue n ++ queued (snd r)).
Proof.
  intros Hsm. destruct e as [warn topic stamp upd thresh prep|frame ctl stamp|on| | |stamp prep now| |cur later lookup];
    cbn [node_step discards].
  - destruct (sensor_queue warn topic stamp upd thresh prep n) as (H1 & H2 & _). cbv zeta in *.
    rewrite H2. cbn. rewrite app_nil_r. exact H1.
  - cbn. unfold controlStampedCallback. destruct (_ || _)%bool; apply Permutation_refl.
  - cbn. unfold toggleFilterProcessingCallback. destruct (Bool.eqb on (n_toggled n)); apply Permutation_refl.
  - cbn. unfold enableFilterSrvCallback. destruct (n_enabled n); apply Permutation_refl.
  - cbn. rewrite app_nil_r. apply Permutation_refl.
  - cbn. rewrite app_nil_r. apply Permutation_refl.
  - cbn. apply Permutation_refl.
  - destruct (periodicUpdate pq vt c cur later lookup n) as [n' o] eqn:Hrun. cbn [fst snd].
    destruct (cycle_order _ _ _ _ _ _ Hrun) as (_ & _ & H3 & H4 & H5 & H6). rewrite H6, app_nil_r.
    destruct (n_enabled n) eqn:He; cbn [andb].
    + destruct (n_toggled n) eqn:Ht; cbn [negb].
      * destruct (H3 eq_refl eq_refl) as (_ & back & Hp & _ & Hb). rewrite (Hb Hsm), app_nil_r in Hp.
        rewrite app_nil_r. exact Hp.
      * destruct (H5 eq_refl eq_refl) as [-> ->]. apply Permutation_refl.
    + destruct (H4 eq_refl) as [-> ->]. cbn. rewrite app_nil_r. apply Permutation_refl.
Qed.

Lemma run_account es : c_smooth c = false -> forall n,
  Permutation (fused (snd (node_run pq vt c n es)) ++ n_queue (fst (node_run pq vt c n es)) ++ dropped pq vt c n es)
              (n_queue n ++ queued (snd (node_run pq vt c n es))).
Proof.
  intros Hsm. induction es as [|e es IH]; intros n; [cbn; rewrite !app_nil_r; apply Permutation_refl|].
  pose proof (step_account n e Hsm) as Hs. cbn [node_run dropped]. cbv zeta in Hs.
  destruct (node_step pq vt c n e) as [n1 o1]. cbn [fst snd] in *.
  specialize (IH n1). destruct (node_run pq vt c n1 es) as [n2 o2]. cbn [fst snd] in *.
  rewrite fused_app, queued_app.
  set (D := if discards n e then n_queue n else []) in *.
  set (D2 := dropped pq vt c n1 es) in *.
  (* F1 ++ F2 ++ Q2 ++ D ++ D2 ~ Q ++ q1 ++ q2 *)
  eapply Permutation_trans; [|rewrite app_assoc; apply Permutation_app_tail; exact Hs].
  rewrite <- !app_assoc. apply Permutation_app_head.
  eapply Permutation_trans with (D ++ fused o2 ++ n_queue n2 ++ D2).
  { rewrite !app_assoc. apply Permutation_app_tail.
    rewrite <- (app_assoc D). apply Permutation_app_comm. }
  eapply Permutation_trans; [apply Permutation_app_head; exact IH|].
  rewrite !app_assoc. apply Permutation_app_tail. apply Permutation_app_comm.
Qed.

(** ** C34 *)
Lemma sensor_stale warn topic stamp upd thresh prep (n : node K E) :
  (stamp <= n_set_pose n \/ exists last, sm_find (n_last_msg n) topic = Some last /\ stamp < last) ->
  let r := sensorCallback pq warn topic stamp upd thresh prep n in
  snd r = [] /\ exists d, fst r = with_diag n d.
Proof.
  intros H. unfold sensorCallback. rewrite Z.geb_leb. destruct (Z.leb_spec stamp (n_set_pose n)) as [Hz|Hz].
  { destruct warn; cbn; split; [reflexivity| |reflexivity|].
    - eexists; reflexivity.
    - exists (n_diag n). destruct n; reflexivity. }
  destruct H as [H|(last & Hf & Hl)]; [lia|].
  assert (Hm : sm_mem (n_last_msg n) topic = true) by (unfold sm_mem; rewrite Hf; reflexivity).
  rewrite Hm, Hf. destruct (Z.leb_spec last stamp); [lia|]. cbn. split; [reflexivity|]. eexists; reflexivity.
Qed.

Definition above (s : Z) (n : node K E) : Prop :=
  n_set_pose n = s /\ Forall (fun m => s < m_time m) (n_queue n) /\
  Forall (fun m => s < m_time m) (n_meas_hist n).

Lemma concluded_meas_incl cur (n1 : node K E) : incl (n_meas_hist (concluded c cur n1)) (n_meas_hist n1).
Proof.
  unfold concluded. cbn. destruct (c_smooth c); [|apply incl_refl]. intros x. apply pop_front_while_incl.
Qed.

Lemma step_above s n e : above s n -> no_reset e ->
  let r := node_step pq vt c n e in
  above s (fst r) /\ Forall (fun m => s < m_time m) (fused (snd r)).
Proof.
  intros (Hs & Hq & Hm) Hn.
  destruct e as [warn topic stamp upd thresh prep|frame ctl stamp|on| | |stamp prep now| |cur later lookup];
    cbn [node_step]; try (destruct Hn; fail).
  - destruct (sensor_queue warn topic stamp upd thresh prep n) as (H1 & H2 & _ & _ & H3).
    destruct (sensor_fields pq warn topic stamp upd thresh prep n) as (_ & F2 & _ & F4 & _).
    cbv zeta in *. rewrite H2. split; [|constructor]. unfold above. rewrite F2, F4. split; [exact Hs|].
    split; [|exact Hm]. eapply Permutation_Forall; [apply Permutation_sym, H1|].
    apply Forall_app. split; [exact Hq|]. rewrite Hs in H3. exact H3.
  - cbn. split; [|constructor]. unfold above, controlStampedCallback. destruct (_ || _)%bool; cbn; auto.
  - cbn. unfold toggleFilterProcessingCallback. split; [|destruct (Bool.eqb on (n_toggled n)); constructor].
    unfold above. destruct (Bool.eqb on (n_toggled n)); cbn; auto.
  - cbn. unfold enableFilterSrvCallback. split; [|constructor]. unfold above. destruct (n_enabled n); cbn; auto.
  - cbn. split; [|constructor]. unfold above. cbn. auto.
  - cbv zeta. destruct (n_enabled n) eqn:He.
    2:{ rewrite (cycle_disabled _ _ _ _ He). cbn. split; [|constructor]. unfold above; auto. }
    pose proof (cycle_obs cur later lookup n He) as Hob. cbv zeta in Hob.
    destruct Hob as (O1 & _ & _ & _ & O5 & _). rewrite O1.
    assert (Hsm : incl (n_meas_hist (fst (periodicUpdate pq vt c cur later lookup n)))
                       (n_meas_hist (fst (working pq vt c cur later n))) /\
                  n_set_pose (fst (periodicUpdate pq vt c cur later lookup n)) =
                  n_set_pose (fst (working pq vt c cur later n))).
    { rewrite (cycle_eq pq vt c cur later lookup n He). destruct (working pq vt c cur later n) as [n1 o1].
      cbn [fst snd]. split; [apply concluded_meas_incl|reflexivity]. }
    destruct Hsm as [Hinc Hsp].
    destruct (working_post cur later n) as [Hw (K1 & _)].
    assert (Hfin : Forall (fun m => s < m_time m) (fused (snd (working pq vt c cur later n))) /\
                   Forall (fun m => s < m_time m) (n_queue (fst (working pq vt c cur later n))) /\
                   Forall (fun m => s < m_time m) (n_meas_hist (fst (working pq vt c cur later n)))).
    { destruct Hw as [[Ht P]|(Ht & Z1 & Z2 & Z3)].
      - destruct P as (_ & _ & _ & (back & Hp & Hb & _) & _ & _ & Hi).
        assert (Hall : Forall (fun m => s < m_time m)
                  (fused (snd (working pq vt c cur later n)) ++ n_queue (fst (working pq vt c cur later n)))).
        { eapply Permutation_Forall; [apply Permutation_sym, Hp|]. apply Forall_app. split; [exact Hq|].
          apply Forall_forall. intros x Hx. rewrite Forall_forall in Hm. apply Hm. apply Hb; exact Hx. }
        apply Forall_app in Hall. destruct Hall as [A1 A2]. split; [exact A1|]. split; [exact A2|].
        apply Forall_forall. intros x Hx. apply Hi in Hx. apply in_app_or in Hx.
        rewrite Forall_forall in Hm, A1. destruct Hx; [apply Hm|apply A1]; assumption.
      - rewrite Z1, Z2, Z3. split; [constructor|]. split; [constructor|exact Hm]. }
    destruct Hfin as (B1 & B2 & B3). split; [|exact B1]. unfold above. rewrite O5, Hsp, K1.
    split; [exact Hs|]. split; [exact B2|]. apply Forall_forall. intros x Hx. rewrite Forall_forall in B3.
    apply B3. apply Hinc; exact Hx.
Qed.

Lemma run_above es : forall s n, above s n -> Forall no_reset es ->
  above s (fst (node_run pq vt c n es)) /\
  Forall (fun m => s < m_time m) (fused (snd (node_run pq vt c n es))).
Proof.
  induction es as [|e es IH]; intros s n Ha Hn; [split; [exact Ha|constructor]|].
  inversion Hn as [|x l Hx Hl]; subst. destruct (step_above s n e Ha Hx) as [H1 H2]. cbn [node_run].
  cbv zeta in *. destruct (node_step pq vt c n e) as [n1 o1]. cbn [fst snd] in *.
  destruct (IH s n1 H1 Hl) as [H3 H4]. destruct (node_run pq vt c n1 es) as [n2 o2]. cbn [fst snd] in *.
  split; [exact H3|]. rewrite fused_app. apply Forall_app; split; assumption.
Qed.

Lemma set_pose_above stamp prep now (n : node K E) : above stamp (setPoseCallback stamp prep now n).
Proof. unfold above. cbn. repeat split; constructor. Qed.

(** ** C35 *)
Lemma cycle_publishes cur later lookup n n' o :
  periodicUpdate pq vt c cur later lookup n = (n', o) ->
  odoms o =
    (if (n_enabled n && fb_initialized (n_filter n') &&
         (c_permit c || (n_last_pub n <? fb_last_time (n_filter n'))))%bool
     then match getFilteredOdometryMessage c n' with Some m => [m] | None => [] end
     else []) /\
  (n_enabled n = true -> fb_initialized (n_filter n') = true -> n_last_pub n' = fb_last_time (n_filter n')) /\
  (n_enabled n = true -> fb_initialized (n_filter n') = false -> n_last_pub n' = n_last_pub n).
Proof.
  intros Hrun. destruct (n_enabled n) eqn:He.
  2:{ rewrite (cycle_disabled _ _ _ _ He) in Hrun. injection Hrun as <- <-. cbn. repeat split; discriminate. }
  pose proof (cycle_obs cur later lookup n He) as Hob. rewrite Hrun in Hob. cbv zeta in Hob. cbn [fst snd] in Hob.
  destruct Hob as (_ & _ & _ & O4 & _ & O6). rewrite O4, O6.
  destruct (working_post cur later n) as [Hw (_ & _ & _ & K4 & _)].
  assert (Hod : odoms (snd (working pq vt c cur later n)) = []).
  { destruct Hw as [[_ P]|(_ & -> & _)]; [apply P|reflexivity]. }
  rewrite Hod. cbn [app andb].
  rewrite (cycle_eq pq vt c cur later lookup n He) in Hrun.
  destruct (working pq vt c cur later n) as [n1 o1]. cbn [fst snd] in *. injection Hrun as <- _.
  split; [|cbn; split; intros _ Hi; rewrite Hi; [reflexivity|exact K4]].
  unfold getFilteredOdometryMessage, corrected. cbn [concluded n_filter]. rewrite <- K4.
  destruct (fb_initialized (n_filter n1)); [|reflexivity]. cbn [andb].
  destruct (c_permit c); cbn; [reflexivity|].
  rewrite Z.ltb_antisym. destruct (fb_last_time (n_filter n1) <=? n_last_pub n1); reflexivity.
Qed.

Lemma other_quiet n e : (match e with EvCycle _ _ _ => False | _ => True end) ->
  let r := node_step pq vt c n e in fused (snd r) = [] /\ odoms (snd r) = [] /\ intervals (snd r) = [] .
Proof.
  destruct e as [warn topic stamp upd thresh prep|frame ctl stamp|on| | |stamp prep now| |cur later lookup];
    cbn [node_step]; intros Hx; try (destruct Hx; fail); cbv zeta.
  - destruct (sensor_queue warn topic stamp upd thresh prep n) as (_ & H2 & H3 & H4 & _). cbv zeta in *. auto.
  - repeat split.
  - unfold toggleFilterProcessingCallback. destruct (Bool.eqb on (n_toggled n)); repeat split.
  - repeat split.
  - repeat split.
  - repeat split.
  - repeat split.
Qed.

End Facts.
