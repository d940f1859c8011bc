(** * Cases of filters that are told the truth (C104) *)

From Coq Require Import Reals ZArith List Bool Lia Lra String Arith.
From Verif Require Import Scalar Mat FilterBase FilterOps Ekf StrMap Tf Diagnostics RosFilter RosConfig RosPrepare
  SpecConfig SpecNode SpecTf SpecLin SpecFilter SpecPrepare SpecStart SpecMotion SpecTurn SpecPublished SpecTruth
  RBridge RLin EkfUpdate EigenExist NodeProofs NodeMore PrepareProofs StartFacts TruthFacts TruthNode ShiftCase PropsConfig PropsStart.
Import ListNotations.
Local Open Scope R_scope.

(** ** At 1 m/s along x *)
Definition ahead (x y : R) : course :=
  mkCourse (fun k => match k with 0%nat => x | 1%nat => y | _ => 0 end) (fun _ => 0)
    (fun k => match k with 0%nat => 1 | _ => 0 end) (fun _ => 0) 0.
Lemma ahead_possible x y : possible (ahead x y).
Proof. split; [cbn; rewrite cos_0; lra|left; reflexivity]. Qed.
Lemma ahead_at x y T k : (k < 15)%nat ->
  truth (ahead x y) T k = match k with 0%nat => x + IZR T / 1000000000 | 1%nat => y | 6%nat => 1 | _ => 0 end.
Proof.
  intros Hk. unfold truth. generalize (IZR T / 1000000000). intros t.
  do 15 (destruct k as [|k];
    [cbn; unfold Rrpy, Rz, Ry, Rx, mat3, rmul, rsum; cbn; rewrite ?sin_0, ?cos_0; ring|]). lia.
Qed.

(** Both measured at the start, nothing after a second, then the first place
    again, late. *)
Definition at_start : meas RScalar :=
  @mkMeas RScalar "odom" 0 (fun k => match k with 6%nat => 1 | _ => 0 end) (fun i j => if Nat.eqb i j then 1 else 0) (flags [0; 6]%nat) 100 vzero 0.
Definition after_second : meas RScalar :=
  @mkMeas RScalar "none" 1000000000 vzero mzero (flags []) 100 vzero 0.
Definition too_late : meas RScalar :=
  @mkMeas RScalar "gps" 0 vzero (fun i j => if Nat.eqb i j then 1 else 0) (flags [0]%nat) 100 vzero 0.
Definition one_second : list (fb_op RScalar) := [OpProcess at_start; OpProcess after_second; OpSetP (@meye RScalar)].

Lemma flags_true l k : nth k (flags l) false = true -> In k l.
Proof.
  unfold flags. intros H. destruct (Nat.lt_ge_cases k 15) as [L|L].
  - rewrite (nth_indep _ false (existsb (Nat.eqb 0%nat) l)) in H by (rewrite map_length, seq_length; exact L).
    rewrite (map_nth (fun i => existsb (Nat.eqb i) l)), seq_nth in H by exact L. cbn in H.
    apply existsb_exists in H. destruct H as (x & Hx & E). apply Nat.eqb_eq in E. subst. exact Hx.
  - rewrite nth_overflow in H by (rewrite map_length, seq_length; exact L). discriminate.
Qed.
Lemma plain_value k u v : u = v -> same_value k u v.
Proof. intros ->. apply same_value_refl. Qed.
Lemma start_truthful : truthful at_start (truth (ahead 0 0) 0).
Proof.
  split; [reflexivity|]. intros k Hk. apply flags_true in Hk. apply plain_value.
  destruct Hk as [<-|[<-|[]]]; rewrite ahead_at by lia; cbn; lra.
Qed.
Lemma late_truthful : truthful too_late (truth (ahead 0 0) 0).
Proof.
  split; [reflexivity|]. intros k Hk. apply flags_true in Hk. apply plain_value.
  destruct Hk as [<-|[]]; rewrite ahead_at by lia; unfold too_late, vzero; cbn; lra.
Qed.
Lemma second_told eig g : told (ahead 0 0) (ekf_vtbl eig) (@fb_init RScalar unit g tt) 0 one_second.
Proof.
  split.
  { split; [exact start_truthful|]. split; [intros I; discriminate I|]. intros _ k Hk HF. apply plain_value.
    rewrite ahead_at by exact Hk. cbn [m_time at_start]. do 15 (destruct k as [|k]; [try reflexivity; try discriminate HF; cbn; lra|]). lia. }
  split.
  { split; [split; [reflexivity|]; intros k Hk; apply flags_true in Hk; destruct Hk|].
    split; [|intros I; discriminate I]. intros _. right. split; [reflexivity|]. cbn. lia. }
  split; [exact I|exact I].
Qed.
Lemma setP_fields (f : ekf RScalar) P : fb_initialized (setEstimateErrorCovariance f P) = fb_initialized f /\
  fb_last_time (setEstimateErrorCovariance f P) = fb_last_time f /\ fb_P (setEstimateErrorCovariance f P) = P.
Proof. repeat split. Qed.
Lemma second_initialised eig g : fb_initialized (fb_run (ekf_vtbl eig) (@fb_init RScalar unit g tt) one_second) = true.
Proof.
  unfold one_second, fb_run. cbn [fold_left fb_exec].
  rewrite (proj1 (setP_fields _ _)). apply process_init.
Qed.
Lemma second_place eig g : fb_state (fb_run (ekf_vtbl eig) (@fb_init RScalar unit g tt) one_second) 0%nat = 1.
Proof.
  pose proof (truth_kept (ahead 0 0) (ahead_possible 0 0) eig g 0 one_second (second_told eig g) (second_initialised eig g)) as S.
  destruct (S 0%nat ltac:(lia)) as (_ & E). rewrite E by (unfold angular; lia). rewrite ahead_at by lia. cbn. lra.
Qed.

(** The late measurement moves the estimate back to the middle. *)
Lemma late_correction eig (f : ekf RScalar) : eigen_inverse_ok eig -> fb_state f 0%nat = 1 -> fb_P f = @meye RScalar ->
  fb_state (ekf_correct eig f too_late) 0%nat = / 2.
Proof.
  intros He Hx HP.
  assert (Esel : selected too_late = [0%nat]) by reflexivity.
  assert (ES : innovation_cov (fb_P f) too_late 0%nat 0%nat = 2).
  { unfold innovation_cov. rewrite Esel, HP. unfold repaired_cov. cbn. toR. rewrite Rabs_R1, Rmax_left by lra. lra. }
  assert (HSi : invertible (List.length (selected too_late)) (innovation_cov (fb_P f) too_late)).
  { rewrite Esel. cbn [List.length]. exists (fun _ _ => / 2). intros i j Hi Hj.
    assert (i = 0%nat) as -> by lia. assert (j = 0%nat) as -> by lia. unfold rmul, rsum, rI. rewrite ES. cbn. split; lra. }
  destruct (ekf_accept eig He too_late eq_refl f HSi (fun _ => -1) (fun _ => - / 2)) as (C & _).
  - intros a Ha. rewrite Esel in *. cbn in Ha. assert (a = 0%nat) as -> by lia. cbv zeta. cbn [nth]. rewrite Hx. split; [unfold angular; lia|].
    intros _. unfold too_late, vzero. cbn. lra.
  - rewrite Esel. intros a Ha. cbn in Ha. assert (a = 0%nat) as -> by lia. unfold rmv, rsum. cbn [List.length]. rewrite ES. lra.
  - rewrite Esel. unfold rdot, rsum. cbn. lra.
  - destruct (C 0%nat ltac:(lia)) as (_ & E). rewrite E by (unfold angular; lia). rewrite Esel, Hx, HP. cbn. toR. change (sc RScalar) with R in *. lra.
Qed.
Lemma late_moves : exists m, m_time m = 0%Z /\ truthful m (truth (ahead 0 0) (m_time m)) /\ forall eig g, eigen_inverse_ok eig ->
  fb_state (fb_run (ekf_vtbl eig) (@fb_init RScalar unit g tt) one_second) 0%nat = 1 /\
  fb_state (fb_run (ekf_vtbl eig) (@fb_init RScalar unit g tt) (one_second ++ [OpProcess m])) 0%nat = / 2.
Proof.
  exists too_late. split; [reflexivity|]. split; [exact late_truthful|]. intros eig g He. split; [apply second_place|].
  unfold fb_run. rewrite fold_left_app. fold (fb_run (ekf_vtbl eig) (@fb_init RScalar unit g tt) one_second).
  pose proof (second_place eig g) as Hx. pose proof (second_initialised eig g) as Hi.
  assert (HP : fb_P (fb_run (ekf_vtbl eig) (@fb_init RScalar unit g tt) one_second) = @meye RScalar).
  { unfold one_second, fb_run. cbn [fold_left fb_exec]. apply (setP_fields _ _). }
  assert (HT : fb_last_time (fb_run (ekf_vtbl eig) (@fb_init RScalar unit g tt) one_second) = 1000000000%Z).
  { unfold one_second, fb_run. cbn [fold_left fb_exec].
    rewrite (proj1 (proj2 (setP_fields _ _))). rewrite process_last; [reflexivity|]. intros _. rewrite process_last; [cbn; lia|]. intros I. discriminate I. }
  revert Hx Hi HP HT. generalize (fb_run (ekf_vtbl eig) (@fb_init RScalar unit g tt) one_second). intros f Hx Hi HP HT.
  cbn [fold_left fb_exec]. unfold processMeasurement. rewrite Hi, HT. cbn [m_time too_late]. cbn -[ekf_correct].
  apply late_correction; assumption.
Qed.

(** ** A node with a receiver for the place, the speed configured *)
Definition tr_par : params RScalar :=
  @mkParams RScalar true 9.81%R "map" "odom" "base_link" None None (Some "robot"%string) true false true 0%R 0%R 30%R false None
    false false 0%R false 1%R None None None None None false (Some [0; 0; 0; 0; 0; 0; 1; 0; 0; 0; 0; 0; 0; 0; 0]) false
    [] [@mkPosePar RScalar "/gps" (Some (flags [0; 1]%nat)) false false 5] [] [] None None.
Definition fused_view {E} (r : list (output RScalar E)) : list (bool * list bool * Z * R * R * list R) :=
  flat_map (fun o => match o with
    | OutFused f m => [(fb_initialized f, m_upd m, m_time m, m_value m 0%nat, m_value m 1%nat, map (fb_state f) (seq 0 15))]
    | _ => [] end) r.
Definition tr_fact (r : outcome (loaded RScalar unit * node RScalar unit)) : Prop :=
  match r with
  | Ok (ld, n) => exists d, ld_subs ld = [SubPose d] /\ cd_upd d = flags [0; 1]%nat /\
      cd_differential d = false /\ cd_relative d = false /\ c_world (ld_config ld) = "odom"%string /\
      forall v cv st dg, let r := mkPrep true (flags [0; 1]%nat) v cv st dg in
        let r2 := snd (node_step (list_pq RScalar) (ekf_vtbl ideal_eigen) (ld_config ld) (fst (sh_first d n r)) (EvCycle 6 6 None)) in
        fused_view (snd (sh_first d n r)) = [] /\
        fused_view r2 = [(false, flags [0; 1]%nat, 5%Z, v 0%nat, v 1%nat, [0; 0; 0; 0; 0; 0; 1; 0; 0; 0; 0; 0; 0; 0; 0])] /\
        shown_place r2 = [(v 0%nat, v 1%nat)]
  | Undefined => False
  end.
Lemma tr_start : tr_fact (start tr_par 0 0 0 ex_new ex_ang86 vzero).
Proof.
  unfold tr_fact;
  match goal with |- match ?x with _ => _ end => let y := eval hnf in x in change x with y end;
  cbv beta iota; eexists; split; [cbn; reflexivity|]; split; [reflexivity|]; split; [reflexivity|]; split; [reflexivity|]; split; [reflexivity|];
  intros; split; [lazy; reflexivity|]; split; lazy; reflexivity.
Qed.
Definition tr_course (v : vec3 RScalar) : course := ahead (X v - 5 / 1000000000) (Y v).
Lemma view_told v (r : list (output RScalar unit)) :
  Forall (eq (false, flags [0; 1]%nat, 5%Z, X v, Y v, [0; 0; 0; 0; 0; 0; 1; 0; 0; 0; 0; 0; 0; 0; 0])) (fused_view r) ->
  Forall (told_output (tr_course v)) r.
Proof.
  intros H. apply Forall_forall. intros [m|m|m|x|b| |m|f m|a b] Hi; try exact I.
  assert (HM : In (fb_initialized f, m_upd m, m_time m, m_value m 0%nat, m_value m 1%nat, map (fb_state f) (seq 0 15)) (fused_view r)).
  { unfold fused_view. apply in_flat_map. exists (OutFused f m). split; [exact Hi|left; reflexivity]. }
  rewrite Forall_forall in H. specialize (H _ HM). pose proof (f_equal (fun t => fst (fst (fst (fst (fst t))))) H) as E1. pose proof (f_equal (fun t => snd (fst (fst (fst (fst t))))) H) as E2.
  pose proof (f_equal (fun t => snd (fst (fst (fst t)))) H) as E3. pose proof (f_equal (fun t => snd (fst (fst t))) H) as E4.
  pose proof (f_equal (fun t => snd (fst t)) H) as E5. pose proof (f_equal snd H) as E6. cbn [fst snd map seq] in *. injection E6 as A0 A1 A2 A3 A4 A5 A6 A7 A8 A9 A10 A11 A12 A13 A14.
  cbn [told_output told_op]. split; [|split].
  - unfold truthful. rewrite <- E2, <- E3. split; [reflexivity|]. intros k Hk. apply flags_true in Hk. apply plain_value. unfold tr_course.
    destruct Hk as [<-|[<-|[]]]; rewrite ahead_at by lia; [rewrite <- E4|rewrite <- E5]; lra.
  - rewrite <- E1. discriminate.
  - intros _ k Hk HF. rewrite <- E3. apply plain_value. unfold tr_course. rewrite ahead_at by exact Hk. rewrite <- E2 in HF.
    do 15 (destruct k as [|k]; [first [discriminate HF|symmetry; assumption]|]). lia.
Qed.
Lemma tr_runs v : exists ld n, start tr_par 0 0 0 ex_new ex_ang86 vzero = Ok (ld, n) /\
  along (told_input (tr_course v) (list_pq RScalar) (ekf_vtbl ideal_eigen) (ld_config ld)) (list_pq RScalar) (ekf_vtbl ideal_eigen) (ld_config ld) n (sh_in ld v) /\
  let r := snd (respond (list_pq RScalar) (ekf_vtbl ideal_eigen) (ld_config ld) n (sh_in ld v)) in
  Forall (told_output (tr_course v)) r /\ exists m, In (OutOdom m) r /\ X (o_position m) = X v.
Proof.
  pose proof tr_start as H. unfold tr_fact in H.
  pose proof (fun ld n => start_fresh (E := unit) tr_par 0 0 0 (fun _ => 0) tt ex_ang86 vzero ld n) as F. fold ex_new in F.
  destruct (start tr_par 0 0 0 ex_new ex_ang86 vzero) as [[ld n]|]; [|contradiction].
  specialize (F ld n eq_refl). destruct F as ((_ & _ & _ & F & _) & _).
  destruct H as (d & H1 & H2 & H3 & H4 & H5 & H6). exists ld, n. split; [reflexivity|]. unfold sh_in. rewrite H1. cbn [map List.app].
  split; [split; [exact I|split; [exact I|exact I]]|]. cbv zeta.
  set (n1 := if sm_mem (n_last_msg n) (cd_topic d) then n
             else with_last_msg n (sm_set (n_last_msg n) (cd_topic d) 5%Z)).
  assert (F1 : sm_find (st_initial (n_streams n1)) (cd_topic d) = None).
  { unfold n1. destruct (sm_mem _ _); cbn; rewrite F; reflexivity. }
  pose proof (sh_prep (ld_config ld) (cd_topic d) false n1 v H5 F1) as P. cbv zeta in P. rewrite <- H2 in P.
  assert (G : deliver (list_pq RScalar) (ekf_vtbl ideal_eigen) (ld_config ld) n (Message sh_env (SubPose d) (MsgPose (sh_msg v))) =
      sh_first d n (preparePose sh_env (ld_config ld) (sh_msg v) (cd_topic d) (c_world (ld_config ld)) (c_base (ld_config ld)) false false false n1 (cd_upd d) vzero mzero)).
  { cbn [deliver receive]. unfold poseCallback, sh_first. rewrite H3, H4. reflexivity. }
  set (r := preparePose sh_env (ld_config ld) (sh_msg v) _ _ _ _ _ _ n1 _ _ _) in *. clearbody r.
  destruct P as (P1 & P2 & P3 & P4). rewrite H2 in P2.
  rewrite (proj2 (PrepareSeq.respond_cons _ _ _ EmptyString _ _)). cbn [snd].
  rewrite (proj2 (PrepareSeq.respond_cons _ _ _ EmptyString _ _)). cbn [snd]. rewrite G. clear G. cbn [deliver].
  assert (Er : r = mkPrep true (flags [0; 1]%nat) (pr_val r) (pr_cov r) (pr_streams r) (pr_diag r)).
  { revert P1 P2. destruct r as [o u w cv st dg]. cbn. intros -> ->. reflexivity. }
  specialize (H6 (pr_val r) (pr_cov r) (pr_streams r) (pr_diag r)). cbv zeta in H6. rewrite <- Er in H6. destruct H6 as (Q1 & Q2 & Q3).
  rewrite P3, P4 in Q2, Q3. clear Er P1 P2 P3 P4.
  set (l := snd (node_step _ _ _ _ _)) in *. set (l0 := snd (sh_first d n r)) in *. clearbody l l0.
  rewrite app_nil_r. split.
  - apply Forall_app. split; apply view_told; [rewrite Q1; constructor|rewrite Q2; repeat constructor].
  - assert (exists m, In (OutOdom m) l /\ (X (o_position m), Y (o_position m)) = (X v, Y v)) as (m & Hm & Hx).
    { clear - Q3. induction l as [|a l IH]; [discriminate Q3|].
      destruct a as [m| | | | | | | |]; try (destruct (IH Q3) as (m' & Hm & Em); exists m'; split; [right; exact Hm|exact Em]).
      exists m. split; [left; reflexivity|]. apply (f_equal (hd (0, 0))) in Q3. exact Q3. }
    injection Hx as Hx _. exists m. split; [apply in_or_app; right; exact Hm|exact Hx].
Qed.
