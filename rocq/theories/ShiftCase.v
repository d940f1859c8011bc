(** * Started nodes with another origin, and cases (C95) *)

From Coq Require Import Reals ZArith List Bool Lia Lra String Arith FunctionalExtensionality.
From Verif Require Import Scalar Mat FilterBase FilterOps Ekf Ukf StrMap Tf Diagnostics RosFilter RosConfig ForceTwoD RosPrepare
  SpecConfig SpecNode SpecTf SpecLin SpecFilter SpecPrepare SpecStart SpecLevel SpecShift
  RBridge RLin EigenExist NodeProofs NodeMore Trig TfReal TfRot PrepareProofs PrepareReal PrepareThm ConfigProofs ConfigAll ConfigFacts StartFacts LevelNode LevelCase UkfProofs ShiftFilter ShiftNode ShiftUkf
  PropsConfig PropsStart.
Import ListNotations.
Local Open Scope R_scope.
Local Open Scope list_scope.

Lemma started_moved eig (pq : pqueue RScalar) (p : params RScalar) period now later g ang nothing ld n d D is is' :
  pq_ok pq -> time_blind pq -> start p period now later (fb_init g tt) ang nothing = Ok (ld, n) ->
  Forall2 (moved_input d D (ld_config ld)) is is' ->
  anchored d (snd (respond pq (ekf_vtbl eig) (ld_config ld) n is)) ->
  Forall2 (moved_output d) (snd (respond pq (ekf_vtbl eig) (ld_config ld) n is))
                           (snd (respond pq (ekf_vtbl eig) (ld_config ld) n is')).
Proof.
  intros Hq Hb Hs Hi Ha. destruct (start_fresh _ _ _ _ _ _ _ _ _ _ Hs) as (U & _).
  destruct U as (U1 & U2 & U3 & U4 & U5 & U6 & _ & _ & _ & _ & _ & U7).
  apply (respond_moved eig pq (ld_config ld) d D is is' n); try assumption.
  - exact (start_matrix _ _ _ _ _ _ _ _ _ Hs).
  - revert U4 U5 U6. destruct (n_streams n) as [a b c]. cbn. intros -> -> ->. reflexivity.
Qed.

(** ** The UKF *)
Lemma start_points (p : params RScalar) period now later g (e : ukf_ext RScalar) ang nothing ld n :
  start p period now later (fb_init g e) ang nothing = Ok (ld, n) -> fb_F (n_filter n) = meye /\ fb_ext (n_filter n) = e.
Proof.
  intros H. apply start_eq in H. destruct H as (H & ->). rewrite loadParams_eq in H.
  apply obind_Ok in H. destruct H as (l & _ & H). apply obind_Ok in H. destruct H as (Q & HQ & H).
  apply obind_Ok in H. destruct H as (P & HP & H). cbv zeta in H. injection H as <-. cbv zeta.
  cbn [n_filter with_diag node_init ld_filter ld_config c_Q c_P].
  set (u := (cp_use (load_control p) && negb (Z.eqb (accumulate (l_control l)) 0))%bool). clearbody u.
  destruct P, Q, u; cbn; try (split; reflexivity);
    (destruct (p_initial_state p) as [w|]; [match goal with |- context [if ?b then _ else _] => destruct b end|]; split; reflexivity).
Qed.

Lemma started_moved_ukf eig (pq : pqueue RScalar) (p : params RScalar) period now later g gs gq gl alpha kappa beta ang nothing ld n d D is is' :
  pq_ok pq -> time_blind pq -> alpha * alpha * (15 + kappa) <> 0 ->
  start p period now later (setConstants (@ukf_init RScalar g gs gq gl) alpha kappa beta) ang nothing = Ok (ld, n) ->
  Forall2 (moved_input d D (ld_config ld)) is is' ->
  anchored d (snd (respond pq (ukf_vtbl eig) (ld_config ld) n is)) ->
  points_generated (snd (respond pq (ukf_vtbl eig) (ld_config ld) n is)) ->
  Forall2 (moved_output d) (snd (respond pq (ukf_vtbl eig) (ld_config ld) n is))
                           (snd (respond pq (ukf_vtbl eig) (ld_config ld) n is')).
Proof.
  intros Hq Hb Hw Hs Hi Ha Hp. set (f0 := setConstants _ _ _ _) in Hs.
  assert (E0 : f0 = fb_init g (fb_ext f0)) by reflexivity. rewrite E0 in Hs.
  destruct (start_fresh _ _ _ _ _ _ _ _ _ _ Hs) as (U & _).
  destruct U as (U1 & U2 & U3 & U4 & U5 & U6 & _ & _ & _ & _ & _ & U7).
  destruct (start_points _ _ _ _ _ _ _ _ _ _ Hs) as (F1 & F2).
  apply (ukf_respond_moved eig pq (ld_config ld) d D is is' n); try assumption.
  - rewrite F2. unfold f0. cbn [fb_ext setConstants set_ext u_sw]. apply sw_sum. unfold ukf_lambda. toR.
    intros E. apply Hw. change (sc RScalar) with R in *. lra.
  - rewrite F2. reflexivity.
  - revert U4 U5 U6. destruct (n_streams n) as [a b c]. cbn. intros -> -> ->. reflexivity.
Qed.

Lemma v3add_zero (v : vec3 RScalar) : v3add v v3zero = v.
Proof. destruct v as [x y z]. unfold v3add, v3zero. cbn. toR. f_equal; change (sc RScalar) with R in *; ring. Qed.

Lemma axis_zero k : along_axis v3zero k = 0.
Proof. do 3 (destruct k as [|k]; [reflexivity|]). reflexivity. Qed.

Lemma shown_same {E} (os os' : list (output RScalar E)) : Forall2 (moved_output v3zero) os os' ->
  odoms os' = odoms os /\ accels os' = accels os /\ tfs os' = tfs os.
Proof.
  induction 1 as [|o o' os os' H _ (A & B & C)]; [repeat split|].
  destruct o as [m|m|m|r|b| |m|f m|a b]; cbn [moved_output] in H.
  - subst o'. cbn [odoms accels tfs]. rewrite A. split; [|split; assumption]. f_equal. destruct m. unfold moved_odom. cbn. rewrite v3add_zero. reflexivity.
  - subst o'. cbn [odoms accels tfs]. rewrite B. repeat split; assumption.
  - subst o'. cbn [odoms accels tfs]. rewrite C. split; [assumption|]. split; [assumption|]. f_equal. destruct m. unfold moved_tf. cbn. rewrite v3add_zero. reflexivity.
  - subst o'. repeat split; assumption.
  - subst o'. repeat split; assumption.
  - subst o'. repeat split; assumption.
  - destruct H as (m' & -> & _). repeat split; assumption.
  - destruct H as (f' & m' & -> & _). repeat split; assumption.
  - subst o'. repeat split; assumption.
Qed.

Lemma started_same eig (pq : pqueue RScalar) (p : params RScalar) period now later g ang nothing ld n D is is' :
  pq_ok pq -> time_blind pq -> start p period now later (fb_init g tt) ang nothing = Ok (ld, n) ->
  Forall2 (moved_input v3zero D (ld_config ld)) is is' ->
  let r := snd (respond pq (ekf_vtbl eig) (ld_config ld) n is) in
  let r' := snd (respond pq (ekf_vtbl eig) (ld_config ld) n is') in
  odoms r' = odoms r /\ accels r' = accels r /\ tfs r' = tfs r.
Proof.
  intros Hq Hb Hs Hi. apply shown_same. eapply started_moved; try eassumption.
  apply Forall_forall. intros [m|m|m|r|b| |m|f m|a b] _; try exact I. intros _ k Hk. destruct Hk. apply axis_zero.
Qed.

(** ** Cases *)
Definition sh_env : penv RScalar := @mkEnv RScalar false 9.81 [] (fun _ _ _ => Some (@no_motion RScalar)) (fun _ => 0%Z) (fun _ => 0).
Definition sh_msg (v : vec3 RScalar) : pose_msg RScalar := @mkPose RScalar 5 "gps" v (@mkQuat RScalar 0 0 0 1) lv_even.
Definition sh_par (differential relative : bool) : params RScalar :=
  ex_par false false None None [] [@mkPosePar RScalar "/gps" (Some (flags [0; 1]%nat)) differential relative 5] [] [] None None.
Definition sh_d : vec3 RScalar := v3 10 20 0.
Definition sh_first {E} (d : callback_data RScalar) (n : node RScalar E) (r : prepared RScalar) :=
  sensorCallback (list_pq RScalar) true (cd_topic d) 5 (cd_upd d) (cd_thresh d) (fun _ _ _ _ => r) n.
Definition shown_place {E} (r : list (output RScalar E)) : list (R * R) :=
  flat_map (fun o => match o with OutOdom m => [(X (o_position m), Y (o_position m))] | _ => [] end) r.
Definition fused_flags {E} (r : list (output RScalar E)) : list (bool * list bool) :=
  flat_map (fun o => match o with OutFused f m => [(fb_initialized f, m_upd m)] | _ => [] end) r.

Definition sh_fact {E} (VT : vtbl RScalar E) (r : outcome (loaded RScalar E * node RScalar E)) (differential relative : bool) : Prop :=
  match r with
  | Ok (ld, n) => exists d, ld_subs ld = [SubPose d] /\ cd_upd d = flags [0; 1]%nat /\
      cd_differential d = differential /\ cd_relative d = relative /\ c_world (ld_config ld) = "odom"%string /\
      forall v cv st dg, let r := mkPrep true (flags [0; 1]%nat) v cv st dg in
        let r2 := snd (node_step (list_pq RScalar) VT (ld_config ld) (fst (sh_first d n r)) (EvCycle 6 6 None)) in
        fused_flags (snd (sh_first d n r)) = [] /\ fused_flags r2 = [(false, flags [0; 1]%nat)] /\
        shown_place r2 = [(v 0%nat, v 1%nat)]
  | Undefined => False
  end.
Ltac sh_facts :=
  unfold sh_fact;
  match goal with |- match ?x with _ => _ end => let y := eval hnf in x in change x with y end;
  cbv beta iota; eexists; split; [cbn; reflexivity|]; split; [reflexivity|]; split; [reflexivity|]; split; [reflexivity|]; split; [reflexivity|];
  intros; split; [lazy; reflexivity|]; split; lazy; reflexivity.
Lemma sh_absolute : sh_fact (ekf_vtbl ideal_eigen) (start (sh_par false false) 0 0 0 ex_new ex_ang86 vzero) false false.
Proof. sh_facts. Qed.
Lemma sh_relative : sh_fact (ekf_vtbl ideal_eigen) (start (sh_par false true) 0 0 0 ex_new ex_ang86 vzero) false true.
Proof. sh_facts. Qed.
(** The parameters of ukf_node *)
Definition sh_ukf : ukf RScalar := setConstants (@ukf_init RScalar (fun _ => 0) (fun _ _ => 0) mzero 0) (1 / 1000) 0 2.
Lemma sh_absolute_ukf : sh_fact (ukf_vtbl ideal_eigen) (start (sh_par false false) 0 0 0 sh_ukf ex_ang86 vzero) false false.
Proof. sh_facts. Qed.

Lemma sh_prep {E} (c : config RScalar) topic relative (n : node RScalar E) v : c_world c = "odom"%string ->
  sm_find (st_initial (n_streams n)) topic = None ->
  let r := preparePose sh_env c (sh_msg v) topic (c_world c) (c_base c) false relative false n (flags [0; 1]%nat) vzero mzero in
  pr_ok r = true /\ pr_upd r = flags [0; 1]%nat /\
  pr_val r 0%nat = (if relative then 0 else X v) /\ pr_val r 1%nat = (if relative then 0 else Y v).
Proof.
  intros HW HS r.
  assert (E1 : pose_frames c (ps_frame (sh_msg v)) (c_world c) false false = ("odom"%string, "gps"%string)) by (rewrite HW; reflexivity).
  assert (E2 : source_of sh_env c (c_base c) (pose_lookup_time sh_env (ps_stamp (sh_msg v))) = None)
    by (unfold source_of; rewrite String.eqb_refl; reflexivity).
  pose proof (pose_ready (E := E) sh_env c (sh_msg v) topic (c_world c) (c_base c) relative false n (flags [0; 1]%nat) vzero mzero no_motion _ _
    E1 eq_refl no_motion_rigid) as P.
  cbv zeta in P. rewrite E2, HS in P. cbn [to_base base_pose] in P.
  assert (RP : rigid (pose_of (sh_msg v))) by apply pose_rigid.
  set (p := pose_of (sh_msg v)) in *.
  assert (EP : t_origin p = v) by reflexivity. clearbody p.
  destruct P as (A & _ & B & _).
  { intros s Hs. discriminate Hs. }
  { apply (rigid_mult no_motion _ no_motion_rigid). destruct relative; [|exact RP].
    rewrite inverseTimes_eq. apply rigid_mult; [|exact RP]. apply rigid_inverse. exact RP. }
  fold r in A, B. split; [exact A|]. split.
  - assert (HL : List.length (pr_upd r) = 15%nat) by (unfold r; apply AccessFacts.pose_len; reflexivity).
    apply (nth_ext _ _ false false); [exact HL|]. intros i Hi. destruct (B i) as [_ ->]; [left; reflexivity|].
    rewrite no_motion_flags. reflexivity.
  - destruct (B 0%nat) as [-> _]; [left; reflexivity|]. destruct (B 1%nat) as [-> _]; [left; reflexivity|].
    unfold set_vec3, vset. cbn [Nat.eqb Nat.add]. unfold t_mult, t_origin at 1. cbn [t_origin].
    assert (E0 : forall q : V3, t_apply no_motion q = q) by (intros q; rewrite t_apply_move; unfold move; rewrite no_motion_turn; apply plus_zero).
    destruct relative.
    + assert (EI : t_origin (t_inverseTimes p p) = v3 0 0 0).
      { unfold t_inverseTimes. cbn [t_origin]. unfold v3sub, m3mv, v3dot. cbn. toR. unfold v3. f_equal; change (sc RScalar) with R in *; ring. }
      cbn [t_mult t_origin]. rewrite E0, EI. split; reflexivity.
    + cbn [t_mult t_origin]. rewrite E0, EP. split; reflexivity.
Qed.

Definition sh_in {E} (ld : loaded RScalar E) (v : vec3 RScalar) : list (input (K := RScalar) (E := E)) :=
  map (fun s => Message sh_env s (MsgPose (sh_msg v))) (ld_subs ld) ++ [Event (EvCycle 6 6 None)].

Lemma sh_runs_at {E} (VT : vtbl RScalar E) g e relative now later ang : sh_fact VT (start (sh_par false relative) 0 now later (fb_init g e) ang vzero) false relative ->
  exists ld n d, start (sh_par false relative) 0 now later (fb_init g e) ang vzero = Ok (ld, n) /\
  ld_subs ld = [SubPose d] /\ cd_differential d = false /\ cd_relative d = relative /\ c_world (ld_config ld) = "odom"%string /\
  forall v, let r := snd (respond (list_pq RScalar) VT (ld_config ld) n (sh_in ld v)) in
    (exists m, In (OutOdom m) r /\ X (o_position m) = (if relative then 0 else X v) /\ Y (o_position m) = (if relative then 0 else Y v)) /\
    fused_flags r = [(false, flags [0; 1]%nat)].
Proof.
  intros H. unfold sh_fact in H. pose proof (fun ld n => start_fresh (E := E) (sh_par false relative) 0 now later g e ang vzero ld n) as F.
  destruct (start (sh_par false relative) 0 now later (fb_init g e) ang vzero) as [[ld n]|] eqn:ES; [|contradiction].
  specialize (F ld n eq_refl). destruct F as ((_ & _ & _ & F & _) & _).
  destruct H as (d & H1 & H2 & H3 & H4 & H5 & H6). exists ld, n, d. split; [reflexivity|]. split; [exact H1|]. split; [exact H3|]. split; [exact H4|].
  split; [exact H5|]. intros v. cbv zeta. unfold sh_in. rewrite H1. cbn [map List.app].
  set (n1 := if sm_mem (n_last_msg n) (cd_topic d) then n
             else with_last_msg n (sm_set (n_last_msg n) (cd_topic d) 5%Z)).
  assert (F1 : sm_find (st_initial (n_streams n1)) (cd_topic d) = None).
  { unfold n1. destruct (sm_mem _ _); cbn; rewrite F; reflexivity. }
  pose proof (sh_prep (ld_config ld) (cd_topic d) relative n1 v H5 F1) as P. cbv zeta in P. rewrite <- H2 in P.
  assert (G : deliver (list_pq RScalar) VT (ld_config ld) n (Message sh_env (SubPose d) (MsgPose (sh_msg v))) =
      sh_first d n (preparePose sh_env (ld_config ld) (sh_msg v) (cd_topic d) (c_world (ld_config ld)) (c_base (ld_config ld)) false relative false n1 (cd_upd d) vzero mzero)).
  { cbn [deliver receive]. unfold poseCallback, sh_first. rewrite H3, H4. reflexivity. }
  set (r := preparePose sh_env (ld_config ld) (sh_msg v) _ _ _ _ _ _ n1 _ _ _) in *. clearbody r.
  destruct P as (P1 & P2 & P3 & P4). rewrite H2 in P2.
  rewrite (proj2 (PrepareSeq.respond_cons _ _ _ EmptyString _ _)). cbn [snd].
  rewrite (proj2 (PrepareSeq.respond_cons _ _ _ EmptyString _ _)). cbn [snd]. rewrite G. clear G. cbn [deliver].
  assert (Er : r = mkPrep true (flags [0; 1]%nat) (pr_val r) (pr_cov r) (pr_streams r) (pr_diag r)).
  { revert P1 P2. destruct r as [o u w cv st dg]. cbn. intros -> ->. reflexivity. }
  specialize (H6 (pr_val r) (pr_cov r) (pr_streams r) (pr_diag r)). cbv zeta in H6. rewrite <- Er in H6. destruct H6 as (Q1 & Q2 & Q3).
  rewrite P3, P4 in Q3. clear Er P1 P2 P3 P4.
  set (l := snd (node_step _ _ _ _ _)) in *. set (l0 := snd (sh_first d n r)) in *. clearbody l l0.
  rewrite app_nil_r. split.
  - assert (exists m, In (OutOdom m) l /\ (X (o_position m), Y (o_position m)) = (if relative then 0 else X v, if relative then 0 else Y v)) as (m & Hm & Hx).
    { clear - Q3. induction l as [|a l IH]; [discriminate Q3|].
      destruct a as [m| | | | | | | |]; try (destruct (IH Q3) as (m' & Hm & Em); exists m'; split; [right; exact Hm|exact Em]).
      exists m. split; [left; reflexivity|]. apply (f_equal (hd (0, 0))) in Q3. exact Q3. }
    injection Hx as Hx Hy. exists m. split; [apply in_or_app; right; exact Hm|]. split; assumption.
  - unfold fused_flags. rewrite flat_map_app. fold (fused_flags l0). fold (fused_flags l). rewrite Q1, Q2. reflexivity.
Qed.

Lemma sh_runs {E} (VT : vtbl RScalar E) g e relative : sh_fact VT (start (sh_par false relative) 0 0 0 (fb_init g e) ex_ang86 vzero) false relative ->
  exists ld n d, start (sh_par false relative) 0 0 0 (fb_init g e) ex_ang86 vzero = Ok (ld, n) /\
  ld_subs ld = [SubPose d] /\ cd_differential d = false /\ cd_relative d = relative /\ c_world (ld_config ld) = "odom"%string /\
  forall v, let r := snd (respond (list_pq RScalar) VT (ld_config ld) n (sh_in ld v)) in
    (exists m, In (OutOdom m) r /\ X (o_position m) = (if relative then 0 else X v) /\ Y (o_position m) = (if relative then 0 else Y v)) /\
    fused_flags r = [(false, flags [0; 1]%nat)].
Proof. apply sh_runs_at. Qed.

Lemma sh_anchored {E} (r : list (output RScalar E)) : fused_flags r = [(false, flags [0; 1]%nat)] -> anchored sh_d r.
Proof.
  intros H. apply Forall_forall. intros [m|m|m|x|b| |m|f m|a b] Hi; try exact I. intros _ k Hk.
  assert (HM : In (fb_initialized f, m_upd m) (fused_flags r)).
  { unfold fused_flags. apply in_flat_map. exists (OutFused f m). split; [exact Hi|left; reflexivity]. }
  rewrite H in HM. destruct HM as [HM|[]]. injection HM as _ <-. do 2 (destruct k as [|k]; [reflexivity|]). destruct Hk.
  destruct k as [|k]; reflexivity.
Qed.

Lemma v3add_d (v : vec3 RScalar) : m3mv (t_basis (@no_motion RScalar)) v = v.
Proof. exact (no_motion_turn v). Qed.

Definition sh_moves : string -> vec3 RScalar := fun _ => sh_d.
Definition sh_p : vec3 RScalar := v3 1 2 3.

Lemma sh_moved {E} (ld : loaded RScalar E) d : ld_subs ld = [SubPose d] -> cd_relative d = false -> c_world (ld_config ld) = "odom"%string ->
  Forall2 (moved_input sh_d sh_moves (ld_config ld)) (sh_in ld sh_p) (sh_in ld (v3add sh_p sh_d)).
Proof.
  intros H2 H4 H5. unfold sh_in. rewrite H2. cbn [map List.app]. constructor; [|constructor; [apply moved_event; exact I|constructor]].
  change (sh_msg (v3add sh_p sh_d)) with (moved_pose (sh_moves (cd_topic d)) (sh_msg sh_p)).
  apply moved_pose_msg; [intros E'; discriminate E'|]. right. right. right. split; [exact H4|].
  intros t Ht. unfold looked_up in Ht. rewrite H5 in Ht. injection Ht as <-. apply v3add_d.
Qed.
Lemma sh_eleven : X (v3add sh_p sh_d) = 11.
Proof. unfold X, v3add, sh_p, sh_d, v3. cbn. toR. lra. Qed.
Lemma of_started p ld n : start p 0 0 0 ex_new ex_ang86 vzero = Ok (ld, n) -> started p = Some (ld, n).
Proof. intros H. unfold started. rewrite H. reflexivity. Qed.

Lemma moved_case : exists ld n is is', started (sh_par false false) = Some (ld, n) /\
  Forall2 (moved_input sh_d sh_moves (ld_config ld)) is is' /\
  anchored sh_d (snd (respond (list_pq RScalar) (ekf_vtbl ideal_eigen) (ld_config ld) n is)) /\
  (exists m, In (OutOdom m) (snd (respond (list_pq RScalar) (ekf_vtbl ideal_eigen) (ld_config ld) n is)) /\ X (o_position m) = 1) /\
  (exists m, In (OutOdom m) (snd (respond (list_pq RScalar) (ekf_vtbl ideal_eigen) (ld_config ld) n is')) /\ X (o_position m) = 11).
Proof.
  destruct (sh_runs _ (fun _ => 0) tt false sh_absolute) as (ld & n & d & H1 & H2 & H3 & H4 & H5 & H6).
  exists ld, n, (sh_in ld sh_p), (sh_in ld (v3add sh_p sh_d)). split; [exact (of_started _ _ _ H1)|].
  destruct (H6 sh_p) as ((m & M1 & M2 & _) & A). destruct (H6 (v3add sh_p sh_d)) as ((m' & M1' & M2' & _) & _). split; [|split; [|split]].
  - exact (sh_moved ld d H2 H4 H5).
  - apply sh_anchored. exact A.
  - exists m. split; [exact M1|exact M2].
  - exists m'. split; [exact M1'|]. rewrite M2'. exact sh_eleven.
Qed.

Lemma same_case : exists ld n is is', started (sh_par false true) = Some (ld, n) /\ is <> is' /\
  Forall2 (moved_input v3zero sh_moves (ld_config ld)) is is' /\
  exists m, In (OutOdom m) (snd (respond (list_pq RScalar) (ekf_vtbl ideal_eigen) (ld_config ld) n is)).
Proof.
  destruct (sh_runs _ (fun _ => 0) tt true sh_relative) as (ld & n & d & H1 & H2 & H3 & H4 & H5 & H6).
  exists ld, n, (sh_in ld sh_p), (sh_in ld (v3add sh_p sh_d)). split; [exact (of_started _ _ _ H1)|].
  destruct (H6 sh_p) as ((m & M1 & _) & _). split; [|split].
  - unfold sh_in. rewrite H2. cbn [map List.app]. intros E. injection E as E. revert E. unfold sh_p, sh_d, v3add, v3. cbn. toR. intros E. lra.
  - unfold sh_in. rewrite H2. cbn [map List.app]. constructor; [|constructor; [apply moved_event; exact I|constructor]].
    change (sh_msg (v3add sh_p sh_d)) with (moved_pose (sh_moves (cd_topic d)) (sh_msg sh_p)).
    apply moved_pose_msg; [intros _; reflexivity|]. right. right. left. split; [exact H4|reflexivity].
  - exists m. exact M1.
Qed.

(** With the origin fixed by nothing, a velocity alone is published at the same place. *)
Lemma unfixed_ex : exists (p : params RScalar) ld n is d D,
  start p 0 0 0 (@fb_init RScalar unit (fun _ => 0) tt) ex_ang86 vzero = Ok (ld, n) /\
  Forall2 (moved_input d D (ld_config ld)) is is /\
  let r := snd (respond (list_pq RScalar) (ekf_vtbl ideal_eigen) (ld_config ld) n is) in
  ~ Forall2 (moved_output d) r r.
Proof.
  destruct lv_runs as (ld & n & H1 & H2 & (d & H3 & H4) & (m & Hm & _) & _).
  exists lv_par, ld, n, (lv_ins ld), (v3 10 0 0), (fun _ => v3zero). split.
  { revert H1. unfold started, ex_new. destruct (start _ _ _ _ _ _ _) as [r|]; [|discriminate]. intros Q. injection Q as ->. reflexivity. }
  split.
  - unfold lv_ins, lv_in. rewrite H3. cbn [map List.app]. constructor; [|constructor; [apply moved_event; exact I|constructor]].
    apply moved_twist_msg; [intros _; reflexivity|]. rewrite H4. intros k Hk. do 3 (destruct k as [|k]; [reflexivity|]). exfalso; lia.
  - cbv zeta. set (r := snd (respond _ _ _ _ _)) in *. clearbody r. intros F.
    assert (G : forall o, In o r -> moved_output (v3 10 0 0) o o).
    { clear - F. remember r as r' in F at 2. assert (E : r' = r) by (symmetry; congruence). clear Heqr'.
      revert E. induction F as [|o o' l l' Ho _ IH]; intros E; [intros o []|]. injection E as -> ->.
      intros o2 [<-|Hi]; [exact Ho|apply IH; [reflexivity|exact Hi]]. }
    specialize (G _ Hm). cbn [moved_output] in G. injection G as G. apply (f_equal (fun q => X (o_position q))) in G.
    unfold moved_odom, X, v3add, v3 in G. cbn in G. revert G. toR. intros G. lra.
Qed.

Lemma sh_points (r : list (output RScalar (ukf_ext RScalar))) : fused_flags r = [(false, flags [0; 1]%nat)] -> points_generated r.
Proof.
  intros H. apply Forall_forall. intros [m|m|m|x|b| |m|f m|a b] Hi; try exact I. intros HI.
  assert (HM : In (fb_initialized f, m_upd m) (fused_flags r)).
  { unfold fused_flags. apply in_flat_map. exists (OutFused f m). split; [exact Hi|left; reflexivity]. }
  rewrite H in HM. destruct HM as [HM|[]]. rewrite HI in HM. discriminate HM.
Qed.

Lemma moved_ukf_case : exists ld n is is', start (sh_par false false) 0 0 0 sh_ukf ex_ang86 vzero = Ok (ld, n) /\
  Forall2 (moved_input sh_d sh_moves (ld_config ld)) is is' /\
  anchored sh_d (snd (respond (list_pq RScalar) (ukf_vtbl ideal_eigen) (ld_config ld) n is)) /\
  points_generated (snd (respond (list_pq RScalar) (ukf_vtbl ideal_eigen) (ld_config ld) n is)) /\
  (exists m, In (OutOdom m) (snd (respond (list_pq RScalar) (ukf_vtbl ideal_eigen) (ld_config ld) n is)) /\ X (o_position m) = 1) /\
  (exists m, In (OutOdom m) (snd (respond (list_pq RScalar) (ukf_vtbl ideal_eigen) (ld_config ld) n is')) /\ X (o_position m) = 11).
Proof.
  destruct (sh_runs _ (fun _ => 0) (fb_ext sh_ukf) false sh_absolute_ukf) as (ld & n & d & H1 & H2 & H3 & H4 & H5 & H6).
  exists ld, n, (sh_in ld sh_p), (sh_in ld (v3add sh_p sh_d)). split; [exact H1|].
  destruct (H6 sh_p) as ((m & M1 & M2 & _) & A). destruct (H6 (v3add sh_p sh_d)) as ((m' & M1' & M2' & _) & _). split; [|split; [|split; [|split]]].
  - exact (sh_moved ld d H2 H4 H5).
  - apply sh_anchored. exact A.
  - apply sh_points. exact A.
  - exists m. split; [exact M1|exact M2].
  - exists m'. split; [exact M1'|]. rewrite M2'. exact sh_eleven.
Qed.
