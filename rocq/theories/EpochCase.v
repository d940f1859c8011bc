(** * Started nodes with another epoch, and cases (C99) *)

From Coq Require Import Reals ZArith List Bool Lia Lra String Arith FunctionalExtensionality.
From Verif Require Import Scalar Mat FilterBase FilterOps Ekf Ukf StrMap Tf Diagnostics RosFilter RosConfig ForceTwoD RosPrepare
  SpecConfig SpecNode SpecTf SpecLin SpecFilter SpecPrepare SpecStart SpecLevel SpecShift SpecEpoch
  RBridge EigenExist NodeProofs NodeMore ConversionsProofs ConfigFacts StartFacts ConfigProofs ConfigAll LevelCase ShiftCase EpochFilter EpochNode
  PropsConfig PropsStart.
Import ListNotations.
Local Open Scope R_scope.
Local Open Scope list_scope.

(** ** Filters *)
Lemma filter_later {K : Scalar} {E} (vt : vtbl K E) T lo g (e : E) ops ops' : epoch_blind vt T -> (0 <= lo)%Z ->
  Forall2 (delayed_op T lo) ops ops' ->
  let f := fb_run vt (fb_init g e) ops in
  exists last control, fb_run vt (fb_init g e) ops' = retimed f last control /\ (fb_initialized f = true -> last = fb_last_time f + T)%Z.
Proof.
  intros Hv Hl Ho. assert (HI : Rf T lo (@fb_init K E g e) (@fb_init K E g e)).
  { exists 0%Z, 0%Z. split; [reflexivity|]. split; [right; split; reflexivity|]. split; [right; split; reflexivity|exact Hl]. }
  pose proof (run_later vt T lo Hv ops ops' Ho _ _ HI) as (last & ctl & H1 & _ & H2 & _). cbv zeta. exists last, ctl. split; [exact H1|].
  intros Hi. rewrite Hi in H2. exact H2.
Qed.

(** ** Nodes *)
Lemma setters_later {E} (f2 : fb RScalar E) now T lo (u : bool) (P Q : option (mat RScalar)) (v1 : list bool) (v2 : Z) (v3 v4 v5 v6 : list RScalar) :
  fb_control_time f2 = 0%Z -> fb_initialized f2 = false ->
  let set (t : Z) := when P (when Q (if u then setControlParams (setLastMeasurementTime f2 t) v1 v2 v3 v4 v5 v6 else setLastMeasurementTime f2 t)
    setProcessNoiseCovariance) setEstimateErrorCovariance in
  (fb_control_timeout (set now) <= lo)%Z -> Rf T lo (set now) (set (now + T)%Z).
Proof.
  intros E2 E3. cbv zeta. destruct f2. cbn in E2, E3. subst. intros HC. exists (now + T)%Z, 0%Z.
  destruct P, Q, u; cbn in HC |- *; (split; [reflexivity|]; split; [right; split; reflexivity|]; split; [left; reflexivity|exact HC]).
Qed.
Lemma start_later {E} (p : params RScalar) period now later g (e : E) ang nothing ld n T lo :
  start p period now later (fb_init g e) ang nothing = Ok (ld, n) -> (fb_control_timeout (n_filter n) <= lo)%Z ->
  exists ld' n', start p period (now + T) (later + T) (fb_init g e) (delayed_ang T ang) nothing = Ok (ld', n') /\
    ld_config ld' = ld_config ld /\ ld_subs ld' = ld_subs ld /\ Rn T lo n n' /\ c_diag_period (ld_config ld) = period /\ (0 <= c_history (ld_config ld))%Z.
Proof.
  intros H HC. destruct (start_fresh _ _ _ _ _ _ _ _ _ _ H) as (U & _).
  apply start_eq in H. destruct H as (H & HN). unfold start. rewrite loadParams_eq in *.
  destruct (load_inputs p _) as [l|]; [|discriminate H]. cbn [obind] in *.
  destruct (load_covariance (p_Q p)) as [Q|]; [|discriminate H]. cbn [obind] in *.
  destruct (load_covariance (p_P p)) as [P|]; [|discriminate H]. cbn [obind] in *. cbv zeta in H |- *. injection H as HL.
  eexists _, _. split; [reflexivity|]. rewrite <- HL. cbn [ld_config ld_subs c_diag_period c_history].
  split; [reflexivity|]. split; [reflexivity|]. split; [|split; [reflexivity|]].
  - destruct U as (U1 & U2 & U3 & U4 & U5 & U6 & U7 & U8 & U9 & U10 & U11 & U12).
    rewrite HN in *. rewrite <- HL in *.
    set (u := (cp_use (load_control p) && negb (Z.eqb (accumulate (l_control l)) 0))%bool) in *. clearbody u.
    constructor; try reflexivity; try (cbn; constructor; fail); try (left; reflexivity); try (right; split; reflexivity).
    + cbn [n_filter with_diag node_init ld_filter] in *.
      apply setters_later; [| |exact HC]; (destruct (p_initial_state p) as [w|]; [destruct (Nat.eqb (List.length w) STATE_SIZE)|]; reflexivity).
    + intros Hi. rewrite U12 in Hi. discriminate Hi.
  - unfold dur_from_seconds. cbn [s_trunc s_abs s_mul s_ofZ RScalar].
    apply trunc_pos. apply Rmult_le_pos; [apply Rabs_pos|lra].
Qed.

Lemma started_later {E} (vt : vtbl RScalar E) (pq : pqueue RScalar) (p : params RScalar) period now later g (e : E) ang nothing ld n T lo is is' :
  epoch_blind vt T -> pq_ok pq -> order_blind pq ->
  start p period now later (fb_init g e) ang nothing = Ok (ld, n) ->
  (0 < lo)%Z -> (period <= lo)%Z -> (fb_control_timeout (n_filter n) <= lo)%Z ->
  Forall2 (delayed_input T lo (ld_config ld)) is is' ->
  exists ld' n', start p period (now + T) (later + T) (fb_init g e) (delayed_ang T ang) nothing = Ok (ld', n') /\
    ld_config ld' = ld_config ld /\ ld_subs ld' = ld_subs ld /\
    Forall2 (delayed_output T) (snd (respond pq vt (ld_config ld) n is)) (snd (respond pq vt (ld_config ld') n' is')).
Proof.
  intros Hv Hq Hb Hs Hl Hp Hc Hi. destruct (start_later _ _ _ _ _ _ _ _ _ _ T lo Hs Hc) as (ld' & n' & H1 & H2 & H3 & H4 & H5 & H6).
  exists ld', n'. split; [exact H1|]. split; [exact H2|]. split; [exact H3|]. rewrite H2.
  apply (respond_later vt pq (ld_config ld) T lo); try assumption; try lia.
Qed.

Lemma ekf_later eig (pq : pqueue RScalar) (p : params RScalar) period now later g ang nothing ld n T lo is is' :
  pq_ok pq -> order_blind pq ->
  start p period now later (fb_init g tt) ang nothing = Ok (ld, n) ->
  (0 < lo)%Z -> (period <= lo)%Z -> (fb_control_timeout (n_filter n) <= lo)%Z ->
  Forall2 (delayed_input T lo (ld_config ld)) is is' ->
  exists ld' n', start p period (now + T) (later + T) (fb_init g tt) (delayed_ang T ang) nothing = Ok (ld', n') /\
    ld_config ld' = ld_config ld /\ ld_subs ld' = ld_subs ld /\
    Forall2 (delayed_output T) (snd (respond pq (ekf_vtbl eig) (ld_config ld) n is)) (snd (respond pq (ekf_vtbl eig) (ld_config ld') n' is')).
Proof. apply started_later. apply ekf_blind. Qed.
Lemma ukf_later eig (pq : pqueue RScalar) (p : params RScalar) period now later g gs gq gl alpha kappa beta ang nothing ld n T lo is is' :
  pq_ok pq -> order_blind pq ->
  start p period now later (setConstants (@ukf_init RScalar g gs gq gl) alpha kappa beta) ang nothing = Ok (ld, n) ->
  (0 < lo)%Z -> (period <= lo)%Z -> (fb_control_timeout (n_filter n) <= lo)%Z ->
  Forall2 (delayed_input T lo (ld_config ld)) is is' ->
  exists ld' n', start p period (now + T) (later + T) (setConstants (@ukf_init RScalar g gs gq gl) alpha kappa beta) (delayed_ang T ang) nothing = Ok (ld', n') /\
    ld_config ld' = ld_config ld /\ ld_subs ld' = ld_subs ld /\
    Forall2 (delayed_output T) (snd (respond pq (ukf_vtbl eig) (ld_config ld) n is)) (snd (respond pq (ukf_vtbl eig) (ld_config ld') n' is')).
Proof.
  set (f0 := setConstants _ _ _ _). assert (E0 : f0 = fb_init g (fb_ext f0)) by reflexivity. rewrite E0.
  apply started_later. apply ukf_blind.
Qed.

(** ** Cases *)
Definition ep_msg (t : Z) : pose_msg RScalar := @mkPose RScalar t "gps" sh_p (@mkQuat RScalar 0 0 0 1) lv_even.
Lemma ep_prep {E} (c : config RScalar) topic t (n : node RScalar E) upd v0 c0 :
  preparePose sh_env c (ep_msg t) topic (c_world c) (c_base c) false false false n upd v0 c0 =
  preparePose sh_env c (sh_msg sh_p) topic (c_world c) (c_base c) false false false n upd v0 c0.
Proof. reflexivity. Qed.
(** A position at [t], then a cycle at [t + 1], for every subscription. *)
Definition ep_in {E} (ld : loaded RScalar E) (t : Z) : list (input (K := RScalar) (E := E)) :=
  map (fun s => Message sh_env s (MsgPose (ep_msg t))) (ld_subs ld) ++ [Event (EvCycle (t + 1) (t + 1) None)].
Lemma ep_delayed {E} (ld : loaded RScalar E) t T lo : (lo <= t)%Z -> (lo <= t + T)%Z ->
  Forall2 (delayed_input T lo (ld_config ld)) (ep_in ld t) (ep_in ld (t + T)).
Proof.
  intros H1 H2. unfold ep_in. apply Forall2_app.
  - induction (ld_subs ld) as [|s l IH]; [constructor|]. cbn [map]. constructor; [|exact IH].
    apply (delayed_message T lo (ld_config ld) sh_env sh_env s (MsgPose (ep_msg t))); [split; assumption|].
    repeat split.
  - constructor; [|constructor]. replace (t + T + 1)%Z with (t + 1 + T)%Z by lia. apply delayed_cycle; split; lia.
Qed.

(** The same with the acceleration published. *)
Definition ep_par : params RScalar :=
  @mkParams RScalar true 9.81 "map" "odom" "base_link" None None (Some "robot"%string) true true true 0 0 30 false None
    false false 0 false 1 None None None None None false (Some (repeat 1 15)) false
    [] [@mkPosePar RScalar "/gps" (Some (flags [0; 1]%nat)) false false 5] [] [] None None.
Definition shown_at {E} (r : list (output RScalar E)) : list (Z * R) :=
  flat_map (fun o => match o with OutOdom m => [(o_stamp m, X (o_position m))] | _ => [] end) r.
Definition shown_turn {E} (r : list (output RScalar E)) : list R :=
  flat_map (fun o => match o with OutAccel a => [X (ac_angular a)] | _ => [] end) r.
Definition ep_first {E} (d : callback_data RScalar) (t : Z) (n : node RScalar E) (r : prepared RScalar) :=
  sensorCallback (list_pq RScalar) true (cd_topic d) t (cd_upd d) (cd_thresh d) (fun _ _ _ _ => r) n.
Definition ep_fact {E} (VT : vtbl RScalar E) (r : outcome (loaded RScalar E * node RScalar E)) (t : Z) (w : R) : Prop :=
  match r with
  | Ok (ld, n) => exists d, ld_subs ld = [SubPose d] /\ cd_upd d = flags [0; 1]%nat /\
      cd_differential d = false /\ cd_relative d = false /\ c_world (ld_config ld) = "odom"%string /\
      fb_control_timeout (n_filter n) = 0%Z /\
      forall v cv st dg, let r := mkPrep true (flags [0; 1]%nat) v cv st dg in
        let r2 := snd (node_step (list_pq RScalar) VT (ld_config ld) (fst (ep_first d t n r)) (EvCycle (t + 1) (t + 1) None)) in
        shown_at (snd (ep_first d t n r)) = [] /\ shown_turn (snd (ep_first d t n r)) = [] /\
        shown_at r2 = [(t, v 0%nat)] /\ shown_turn r2 = [s_mul (s := RScalar) (s_sub (s := RScalar) 1 0) (s_div (s := RScalar) 1 (s_sub (s := RScalar) (toSec (t + 1)) w))]
  | Undefined => False
  end.
Ltac ep_facts :=
  unfold ep_fact;
  match goal with |- match ?x with _ => _ end => let y := eval hnf in x in change x with y end;
  cbv beta iota; eexists; split; [cbn; reflexivity|]; split; [reflexivity|]; split; [reflexivity|]; split; [reflexivity|]; split; [reflexivity|];
  split; [lazy; reflexivity|];
  intros; split; [lazy; reflexivity|]; split; [lazy; reflexivity|]; split; lazy; reflexivity.
Lemma ep_early : ep_fact (ekf_vtbl ideal_eigen) (start ep_par 0 0 0 ex_new ex_ang86 vzero) 5 0.
Proof. ep_facts. Qed.
Lemma ep_late : ep_fact (ekf_vtbl ideal_eigen) (start ep_par 0 100 100 ex_new ex_ang86 vzero) 105 0.
Proof. ep_facts. Qed.
Lemma ep_early_ukf : ep_fact (ukf_vtbl ideal_eigen) (start ep_par 0 0 0 sh_ukf ex_ang86 vzero) 5 0.
Proof. ep_facts. Qed.

Lemma ep_runs {E} (VT : vtbl RScalar E) g e now later ang t w : ep_fact VT (start ep_par 0 now later (fb_init g e) ang vzero) t w ->
  exists ld n, start ep_par 0 now later (fb_init g e) ang vzero = Ok (ld, n) /\ fb_control_timeout (n_filter n) = 0%Z /\
  let r := snd (respond (list_pq RScalar) VT (ld_config ld) n (ep_in ld t)) in
  shown_at r = [(t, 1)] /\ shown_turn r = [1 / (IZR (t + 1) / 1000000000 - w)].
Proof.
  intros H. unfold ep_fact in H. pose proof (fun ld n => start_fresh (E := E) ep_par 0 now later g e ang vzero ld n) as F.
  destruct (start ep_par 0 now later (fb_init g e) ang vzero) as [[ld n]|] eqn:ES; [|contradiction].
  specialize (F ld n eq_refl). destruct F as ((_ & _ & _ & F & _) & _).
  destruct H as (d & H1 & H2 & H3 & H4 & H5 & H7 & H6). exists ld, n. split; [reflexivity|]. split; [exact H7|].
  cbv zeta. unfold ep_in. rewrite H1. cbn [map List.app].
  set (n1 := if sm_mem (n_last_msg n) (cd_topic d) then n
             else with_last_msg n (sm_set (n_last_msg n) (cd_topic d) t)).
  assert (F1 : sm_find (st_initial (n_streams n1)) (cd_topic d) = None).
  { unfold n1. destruct (sm_mem _ _); cbn; rewrite F; reflexivity. }
  pose proof (sh_prep (ld_config ld) (cd_topic d) false n1 sh_p H5 F1) as P. cbv zeta in P. rewrite <- H2 in P.
  assert (G : deliver (list_pq RScalar) VT (ld_config ld) n (Message sh_env (SubPose d) (MsgPose (ep_msg t))) =
      ep_first d t n (preparePose sh_env (ld_config ld) (sh_msg sh_p) (cd_topic d) (c_world (ld_config ld)) (c_base (ld_config ld)) false false false n1 (cd_upd d) vzero mzero)).
  { cbn [deliver receive]. unfold poseCallback, ep_first. rewrite H3, H4. reflexivity. }
  set (r := preparePose sh_env (ld_config ld) (sh_msg sh_p) _ _ _ _ _ _ n1 _ _ _) in *. clearbody r.
  destruct P as (P1 & P2 & P3 & P4). rewrite H2 in P2.
  rewrite (proj2 (PrepareSeq.respond_cons _ _ _ EmptyString _ _)). cbn [snd].
  rewrite (proj2 (PrepareSeq.respond_cons _ _ _ EmptyString _ _)). cbn [snd]. rewrite G. clear G. cbn [deliver].
  assert (Er : r = mkPrep true (flags [0; 1]%nat) (pr_val r) (pr_cov r) (pr_streams r) (pr_diag r)).
  { revert P1 P2. destruct r as [o u pv cv st dg]. cbn. intros -> ->. reflexivity. }
  specialize (H6 (pr_val r) (pr_cov r) (pr_streams r) (pr_diag r)). cbv zeta in H6. rewrite <- Er in H6. destruct H6 as (Q1 & Q2 & Q3 & Q4).
  rewrite P3 in Q3. clear Er P1 P2 P3 P4.
  set (l := snd (node_step _ _ _ _ _)) in *. set (l0 := snd (ep_first d t n r)) in *. clearbody l l0.
  rewrite app_nil_r. unfold shown_at, shown_turn. rewrite !flat_map_app. fold (shown_at l0) (shown_at l) (shown_turn l0) (shown_turn l).
  rewrite Q1, Q2, Q3, Q4. split; [reflexivity|]. cbn [List.app]. f_equal. rewrite sec_R. cbn [s_mul s_div s_sub RScalar]. rewrite !Rminus_0_r, Rmult_1_l. reflexivity.
Qed.

Lemma ep_case : exists ld n is is', start ep_par 0 0 0 ex_new ex_ang86 vzero = Ok (ld, n) /\
  fb_control_timeout (n_filter n) = 0%Z /\ Forall2 (delayed_input 100 1 (ld_config ld)) is is' /\
  shown_at (snd (respond (list_pq RScalar) (ekf_vtbl ideal_eigen) (ld_config ld) n is)) = [(5%Z, 1)].
Proof.
  destruct (ep_runs _ (fun _ => 0) tt 0 0 ex_ang86 5 0 ep_early) as (ld & n & H1 & H2 & H3 & _).
  exists ld, n, (ep_in ld 5), (ep_in ld 105). split; [exact H1|]. split; [exact H2|]. split; [|exact H3].
  apply (ep_delayed ld 5 100 1); lia.
Qed.
Lemma ep_case_ukf : exists ld n is is', start ep_par 0 0 0 sh_ukf ex_ang86 vzero = Ok (ld, n) /\
  fb_control_timeout (n_filter n) = 0%Z /\ Forall2 (delayed_input 100 1 (ld_config ld)) is is' /\
  shown_at (snd (respond (list_pq RScalar) (ukf_vtbl ideal_eigen) (ld_config ld) n is)) = [(5%Z, 1)].
Proof.
  destruct (ep_runs _ (fun _ => 0) (fb_ext sh_ukf) 0 0 ex_ang86 5 0 ep_early_ukf) as (ld & n & H1 & H2 & H3 & _).
  exists ld, n, (ep_in ld 5), (ep_in ld 105). split; [exact H1|]. split; [exact H2|]. split; [|exact H3].
  apply (ep_delayed ld 5 100 1); lia.
Qed.

(** The uninitialised time of the last differentiation is the same, whatever
    the epoch. *)
Lemma left_over_ex : exists ld n ld' n' is is',
  start ep_par 0 0 0 ex_new ex_ang86 vzero = Ok (ld, n) /\ start ep_par 0 100 100 ex_new ex_ang86 vzero = Ok (ld', n') /\
  Forall2 (delayed_input 100 1 (ld_config ld)) is is' /\
  shown_turn (snd (respond (list_pq RScalar) (ekf_vtbl ideal_eigen) (ld_config ld) n is)) = [1 / (6 / 1000000000)] /\
  shown_turn (snd (respond (list_pq RScalar) (ekf_vtbl ideal_eigen) (ld_config ld') n' is')) = [1 / (106 / 1000000000)].
Proof.
  destruct (ep_runs _ (fun _ => 0) tt 0 0 ex_ang86 5 0 ep_early) as (ld & n & H1 & _ & _ & H2).
  destruct (ep_runs _ (fun _ => 0) tt 100 100 ex_ang86 105 0 ep_late) as (ld' & n' & H1' & _ & _ & H2').
  assert (HS : ld_subs ld' = ld_subs ld /\ ld_config ld' = ld_config ld).
  { destruct (start_later _ _ _ _ _ _ _ _ _ _ 100 (fb_control_timeout (n_filter n)) H1 ltac:(lia)) as (l2 & n2 & A & B & C & _).
    apply start_eq in A. destruct A as (A & _). apply start_eq in H1'. destruct H1' as (A' & _).
    change (0 + 100)%Z with 100%Z in A. unfold ex_new in A'. rewrite A' in A. injection A as <-. split; assumption. }
  destruct HS as (HS & _). exists ld, n, ld', n', (ep_in ld 5), (ep_in ld' 105). split; [exact H1|]. split; [exact H1'|]. cbn zeta in H2, H2'. rewrite Rminus_0_r in H2, H2'. split; [|split; [exact H2|exact H2']].
  replace (ep_in ld' 105) with (ep_in ld 105) by (unfold ep_in; rewrite HS; reflexivity).
  apply (ep_delayed ld 5 100 1); lia.
Qed.

(** A message stamped zero is taken for one from before the last set pose. *)
Lemma ep_zero : ep_fact (ekf_vtbl ideal_eigen) (start ep_par 0 5 5 ex_new (delayed_ang 5 ex_ang86) vzero) 5 (0 + 5 / 1000000000).
Proof. ep_facts. Qed.
Definition refused_fact (r : outcome (loaded RScalar unit * node RScalar unit)) : Prop :=
  match r with
  | Ok (ld, n) => exists d, ld_subs ld = [SubPose d] /\
      shown_at (snd (node_step (list_pq RScalar) (ekf_vtbl ideal_eigen) (ld_config ld) (add_diag n (stale_call (cd_topic d) barrier_text)) (EvCycle 1 1 None))) = []
  | Undefined => False
  end.
Lemma ep_refused : refused_fact (start ep_par 0 0 0 ex_new ex_ang86 vzero).
Proof.
  unfold refused_fact. match goal with |- match ?x with _ => _ end => let y := eval hnf in x in change x with y end.
  cbv beta iota. eexists. split; [cbn; reflexivity|]. lazy. reflexivity.
Qed.
Lemma nothing_zero ld n : start ep_par 0 0 0 ex_new ex_ang86 vzero = Ok (ld, n) ->
  shown_at (snd (respond (list_pq RScalar) (ekf_vtbl ideal_eigen) (ld_config ld) n (ep_in ld 0))) = [].
Proof.
  intros H. pose proof ep_refused as G. unfold refused_fact in G. rewrite H in G. destruct G as (d & G & G2).
  destruct (start_fresh _ _ _ _ _ _ _ _ _ _ H) as ((_ & _ & _ & _ & _ & _ & _ & U8 & _) & _).
  unfold ep_in. rewrite G. cbn [map List.app].
  rewrite (proj2 (PrepareSeq.respond_cons _ _ _ EmptyString _ _)). cbn [snd].
  rewrite (proj2 (PrepareSeq.respond_cons _ _ _ EmptyString _ _)). cbn [snd].
  set (st := deliver _ _ _ n _).
  assert (E1 : st = (add_diag n (stale_call (cd_topic d) barrier_text), [])).
  { subst st. cbn [deliver receive]. unfold poseCallback, sensorCallback. cbn [ps_stamp ep_msg]. rewrite U8. reflexivity. }
  rewrite E1. cbn [fst snd deliver List.app]. change (0 + 1)%Z with 1%Z. rewrite app_nil_r. exact G2.
Qed.
Lemma zero_ex : exists ld n ld' n' is is',
  start ep_par 0 0 0 ex_new ex_ang86 vzero = Ok (ld, n) /\ start ep_par 0 5 5 ex_new (delayed_ang 5 ex_ang86) vzero = Ok (ld', n') /\
  fb_control_timeout (n_filter n) = 0%Z /\ Forall2 (delayed_input 5 0 (ld_config ld)) is is' /\
  shown_at (snd (respond (list_pq RScalar) (ekf_vtbl ideal_eigen) (ld_config ld) n is)) = [] /\
  shown_at (snd (respond (list_pq RScalar) (ekf_vtbl ideal_eigen) (ld_config ld') n' is')) = [(5%Z, 1)].
Proof.
  destruct (ep_runs _ (fun _ => 0) tt 0 0 ex_ang86 5 0 ep_early) as (ld & n & H1 & H2 & _).
  destruct (ep_runs _ (fun _ => 0) tt 5 5 (delayed_ang 5 ex_ang86) 5 (0 + 5 / 1000000000) ep_zero) as (ld' & n' & H1' & _ & H3 & _).
  assert (HS : ld_subs ld' = ld_subs ld).
  { destruct (start_later _ _ _ _ _ _ _ _ _ _ 5 (fb_control_timeout (n_filter n)) H1 ltac:(lia)) as (l2 & n2 & A & B & C & _).
    apply start_eq in A. destruct A as (A & _). apply start_eq in H1'. destruct H1' as (A' & _).
    change (0 + 5)%Z with 5%Z in A. rewrite A' in A. injection A as <-. assumption. }
  exists ld, n, ld', n', (ep_in ld 0), (ep_in ld' 5). split; [exact H1|]. split; [exact H1'|]. split; [exact H2|].
  split; [|split; [exact (nothing_zero ld n H1)|exact H3]].
  replace (ep_in ld' 5) with (ep_in ld 5) by (unfold ep_in; rewrite HS; reflexivity).
  apply (ep_delayed ld 0 5 0); lia.
Qed.
