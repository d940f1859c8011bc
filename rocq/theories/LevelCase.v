(** * Executions of a node in two_d_mode (cases of C94) *)

From Coq Require Import Reals ZArith List Bool Lia Lra String Arith.
From Verif Require Import Scalar Mat FilterBase FilterOps Ekf StrMap Tf Diagnostics RosFilter RosConfig ForceTwoD RosPrepare
  SpecConfig SpecNode SpecTf SpecLin SpecMotion SpecFilter SpecPrepare SpecStart SpecAccess SpecPublished SpecLevel
  RBridge RLin EigenExist NodeProofs NodeInv Trig TfReal TfRot PrepareProofs PrepareReal PreparePsd PrepareThm AccessFacts PublishedFacts NodeMore
  Motion FilterExtra LevelCov LevelPrepare PublishedCase PropsConfig PropsStart.
Import ListNotations.
Local Open Scope R_scope.

Definition lv_env (t : T4) : penv RScalar := @mkEnv RScalar true 9.81 [] (fun _ _ _ => Some t) (fun _ => 0%Z) (fun _ => 0).
(** Forward at 1 m/s and up at 5 m/s. *)
Definition lv_msg (C : nat -> R) : twist_msg RScalar := @mkTwist RScalar 5 "laser" (v3 1 0 5) v3zero C.
Definition lv_even (k : nat) : R := if Nat.eqb (k mod 7) 0 then 1 / 4 else 0.
(** The pitch rate is known to 1 rad/s, the rest exactly. *)
Definition lv_pitch (k : nat) : R := if Nat.eqb k 28 then 1 else 0.
Definition lv_par : params RScalar :=
  ex_par true false None None [] [] [ex_twist (Some (flags [6%nat]))] [] None None.
Definition lv_flags : list bool := flags [2; 3; 4; 6; 8; 9; 10; 14]%nat.
(** A turn about the vertical: cosine 3/5, sine 4/5. *)
Definition lv_turn : T4 := @mkTrans RScalar (@mkM3 RScalar (v3 (3 / 5) (- (4 / 5)) 0) (v3 (4 / 5) (3 / 5) 0) (v3 0 0 1)) v3zero.

Lemma lv_turn_levelled : levelled lv_turn.
Proof.
  split.
  - unfold rigid, rotation, inner, cross3, lv_turn, v3, X, Y, Z3. cbn. repeat split; lra.
  - unfold turn, lv_turn, inner, v3, X, Y, Z3. cbn. f_equal; lra.
Qed.
Lemma no_motion_levelled : levelled (@no_motion RScalar).
Proof. split; [exact no_motion_rigid|]. apply no_motion_turn. Qed.

Lemma lv_even_matrix i j : (i < 6)%nat -> (j < 6)%nat -> as_matrix 6 lv_even i j = if Nat.eqb i j then 1 / 4 else 0.
Proof.
  intros Hi Hj. unfold as_matrix, lv_even.
  do 6 (destruct i as [|i]; [do 6 (destruct j as [|j]; [reflexivity|]); exfalso; lia|]). exfalso; lia.
Qed.
Lemma lv_even_level : level_cov 6 (as_matrix 6 lv_even).
Proof.
  eapply level_ext; [lia|intros i j Hi Hj; symmetry; apply lv_even_matrix; assumption|].
  split; [apply (psd_diag 6 (fun _ => 1 / 4)); intros; lra|]. split; [|split; [|split]].
  - intros i j _ _ _ Hne. apply Nat.eqb_neq in Hne. rewrite Hne. reflexivity.
  - intros _. reflexivity.
  - cbn. split; intros; lra.
  - intros v Hq i Hi _ _. rewrite (quad_diag 6 (fun _ => 1 / 4)) in Hq. cbn [rsum] in Hq.
    pose proof (Rle_0_sqr (v 0%nat)). pose proof (Rle_0_sqr (v 1%nat)). pose proof (Rle_0_sqr (v 2%nat)).
    pose proof (Rle_0_sqr (v 3%nat)). pose proof (Rle_0_sqr (v 4%nat)). pose proof (Rle_0_sqr (v 5%nat)). unfold Rsqr in *.
    apply Rsqr_0_uniq. unfold Rsqr. do 6 (destruct i as [|i]; [lra|]). exfalso; lia.
Qed.

Lemma lv_prep (c : config RScalar) topic (n : node RScalar unit) t C : levelled t ->
  let r := prepareTwist (lv_env t) c (lv_msg C) topic "base_link" n (flags [6%nat]) vzero mzero in
  pr_ok r = true /\
  (t = no_motion -> pr_upd r = lv_flags /\ pr_val r 6%nat = 1) /\
  (C = lv_pitch -> t = lv_turn -> pr_cov r 9%nat 10%nat = - (12 / 25) /\ pr_cov r 10%nat 9%nat = - (12 / 25) /\
     pr_cov r 9%nat 9%nat = 1 / 1000000 /\ pr_cov r 10%nat 10%nat = 1 / 1000000).
Proof.
  intros [HR HU] r.
  destruct (twist_ready (E := unit) (lv_env t) c (lv_msg C) topic "base_link"%string n (flags [6%nat]) vzero mzero t eq_refl HR) as (A & _ & B & D).
  pose proof (twist_forced (E := unit) (lv_env t) c eq_refl (lv_msg C) topic "base_link"%string n (flags [6%nat]) vzero mzero) as F.
  fold r in A, B, D, F. specialize (F A).
  split; [exact A|]. split.
  - intros ->. split.
    + assert (HL : List.length (pr_upd r) = 15%nat) by (unfold r; rewrite twist_len; reflexivity).
      apply (nth_ext _ _ false false); [exact HL|].
      intros i Hi. rewrite HL in Hi. destruct (vertical i) eqn:V.
      * rewrite (proj2 (proj2 (F i V)) HL). clear - V Hi.
        do 15 (destruct i as [|i]; [try discriminate V; reflexivity|]). exfalso; lia.
      * destruct (B i) as [_ ->]; [apply kept_vertical; exact V|]. rewrite no_motion_flags. clear - V Hi.
        do 15 (destruct i as [|i]; [try discriminate V; reflexivity|]). exfalso; lia.
    + destruct (B 6%nat) as [-> _]; [apply kept_vertical; reflexivity|].
      rewrite no_motion_turn. unfold set_vec3, vset, plus3, cross3, v3, X, Y, Z3. cbn. toR. lra.
  - intros -> ->. destruct (F 9%nat eq_refl) as (_ & -> & _). destruct (F 10%nat eq_refl) as (_ & -> & _).
    rewrite !D by (right; lia). unfold set_block. cbn [Nat.leb Nat.ltb andb Nat.add Nat.sub].
    unfold rotateCov, mmul, sumn, rot6, as_matrix, mT, lv_turn, lv_pitch. cbn. toR. repeat split; try lra.
Qed.

(** What is published and what is queued, with the preparation's result [r]. *)
Definition shown_forward (r : list (output RScalar unit)) : list R :=
  flat_map (fun o => match o with OutOdom m => [X (o_linear m)] | _ => [] end) r.
Definition lv_first (d : callback_data RScalar) (n : node RScalar unit) (r : prepared RScalar) :=
  sensorCallback (list_pq RScalar) true (cd_topic d) 5 (cd_upd d) (cd_thresh d) (fun _ _ _ _ => r) n.
Definition lv_fact : Prop :=
  match started lv_par with
  | Some (ld, n) => exists d, ld_subs ld = [SubTwist d] /\ cd_upd d = flags [6%nat] /\ c_base (ld_config ld) = "base_link"%string /\
      ld_two_d ld = true /\
      forall u v cv st dg, let r := mkPrep true u v cv st dg in
        map m_cov (queued (snd (lv_first d n r))) = [cv] /\
        (u = lv_flags ->
         shown_forward (snd (node_step (list_pq RScalar) (ekf_vtbl ideal_eigen) (ld_config ld) (fst (lv_first d n r)) (EvCycle 6 6 None))) = [v 6%nat])
  | None => False
  end.
Lemma lv_holds : lv_fact.
Proof.
  unfold lv_fact.
  match goal with |- match ?x with _ => _ end => let y := eval hnf in x in change x with y end.
  cbv beta iota; eexists; split; [cbn; reflexivity|]; split; [reflexivity|]; split; [reflexivity|]; split; [reflexivity|].
  intros; split; [lazy; reflexivity|]. intros ->. lazy; reflexivity.
Qed.

Definition lv_in (t : T4) (C : nat -> R) (ld : loaded RScalar unit) : list (input (K := RScalar) (E := unit)) :=
  map (fun s => Message (lv_env t) s (MsgTwist (lv_msg C))) (ld_subs ld).
Definition lv_ins (ld : loaded RScalar unit) : list (input (K := RScalar) (E := unit)) := lv_in no_motion lv_even ld ++ [Event (EvCycle 6 6 None)].

Lemma lv_runs : exists ld n, started lv_par = Some (ld, n) /\ ld_two_d ld = true /\
  (exists d, ld_subs ld = [SubTwist d] /\ cd_upd d = flags [6%nat]) /\
  (exists m, In (OutOdom m) (snd (respond (list_pq RScalar) (ekf_vtbl ideal_eigen) (ld_config ld) n (lv_ins ld))) /\ X (o_linear m) = 1) /\
  (exists m, In m (queued (snd (respond (list_pq RScalar) (ekf_vtbl ideal_eigen) (ld_config ld) n (lv_in lv_turn lv_pitch ld)))) /\
     m_cov m 9%nat 10%nat = - (12 / 25) /\ m_cov m 10%nat 9%nat = - (12 / 25) /\ m_cov m 9%nat 9%nat = 1 / 1000000 /\ m_cov m 10%nat 10%nat = 1 / 1000000).
Proof.
  pose proof lv_holds as H. unfold lv_fact in H. destruct (started lv_par) as [[ld n]|]; [|contradiction].
  destruct H as (d & H1 & H2 & H3 & H4 & H5).
  set (n1 := if sm_mem (n_last_msg n) (cd_topic d) then n
             else with_last_msg n (sm_set (n_last_msg n) (cd_topic d) 5%Z)).
  exists ld, n. split; [reflexivity|]. split; [exact H4|]. split; [exists d; split; assumption|].
  assert (G : forall t C, deliver (list_pq RScalar) (ekf_vtbl ideal_eigen) (ld_config ld) n (Message (lv_env t) (SubTwist d) (MsgTwist (lv_msg C))) =
      lv_first d n (prepareTwist (lv_env t) (ld_config ld) (lv_msg C) (cd_topic d) "base_link" n1 (flags [6%nat]) vzero mzero)).
  { intros t C. cbn [deliver receive]. rewrite H3. unfold lv_first. rewrite <- H2. reflexivity. }
  assert (P : forall r : prepared RScalar, pr_ok r = true -> r = mkPrep true (pr_upd r) (pr_val r) (pr_cov r) (pr_streams r) (pr_diag r)).
  { intros [o u v cv st dg]. cbn. intros ->. reflexivity. }
  unfold lv_ins, lv_in. rewrite H1. cbn [map List.app]. split.
  - destruct (lv_prep (ld_config ld) (cd_topic d) n1 no_motion lv_even no_motion_levelled) as (P1 & P2 & _). specialize (P2 eq_refl).
    rewrite (proj2 (PrepareSeq.respond_cons _ _ _ EmptyString _ _)). cbn [snd].
    rewrite (proj2 (PrepareSeq.respond_cons _ _ _ EmptyString _ _)). cbn [snd].
    rewrite G. clear G.
    set (r := prepareTwist (lv_env no_motion) (ld_config ld) (lv_msg lv_even) (cd_topic d) "base_link" n1 (flags [6%nat]) vzero mzero) in *.
    destruct (H5 (pr_upd r) (pr_val r) (pr_cov r) (pr_streams r) (pr_diag r)) as [_ H6]. rewrite <- (P r P1) in H6.
    destruct P2 as [P2 P3]. specialize (H6 P2). rewrite P3 in H6. cbn [deliver].
    set (l := snd (node_step _ _ _ _ _)) in *. clearbody l.
    assert (exists m, In (OutOdom m) l /\ X (o_linear m) = 1) as (m & Hm & Hx).
    { clear - H6. induction l as [|a l IH]; [discriminate H6|].
      destruct a as [m| | | | | | | |]; try (destruct (IH H6) as (m' & Hm & E); exists m'; split; [right; exact Hm|exact E]).
      exists m. split; [left; reflexivity|]. apply (f_equal (hd 0)) in H6. exact H6. }
    exists m. split; [|exact Hx]. apply in_or_app. right. rewrite app_nil_r. exact Hm.
  - destruct (lv_prep (ld_config ld) (cd_topic d) n1 lv_turn lv_pitch lv_turn_levelled) as (P1 & _ & P2). specialize (P2 eq_refl eq_refl).
    rewrite (proj2 (PrepareSeq.respond_cons _ _ _ EmptyString _ _)). cbn [snd].
    rewrite G. clear G.
    set (r := prepareTwist (lv_env lv_turn) (ld_config ld) (lv_msg lv_pitch) (cd_topic d) "base_link" n1 (flags [6%nat]) vzero mzero) in *.
    destruct (H5 (pr_upd r) (pr_val r) (pr_cov r) (pr_streams r) (pr_diag r)) as [H6 _]. rewrite <- (P r P1) in H6.
    rewrite app_nil_r.
    destruct (queued (snd (lv_first d n r))) as [|m l]; [discriminate H6|]. injection H6 as H6 _.
    exists m. split; [left; reflexivity|]. rewrite H6. exact P2.
Qed.

Lemma lv_usable ld (n : node RScalar unit) d : ld_two_d ld = true -> ld_subs ld = [SubTwist d] ->
  along (usable_level (ld_two_d ld) (ld_config ld) (ld_subs ld) (filter_after (list_pq RScalar) (ekf_vtbl ideal_eigen) (ld_config ld)))
    (list_pq RScalar) (ekf_vtbl ideal_eigen) (ld_config ld) n (lv_ins ld) /\ steady_clock 0 (lv_ins ld).
Proof.
  intros H2 H. split.
  - unfold lv_ins, lv_in. rewrite H. cbn [map List.app along]. split; [|split; exact I].
    split; [left; reflexivity|]. split; [symmetry; exact H2|]. split; [|exact lv_even_level].
    intros x y z t Ht. injection Ht as <-. exact no_motion_levelled.
  - unfold lv_ins, lv_in. rewrite H. unfold steady_clock. cbn. repeat constructor; lia.
Qed.
Lemma lv_params : full_configs lv_par /\ covariance_params lv_par /\ planar_params lv_par.
Proof.
  split; [repeat constructor|]. split; [split; intros v M H; discriminate H|]. split; [intros v M H; discriminate H|].
  intros H; discriminate H.
Qed.

(** Roll and pitch rates of different variances, seen by a turned sensor. *)
Lemma unequal_ex : exists (p : params RScalar) ld n (e : penv RScalar) s (t : twist_msg RScalar) m,
  start p 0 0 0 (@fb_init RScalar unit (fun _ => 0) tt) ex_ang86 vzero = Ok (ld, n) /\ p_two_d p = true /\ full_configs p /\
  In s (ld_subs ld) /\ e_two_d e = true /\ level_buffer (e_buffer e) /\
  psd 6 (as_matrix 6 (tw_cov t)) /\ diagonal 6 (as_matrix 6 (tw_cov t)) /\
  In m (queued (snd (respond (list_pq RScalar) (ekf_vtbl ideal_eigen) (ld_config ld) n [Message e s (MsgTwist t)]))) /\ ~ psd 15 (m_cov m).
Proof.
  destruct lv_runs as (ld & n & H1 & H2 & (d & H3 & _) & _ & m & Hm & A & B & C & D).
  exists lv_par, ld, n, (lv_env lv_turn), (SubTwist d), (lv_msg lv_pitch), m.
  assert (E : forall i j, (i < 6)%nat -> (j < 6)%nat -> as_matrix 6 lv_pitch i j = if Nat.eqb i j then (if Nat.eqb i 4 then 1 else 0) else 0).
  { intros i j Hi Hj. unfold as_matrix, lv_pitch.
    do 6 (destruct i as [|i]; [do 6 (destruct j as [|j]; [reflexivity|]); exfalso; lia|]). exfalso; lia. }
  split.
  { revert H1. unfold started, ex_new. destruct (start _ _ _ _ _ _ _) as [r|]; [|discriminate]. intros Q. injection Q as ->. reflexivity. }
  split; [reflexivity|]. split; [apply lv_params|]. split; [rewrite H3; left; reflexivity|]. split; [reflexivity|].
  split; [intros x y z t Ht; injection Ht as <-; exact lv_turn_levelled|].
  split; [eapply psd_ext; [|apply (psd_diag 6 (fun i => if Nat.eqb i 4 then 1 else 0)); intros i _; destruct (Nat.eqb i 4); lra]|].
  { intros i j Hi Hj. symmetry. apply E; assumption. }
  split.
  { intros i j Hi Hj Hne. cbn [tw_cov lv_msg]. rewrite E by assumption. apply Nat.eqb_neq in Hne. rewrite Hne. reflexivity. }
  split.
  { unfold lv_in in Hm. rewrite H3 in Hm. exact Hm. }
  intros [_ H]. specialize (H (fun i => if Nat.eqb i 9 then 1 else if Nat.eqb i 10 then 1 else 0)).
  unfold quad in H. cbn in H. rewrite A, B, C, D in H. lra.
Qed.

(** A command of the vertical velocity. *)
Definition lv_ops : list (@fb_op RScalar) :=
  [@OpSetControlParams RScalar [false; false; true; false; false; false] 100 (repeat 1 6) (repeat 1 6) (repeat 1 6) (repeat 1 6);
   @OpSetControl RScalar (fun i => if Nat.eqb i 2 then 1 else 0) 0].
Lemma vertical_control_ex : exists ops,
  forall eig g, let s := fb_run (ekf_vtbl eig) (@fb_init RScalar unit g tt) ops in
    planar_state (fb_state s) /\ decoupled 15 vertical (fb_P s) /\ fb_state (ekf_predict s 0 1) 14%nat <> 0.
Proof.
  exists lv_ops. intros eig g s. split; [intros i _; reflexivity|]. split.
  - intros i j _ _ Hv. cbn. unfold mscale, meye. destruct (Nat.eqb_spec i j) as [->|]; [contradiction Hv; reflexivity|].
    toR. change (sc RScalar) with R in *. ring.
  - destruct (ekf_reachable_motion eig g lv_ops 0 1) as (_ & _ & _ & _ & _ & _ & M). specialize (M 2%nat ltac:(lia)). fold s in M.
    cbn [Nat.add] in M. rewrite M. clear M. unfold controlled_state. cbn [Nat.leb andb Nat.sub].
    change (nth 2 (fb_control_upd s) false) with true. cbn iota.
    pose proof (predict_acc_selected s 0 1 2 eq_refl ltac:(lia) eq_refl) as Q.
    set (a := fb_control_acc (ekf_predict s 0 1) 2%nat) in *. clearbody a.
    cbn in Q. unfold commanded_accel in Q. cbv zeta in Q. destruct Q as [_ Q].
    destruct (Rle_dec (Rabs (1 - 0)) (Rabs 1 + / 100)) as [|N].
    + rewrite Q.
      * rewrite Rmax_left by lra. rewrite Rmin_left by lra. lra.
      * rewrite Rabs_R0, Rabs_R1. lra.
    + exfalso. apply N. rewrite Rminus_0_r, Rabs_R1. lra.
Qed.
