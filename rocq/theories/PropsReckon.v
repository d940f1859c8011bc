(** * Properties of dead reckoning (C108) *)

From Coq Require Import Reals Lra ZArith List Bool String Arith Lia.
From Verif Require Import Scalar Mat FilterBase FilterOps Ekf StrMap RosFilter RosConfig RosPrepare
  SpecConfig SpecNode SpecLin SpecFilter SpecPrepare SpecStart SpecAccess SpecPublished SpecReckon
  EigenExist NodeMore ReckonFacts ReckonNode ReckonCase PublishedCase PropsFilter PropsConfig PropsStart.
Import ListNotations.
Local Open Scope R_scope.

(** Without measurements of the position, its uncertainty grows at least by the
    process noise of the time predicted over, whatever else is measured and
    whatever Eigen's inverse() returns. *)
Theorem C108_filter : forall eig (dyn : Prop) g before ops (S q : rmat),
  let vt := ekf_vtbl eig in let s := fb_run vt (fb_init g tt) before in
  run_ok dyn vt (fb_init g tt) (before ++ ops) -> Forall (reckoning q) ops ->
  position_only S -> position_only q -> loewner_le 15 S (fb_P s) -> loewner_le 15 q (fb_Q s) -> (dyn -> forall i j, q i j = 0) ->
  loewner_le 15 (fun i j => S i j + IZR (predicted vt s ops) / 1000000000 * q i j) (fb_P (fb_run vt s ops)).
Proof. exact reckoning_drifts. Qed.
Print Assumptions C108_filter.

(** For a sequence of measurements that is the time that passed. *)
Theorem C108_time : forall eig (dyn : Prop) g before ms (S q : rmat) i,
  let vt := ekf_vtbl eig in let s := fb_run vt (fb_init g tt) before in let s' := fb_run vt s (map OpProcess ms) in
  run_ok dyn vt (fb_init g tt) (before ++ map OpProcess ms) -> fb_initialized s = true -> Forall no_position ms ->
  position_only S -> position_only q -> loewner_le 15 S (fb_P s) -> loewner_le 15 q (fb_Q s) -> (dyn -> forall i j, q i j = 0) ->
  (i < 15)%nat ->
  S i i + IZR (fb_last_time s' - fb_last_time s) / 1000000000 * q i i <= fb_P s' i i.
Proof. exact measurements_drift. Qed.
Print Assumptions C108_time.

(** A node without an absolute position input never publishes a position more
    certain than the initial one. *)
Theorem C108_node : forall eig (pq : pqueue RScalar) (p : params RScalar) period now later g ang nothing ld n t0 is v (M : rmat),
  pq_ok pq -> start p period now later (fb_init g tt) ang nothing = Ok (ld, n) -> full_configs p -> covariance_params p -> dead_reckoning p ->
  p_P p = Some v -> taken_as (K := RScalar) (Some v) mzero M -> steady_clock t0 is ->
  along (fun n i => usable (ld_config ld) (ld_subs ld) (filter_after pq (ekf_vtbl eig) (ld_config ld)) n i /\
     match i with
     | Event (EvSetPose stamp prep now) => loewner_le 15 (position_part M) (fb_P (filter_after pq (ekf_vtbl eig) (ld_config ld) n (EvSetPose stamp prep now)))
     | _ => True
     end) pq (ekf_vtbl eig) (ld_config ld) n is ->
  forall m, In (OutOdom m) (snd (respond pq (ekf_vtbl eig) (ld_config ld) n is)) -> loewner_le 3 M (as_matrix 6 (o_pose_cov m)).
Proof. exact started_floor. Qed.
Print Assumptions C108_node.

(** Not so for the position variance itself: while the position is correlated
    with the velocity, a velocity measurement reduces it. *)
Theorem C108_correlated_refuted : forall eig, eigen_inverse_ok eig -> exists (s : ekf RScalar) m,
  psd 15 (fb_P s) /\ good_meas m /\ no_position m /\ fb_P (ekf_correct eig s m) 0%nat 0%nat < fb_P s 0%nat 0%nat.
Proof. exact tied_ex. Qed.
Print Assumptions C108_correlated_refuted.

(** Speeds at 1, 51 and 101 seconds: the variance of x exceeds 5. *)
Example C108_filter_case eig : let vt := ekf_vtbl eig in let s := fb_run vt ex_init rk_before in
  run_ok False vt ex_init (rk_before ++ map OpProcess rk_more) /\ fb_initialized s = true /\ Forall no_position rk_more /\
  position_only rk_floor /\ position_only rk_noise /\ loewner_le 15 rk_floor (fb_P s) /\ loewner_le 15 rk_noise (fb_Q s) /\
  5 < fb_P (fb_run vt s (map OpProcess rk_more)) 0%nat 0%nat.
Proof.
  intros vt s. destruct (rk_started eig) as (A & B & C). fold vt in A, B, C. fold s in A, B, C.
  split; [apply rk_ok|]. split; [exact A|]. split; [repeat constructor; apply speed_blind|]. split; [apply part_only|]. split; [apply part_only|].
  split; [apply rk_floor_below|]. split; [rewrite B; apply rk_noise_below|].
  assert (H : rk_floor 0%nat 0%nat + IZR (fb_last_time (fb_run vt s (map OpProcess rk_more)) - fb_last_time s) / 1000000000 * rk_noise 0%nat 0%nat
    <= fb_P (fb_run vt s (map OpProcess rk_more)) 0%nat 0%nat).
  { apply (measurements_drift eig False (fun _ => 0) rk_before rk_more rk_floor rk_noise 0).
    - apply rk_ok.
    - exact A.
    - repeat constructor; apply speed_blind.
    - apply part_only.
    - apply part_only.
    - apply rk_floor_below.
    - change (loewner_le 15 rk_noise (fb_Q s)). rewrite B. apply rk_noise_below.
    - intros [].
    - lia. }
  pose proof (rk_last eig) as L. fold vt in L. fold s in L. rewrite L, C in H. clear L.
  refine (Rlt_le_trans _ _ _ _ H).
  change (rk_floor 0%nat 0%nat) with (/ 1000000000). change (rk_noise 0%nat 0%nat) with (IZR 5 / IZR (10 ^ 2)).
  change (10 ^ 2)%Z with 100%Z. change (101000000000 - 1000000000)%Z with 100000000000%Z. lra.
Qed.

(** A twist input, an initial covariance of 2 on the diagonal, a published position. *)
Example C108_node_case : exists ld n is (M : rmat), started (tw_par (Some rk_P)) = Some (ld, n) /\ full_configs (tw_par (Some rk_P)) /\
  covariance_params (tw_par (Some rk_P)) /\ dead_reckoning (tw_par (Some rk_P)) /\ taken_as (K := RScalar) (Some rk_P) mzero M /\ M 0%nat 0%nat = 2 /\
  steady_clock 0 is /\
  along (fun n i => usable (ld_config ld) (ld_subs ld) (filter_after (list_pq RScalar) (ekf_vtbl ideal_eigen) (ld_config ld)) n i /\
     match i with
     | Event (EvSetPose stamp prep now) => loewner_le 15 (position_part M)
         (fb_P (filter_after (list_pq RScalar) (ekf_vtbl ideal_eigen) (ld_config ld) n (EvSetPose stamp prep now)))
     | _ => True
     end) (list_pq RScalar) (ekf_vtbl ideal_eigen) (ld_config ld) n is /\
  exists m, In (OutOdom m) (snd (respond (list_pq RScalar) (ekf_vtbl ideal_eigen) (ld_config ld) n is)) /\ o_twist_cov m 0%nat = 1 / 4.
Proof.
  destruct (tw_shown _ _ _ rk_tw) as (ld & n & d & m & H1 & H2 & _ & _ & H3 & H4 & _).
  exists ld, n, (tw_ins ld), (fun i j => if Nat.eqb i j then 2 else 0). destruct (tw_usable (Some rk_P) ld n d H2) as (U1 & U2 & U3).
  split; [exact H1|]. split; [exact U3|]. split.
  { split; [|intros w M H; discriminate H]. intros w M H HM. injection H as <-. pose proof (rk_taken M HM) as E. split.
    - eapply RLin.psd_ext; [|apply (RLin.psd_diag 15 (fun _ => 2)); intros; lra]. intros i j Hi Hj. symmetry. apply E; assumption.
    - intros i j Hi Hj Hne. rewrite E by assumption. apply Nat.eqb_neq in Hne. rewrite Hne. reflexivity. }
  split; [split; constructor|]. split.
  { split; [|intros H; exfalso; apply H; reflexivity]. intros _. split.
    - intros i Hi. do 15 (destruct i as [|i]; [reflexivity|]). lia.
    - intros i j _ _ Hne. apply Nat.eqb_neq in Hne. rewrite Hne. reflexivity. }
  split; [reflexivity|]. split; [exact U2|]. split; [|exists m; split; [exact H3|exact H4]].
  revert U1. unfold tw_ins. rewrite H2. cbn [map List.app along]. intros (A & _ & _). split; [split; [exact A|exact I]|]. split; [split; exact I|exact I].
Qed.
