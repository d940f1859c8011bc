(** * Preparation of messages whose positions have moved (C95) *)

From Coq Require Import Reals ZArith List Bool Lia Lra String Arith FunctionalExtensionality.
From Verif Require Import Scalar Mat FilterBase FilterOps Ekf StrMap Tf ForceTwoD RosFilter RosConfig RosPrepare SpecLin SpecPrepare SpecShift
  RLin RBridge Motion NodeProofs PrepareProofs ShiftFilter.
Import ListNotations.
Local Open Scope R_scope.

(** Recorded poses of every stream moved with its topic. *)
Definition moved_map (D : string -> vec3 RScalar) (a a' : smap (trans RScalar)) : Prop :=
  forall t, sm_find a' t = option_map (moved_place (D t)) (sm_find a t).
Definition moved_streams (D : string -> vec3 RScalar) (s s' : streams RScalar) : Prop :=
  moved_map D (st_initial s) (st_initial s') /\ moved_map D (st_previous s) (st_previous s') /\ st_prev_cov s' = st_prev_cov s.

Lemma moved_map_set D a a' t p : moved_map D a a' -> moved_map D (sm_set a t p) (sm_set a' t (moved_place (D t) p)).
Proof.
  intros H u. destruct (string_dec u t) as [->|N].
  - rewrite !sm_find_set. reflexivity.
  - rewrite !sm_find_set_other by exact N. apply H.
Qed.
Lemma no_streams_moved D : moved_streams D no_streams no_streams.
Proof. split; [|split]; try reflexivity; intros t; reflexivity. Qed.

(** ** Flags *)
Lemma finish_flag (b : bool) (v : vec RScalar) C u k : (k < 3)%nat -> flag (snd (finish b v C u)) k = true ->
  flag u k = true \/ (b = true /\ k = 2%nat).
Proof.
  intros Hk. unfold finish. destruct b; [|auto]. unfold forceTwoD. cbn [snd].
  destruct k as [|[|[|k]]]; [| |intros _; right; auto|lia]; intros H; left; revert H;
    unfold flag, two_d_members; cbn [fold_left]; rewrite !set_flag_other by lia; auto.
Qed.
Lemma finish_val (b : bool) (v : vec RScalar) C u k : fst (fst (finish b v C u)) k = 
  if (b && existsb (Nat.eqb k) two_d_members)%bool then 0 else v k.
Proof.
  unfold finish. destruct b; [|reflexivity]. unfold forceTwoD, two_d_members. cbn [fst fold_left existsb andb]. unfold vset.
  repeat match goal with |- context [Nat.eqb k ?b] => destruct (Nat.eqb k b); cbn [orb]; try reflexivity end.
Qed.
Lemma mask_off (r : mat3 RScalar) upd k : no_position upd -> (k < 3)%nat -> significant (m3mul r (mask3 upd 0)) k = false.
Proof.
  intros H Hk. unfold significant, mask3. cbn [Nat.add]. rewrite !H by lia. unfold of_flag, m3mul, v3length. cbn [m3r0 m3r1 m3r2 m3col v3x v3y v3z].
  apply Rleb_false.
  assert (G : forall x : vec3 RScalar, v3dot x (@mkV3 RScalar (@s_ofZ RScalar 0) (@s_ofZ RScalar 0) (@s_ofZ RScalar 0)) = 0)
    by (intros x; unfold v3dot; cbn [v3x v3y v3z]; toR; ring).
  rewrite !G.
  assert (S0 : s_sqrt (v3dot (@mkV3 RScalar 0 0 0) (@mkV3 RScalar 0 0 0)) = 0).
  { unfold v3dot. cbn [v3x v3y v3z]. toR. replace (0 * 0 + 0 * 0 + 0 * 0) with 0 by ring. apply sqrt_0. }
  destruct k as [|[|k]]; cbn [m3r0 m3r1 m3r2]; (eapply Rle_lt_trans; [apply Req_le; exact S0|]); unfold lit; toR; change (10 ^ 6)%Z with 1000000%Z; lra.
Qed.
Lemma unmask_off (m : mat3 RScalar) upd k : (k < 3)%nat -> (forall i, (i < 3)%nat -> significant m i = false) -> flag (unmask m 0 upd) k = false.
Proof.
  intros Hk H. unfold unmask, flag. cbn [Nat.add]. rewrite !H by lia.
  assert (S1 : forall l i, nth i (set_flag l i false) false = false).
  { induction l as [|a l IH]; intros [|i]; cbn; auto. }
  destruct k as [|[|[|k]]]; try lia.
  - rewrite !set_flag_other by lia. apply S1.
  - rewrite set_flag_other by lia. apply S1.
  - apply S1.
Qed.
Lemma unmask_far (m : mat3 RScalar) o upd k : (k < o)%nat -> flag (unmask m o upd) k = flag upd k.
Proof. intros H. unfold unmask, flag. rewrite !set_flag_other by lia. reflexivity. Qed.
Lemma differential_off upd k : (k < 6)%nat -> flag (differential_flags upd) k = false.
Proof. intros H. unfold differential_flags, flag. do 6 (destruct k as [|k]; [reflexivity|]). lia. Qed.

(** ** Twist and acceleration *)
Lemma state_angular_fields {E} (n n' : node RScalar E) : state_angular n' = state_angular n ->
  fb_state (n_filter n') 9%nat = fb_state (n_filter n) 9%nat /\ fb_state (n_filter n') 10%nat = fb_state (n_filter n) 10%nat /\
  fb_state (n_filter n') 11%nat = fb_state (n_filter n) 11%nat.
Proof. unfold state_angular. intros H. injection H as -> -> ->. auto. Qed.

Section Prep.
Variables (e : penv RScalar) (c : config RScalar).

Lemma twist_prep {E} msg topic target (n n' : node RScalar E) upd v0 c0 : state_angular n' = state_angular n ->
  let r := prepareTwist e c msg topic target n upd v0 c0 in
  let r' := prepareTwist e c msg topic target n' upd v0 c0 in
  pr_ok r' = pr_ok r /\ pr_diag r' = pr_diag r /\ pr_upd r' = pr_upd r /\ pr_cov r' = pr_cov r /\ pr_val r' = pr_val r /\
  pr_streams r = n_streams n /\ pr_streams r' = n_streams n' /\
  (forall k, (k < 3)%nat -> flag upd k = false -> flag (pr_upd r) k = true -> e_two_d e = true /\ k = 2%nat).
Proof.
  intros HS r r'. subst r r'. unfold prepareTwist. rewrite HS.
  destruct (lookupTransformSafe _ _ _ _) as [t|]; cbn [pr_ok pr_diag pr_upd pr_cov pr_val pr_streams];
    [|repeat split; congruence].
  cbv zeta. set (u := unmask _ StateMemberVroll _). pose proof (fun v C k => finish_flag (e_two_d e) v C u k) as HF.
  match goal with |- context [finish (e_two_d e) ?v ?C u] => specialize (HF v C); destruct (finish (e_two_d e) v C u) as [[v1 C1] u1] end.
  cbn [snd pr_ok pr_diag pr_upd pr_cov pr_val pr_streams] in *. repeat split; try reflexivity;
    (destruct (HF k H H1) as [G|G]; [|tauto]); subst u; rewrite !unmask_far in G by lia; congruence.
Qed.
Lemma acc_prep {E} msg topic target rel (n n' : node RScalar E) upd v0 c0 : state_angular n' = state_angular n -> n_ang n' = n_ang n ->
  (forall k, (3 <= k < 6)%nat -> fb_state (n_filter n') k = fb_state (n_filter n) k) ->
  let r := prepareAcceleration e c msg topic target rel n upd v0 c0 in
  let r' := prepareAcceleration e c msg topic target rel n' upd v0 c0 in
  pr_ok r' = pr_ok r /\ pr_diag r' = pr_diag r /\ pr_upd r' = pr_upd r /\ pr_cov r' = pr_cov r /\ pr_val r' = pr_val r /\
  pr_streams r = n_streams n /\ pr_streams r' = n_streams n' /\
  (forall k, (k < 3)%nat -> flag upd k = false -> flag (pr_upd r) k = true -> e_two_d e = true /\ k = 2%nat).
Proof.
  intros HS HA HO r r'. subst r r'. unfold prepareAcceleration. rewrite HS, HA.
  assert (HG : forall R, gravity_vector e n' msg rel R = gravity_vector e n msg rel R).
  { intros R0. unfold gravity_vector. rewrite !HO by lia. reflexivity. }
  destruct (lookupTransformSafe _ _ _ _) as [t|]; cbn [pr_ok pr_diag pr_upd pr_cov pr_val pr_streams];
    [|repeat split; congruence].
  cbv zeta. rewrite HG. set (u := unmask _ StateMemberAx _). pose proof (fun v C k => finish_flag (e_two_d e) v C u k) as HF.
  match goal with |- context [finish (e_two_d e) ?v ?C u] => specialize (HF v C); destruct (finish (e_two_d e) v C u) as [[v1 C1] u1] end.
  cbn [snd pr_ok pr_diag pr_upd pr_cov pr_val pr_streams] in *. repeat split; try reflexivity;
    (destruct (HF k H H1) as [G|G]; [|tauto]); subst u; rewrite !unmask_far in G by lia; congruence.
Qed.

(** ** Pose *)
Lemma v3_eq (a b : vec3 RScalar) : v3x a = v3x b -> v3y a = v3y b -> v3z a = v3z b -> a = b.
Proof. destruct a, b. cbn. intros -> -> ->. reflexivity. Qed.
Lemma inverse_moved v a b : t_inverseTimes (moved_place v a) (moved_place v b) = t_inverseTimes a b.
Proof.
  unfold t_inverseTimes, moved_place. cbn [t_basis t_origin]. f_equal. f_equal.
  apply v3_eq; unfold v3sub, v3add; cbn [v3x v3y v3z]; toR; ring.
Qed.
Lemma mult_left_moved v a b : t_mult (moved_place v a) b = moved_place v (t_mult a b).
Proof.
  unfold t_mult, moved_place, t_apply. cbn [t_basis t_origin]. f_equal.
  apply v3_eq; unfold v3add; cbn [v3x v3y v3z]; toR; ring.
Qed.
Lemma mult_right_moved v a b : t_mult a (moved_place v b) = moved_place (m3mv (t_basis a) v) (t_mult a b).
Proof.
  unfold t_mult, moved_place, t_apply. cbn [t_basis t_origin]. f_equal.
  apply v3_eq; unfold v3add, m3mv, v3dot; cbn [v3x v3y v3z]; toR; ring.
Qed.
Lemma moved_zero a : moved_place v3zero a = a.
Proof. destruct a as [b [x y z]]. unfold moved_place. cbn. f_equal. apply v3_eq; unfold v3add, v3zero; cbn [v3x v3y v3z]; toR; change (IZR 0) with 0; ring. Qed.
Lemma moved_pose_zero p : moved_pose v3zero p = p.
Proof. destruct p as [s f [x y z] q C]. unfold moved_pose. cbn. f_equal. apply v3_eq; unfold v3add, v3zero; cbn [v3x v3y v3z]; toR; change (IZR 0) with 0; ring. Qed.

Definition pose_lookup (msg : pose_msg RScalar) (target : string) (diff imu : bool) : option (trans RScalar) :=
  let '(ft, pf) := pose_frames c (ps_frame msg) target diff imu in
  lookupTransformSafe e ft pf (pose_lookup_time e (ps_stamp msg)).

Lemma pose_prep {E} msg v D topic target source diff rel imu (n n' : node RScalar E) upd v0 c0 :
  state_angular n' = state_angular n -> n_last_msg n' = n_last_msg n -> moved_streams D (n_streams n) (n_streams n') ->
  (v = D topic \/ (diff = false /\ rel = false)) ->
  let r := preparePose e c msg topic target source diff rel imu n upd v0 c0 in
  let r' := preparePose e c (moved_pose v msg) topic target source diff rel imu n' upd v0 c0 in
  pr_ok r' = pr_ok r /\ pr_diag r' = pr_diag r /\ pr_upd r' = pr_upd r /\ pr_cov r' = pr_cov r /\
  moved_streams D (pr_streams r) (pr_streams r') /\
  (diff = true -> pr_ok r = true -> pr_val r' = pr_val r /\ forall k, (k < 3)%nat -> flag (pr_upd r) k = true -> e_two_d e = true /\ k = 2%nat) /\
  (diff = false -> forall t, pose_lookup msg target diff imu = Some t ->
     pr_ok r = true /\
     exists w, (if rel then w = v3zero else w = m3mv (if imu then m3eye else t_basis t) v) /\
     (forall k, pr_val r' k = pr_val r k + if (e_two_d e && Nat.eqb k 2)%bool then 0 else along_axis w k) /\
     (no_position upd -> forall k, (k < 3)%nat -> flag (pr_upd r) k = true -> e_two_d e = true /\ k = 2%nat)) /\
  (diff = false -> pose_lookup msg target diff imu = None -> pr_ok r = false).
Proof.
  intros HS HL HM HV r r'. subst r r'. unfold preparePose, pose_lookup. cbn [ps_frame ps_stamp ps_orientation ps_position ps_cov moved_pose].
  destruct (pose_frames c (ps_frame msg) target diff imu) as [ft pf]. cbv zeta.
  destruct (lookupTransformSafe e ft pf (pose_lookup_time e (ps_stamp msg))) as [t|];
    [|cbn [pr_ok pr_diag pr_upd pr_cov pr_val pr_streams]; repeat split; try congruence; apply HM].
  set (src := if String.eqb source (c_base c) then None else _).
  set (q := pose_quat (ps_orientation msg)).
  set (pose0 := t_of q (ps_position msg)).
  change (t_of q (v3add (ps_position msg) v)) with (moved_place v pose0).
  set (pose1 := if imu then mkTrans (imu_basis (t_basis t) (t_basis pose0)) (t_origin pose0) else pose0).
  assert (E1 : (if imu then mkTrans (imu_basis (t_basis t) (t_basis (moved_place v pose0))) (t_origin (moved_place v pose0)) else moved_place v pose0) = moved_place v pose1)
    by (subst pose1; destruct imu; reflexivity).
  rewrite E1. clear E1. clearbody pose1. clear pose0 q.
  set (yaw_rot := m3_setRPY _ _ _). set (mask_rot := if imu then yaw_rot else t_basis t).
  set (upd1 := unmask (m3mul mask_rot (mask3 upd 3)) 3 (unmask (m3mul mask_rot (mask3 upd 0)) 0 upd)).
  set (calls := (orientation_calls _ _ _ ++ _)%list). set (cov0 := copyCovariance _ _).
  set (covariance := match src with Some s => _ | None => _ end).
  set (rot6d := rot6 _). set (covariance_rotated := rotateCov 6 rot6d covariance). clearbody calls rot6d covariance_rotated covariance.
  set (t1 := if imu then t_identity else t).
  assert (HU : no_position upd -> forall k, (k < 3)%nat -> flag upd1 k = false).
  { intros HN k Hk. subst upd1. rewrite unmask_far by lia. apply unmask_off; [exact Hk|]. intros i Hi. apply mask_off; assumption. }
  clearbody upd1 mask_rot yaw_rot.
  destruct HM as (M1 & M2 & M3).
  destruct diff.
  - assert (EV : v = D topic) by (destruct HV as [HV|(HV & _)]; [exact HV|discriminate]). subst v.
    rewrite (M2 topic), M3, HL.
    assert (HS2 : moved_streams D (mkStreams (st_initial (n_streams n)) (sm_set (st_previous (n_streams n)) topic pose1) (sm_set (st_prev_cov (n_streams n)) topic covariance))
       (mkStreams (st_initial (n_streams n')) (sm_set (st_previous (n_streams n')) topic (moved_place (D topic) pose1)) (sm_set (st_prev_cov (n_streams n)) topic covariance))).
    { split; [exact M1|]. split; [|reflexivity]. apply moved_map_set. exact M2. }
    destruct (sm_find (st_previous (n_streams n)) topic) as [prev|]; cbn [option_map];
      [|cbn [pr_ok pr_diag pr_upd pr_cov pr_val pr_streams]; repeat split; try congruence; apply HS2].
    destruct (sm_find (st_prev_cov (n_streams n)) topic) as [prev_cov|];
      [|cbn [pr_ok pr_diag pr_upd pr_cov pr_val pr_streams]; repeat split; try congruence; apply HS2].
    rewrite inverse_moved. destruct (quatToRPY _) as [[ro pi] ya].
    match goal with |- context [prepareTwist e c ?tw ?tt ?b n' ?uu ?v ?C] =>
      pose proof (twist_prep tw tt b n n' uu v C HS) as HT; set (rr := prepareTwist e c tw tt b n uu v C) in *;
      set (rr' := prepareTwist e c tw tt b n' uu v C) in * end.
    cbv zeta in HT. destruct HT as (T1 & T2 & T3 & T4 & T5 & T6 & T7 & T8). clearbody rr rr'.
    cbn [pr_ok pr_diag pr_upd pr_cov pr_val pr_streams]. rewrite T1, T2, T3, T4, T5.
    split; [reflexivity|]. split; [reflexivity|]. split; [reflexivity|]. split; [reflexivity|]. split; [exact HS2|].
    split; [|split; [intros Hd; discriminate Hd|intros Hd; discriminate Hd]].
    intros _ _. split; [reflexivity|]. intros k Hk HF. apply (T8 k Hk); [|exact HF]. apply differential_off. lia.
  - set (pose2 := match src with Some s => t_mult pose1 s | None => pose1 end).
    assert (E2 : match src with Some s => t_mult (moved_place v pose1) s | None => moved_place v pose1 end = moved_place v pose2)
      by (subst pose2; destruct src; [apply mult_left_moved|reflexivity]).
    rewrite E2. clear E2. clearbody pose2. clear src.
    set (A := if rel then _ else (pose2, n_streams n)). set (A' := if rel then _ else (moved_place v pose2, n_streams n')).
    assert (HA : moved_streams D (snd A) (snd A') /\ fst A' = if rel then fst A else moved_place v (fst A)).
    { subst A A'. destruct rel; [|cbn; split; [split; [exact M1|split; assumption]|reflexivity]].
      assert (EV : v = D topic) by (destruct HV as [HV|(_ & HV)]; [exact HV|discriminate]). subst v.
      assert (FI := M1 topic). destruct (sm_find (st_initial (n_streams n)) topic) as [i|] eqn:EI; cbn [option_map] in FI; rewrite FI.
      - cbn [fst snd]. split; [split; [exact M1|split; assumption]|]. rewrite EI, FI. apply inverse_moved.
      - cbn [fst snd st_initial]. rewrite !sm_find_set. split; [|apply inverse_moved].
        split; [apply moved_map_set; exact M1|split; assumption]. }
    destruct A as [p3 st3], A' as [p3' st3']. cbn [fst snd] in HA. destruct HA as (HA1 & ->).
    set (w := if rel then v3zero else m3mv (t_basis t1) v).
    assert (E4 : t_mult t1 (if rel then p3 else moved_place v p3) = moved_place w (t_mult t1 p3)).
    { subst w. destruct rel; [rewrite moved_zero; reflexivity|apply mult_right_moved]. }
    rewrite E4. clear E4. set (p4 := t_mult t1 p3). cbn [t_basis t_origin moved_place].
    destruct (quatToRPY (m3_getRotation (t_basis p4))) as [[ro pi] ya].
    set (C4 := set_block c0 0 6 covariance_rotated).
    set (x4 := set_vec3 (set_vec3 v0 0 (t_origin p4)) 3 (mkV3 ro pi ya)).
    set (x4' := set_vec3 (set_vec3 v0 0 (v3add (t_origin p4) w)) 3 (mkV3 ro pi ya)).
    assert (HX : forall k, x4' k = x4 k + along_axis w k).
    { intros k. subst x4 x4'. unfold set_vec3, vset. cbn [Nat.add v3x v3y v3z v3add].
      do 6 (destruct k as [|k]; [cbn [Nat.eqb along_axis]; toR; ring|]). cbn [Nat.eqb along_axis]. toR. ring. }
    pose proof (finish_val (e_two_d e) x4 C4 upd1) as V1. pose proof (finish_val (e_two_d e) x4' C4 upd1) as V2.
    pose proof (fun k => finish_flag (e_two_d e) x4 C4 upd1 k) as V3.
    assert (V4 : snd (finish (e_two_d e) x4' C4 upd1) = snd (finish (e_two_d e) x4 C4 upd1) /\
                 snd (fst (finish (e_two_d e) x4' C4 upd1)) = snd (fst (finish (e_two_d e) x4 C4 upd1)))
      by (unfold finish; destruct (e_two_d e); split; reflexivity).
    destruct (finish (e_two_d e) x4 C4 upd1) as [[y C5] u5]. destruct (finish (e_two_d e) x4' C4 upd1) as [[y' C5'] u5'].
    cbn [fst snd] in V1, V2, V3, V4. destruct V4 as (-> & ->). cbn [pr_ok pr_diag pr_upd pr_cov pr_val pr_streams].
    split; [reflexivity|]. split; [reflexivity|]. split; [reflexivity|]. split; [reflexivity|]. split; [exact HA1|].
    split; [intros Hd; discriminate Hd|]. split; [|intros _ Hd; discriminate Hd].
    intros _ t2 Ht. injection Ht as <-. split; [reflexivity|]. exists w. split; [|split].
    + subst w t1. destruct rel; [reflexivity|]. destruct imu; reflexivity.
    + intros k. rewrite V1, V2, HX. unfold two_d_members. cbn [existsb].
      destruct (e_two_d e); cbn [andb]; [|toR; ring].
      do 15 (destruct k as [|k]; [cbn [Nat.eqb orb along_axis]; toR; ring|]). cbn [Nat.eqb orb along_axis]. toR. ring.
    + intros HN k Hk HF. destruct (V3 k Hk HF) as [G|G]; [|exact G]. rewrite (HU HN k Hk) in G. discriminate.
Qed.
End Prep.
