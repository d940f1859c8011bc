(** * From messages to measurements in exact arithmetic *)

From Coq Require Import Reals ZArith List Bool Lia Lra String Arith.
From Verif Require Import Scalar Mat FilterBase StrMap Tf Diagnostics RosFilter RosConfig ForceTwoD RosPrepare
  SpecNode SpecTf SpecLin SpecPrepare OutputProofs Trig TfReal TfRot TfQuat RBridge RLin PrepareProofs.
Import ListNotations.
Local Open Scope R_scope.

(** ** Rotated covariances *)
Lemma rot6_mul (a b : M3) i j : (i < 6)%nat -> (j < 6)%nat ->
  rmul 6 (@rot6 RScalar a) (@rot6 RScalar b) i j = @rot6 RScalar (m3mul a b) i j.
Proof.
  intros Hi Hj.
  do 6 (destruct i as [|i]; [do 6 (destruct j as [|j]; [unfold rmul; cbn; toR; ring|]); lia|]). lia.
Qed.
Lemma rot6_T (a : M3) i j : rT (@rot6 RScalar a) i j = @rot6 RScalar (m3T a) i j.
Proof.
  unfold rT, rot6. rewrite (andb_comm (Nat.ltb j 3)), (andb_comm (Nat.leb 3 j)).
  destruct (Nat.ltb i 3 && Nat.ltb j 3)%bool eqn:H1.
  - apply andb_prop in H1 as [H1 H2]. apply Nat.ltb_lt in H1, H2.
    do 3 (destruct i as [|i]; [do 3 (destruct j as [|j]; [reflexivity|]); lia|]); lia.
  - destruct (Nat.leb 3 i && Nat.leb 3 j)%bool; [|reflexivity].
    generalize (i - 3)%nat (j - 3)%nat. intros p q.
    destruct p as [|[|p]]; destruct q as [|[|q]]; reflexivity.
Qed.
Lemma rot6_eye i j : (i < 6)%nat -> (j < 6)%nat -> @rot6 RScalar m3eye i j = rI i j.
Proof. intros Hi Hj. do 6 (destruct i as [|i]; [do 6 (destruct j as [|j]; [reflexivity|]); lia|]). lia. Qed.

Lemma rot3_mul (a b : M3) i j : (i < 3)%nat -> (j < 3)%nat ->
  rmul 3 (@rot3 RScalar a) (@rot3 RScalar b) i j = @rot3 RScalar (m3mul a b) i j.
Proof.
  intros Hi Hj.
  do 3 (destruct i as [|i]; [do 3 (destruct j as [|j]; [unfold rmul; cbn; toR; ring|]); lia|]). lia.
Qed.
Lemma rot3_T (a : M3) i j : rT (@rot3 RScalar a) i j = @rot3 RScalar (m3T a) i j.
Proof. unfold rT, rot3. destruct i as [|[|i]]; destruct j as [|[|j]]; reflexivity. Qed.
Lemma rot3_eye i j : (i < 3)%nat -> (j < 3)%nat -> @rot3 RScalar m3eye i j = rI i j.
Proof. intros Hi Hj. do 3 (destruct i as [|i]; [do 3 (destruct j as [|j]; [reflexivity|]); lia|]). lia. Qed.

Lemma rotateCov_R n (r c : rmat) : @rotateCov RScalar n r c = rmul n (rmul n r c) (rT r).
Proof. reflexivity. Qed.

Lemma rotate_psd n (r c : rmat) : psd n c -> psd n (@rotateCov RScalar n r c).
Proof. intros H. rewrite rotateCov_R. apply psd_sandwich. exact H. Qed.

Lemma rotate_ext n (r r' c c' : rmat) i j : (i < n)%nat -> (j < n)%nat -> meq n n r r' -> meq n n c c' ->
  @rotateCov RScalar n r c i j = @rotateCov RScalar n r' c' i j.
Proof.
  intros Hi Hj Hr Hc. rewrite !rotateCov_R. apply rmul_ext.
  - intros l Hl. apply rmul_ext; intros k Hk; [apply Hr|apply Hc]; assumption.
  - intros l Hl. apply Hr; assumption.
Qed.

Lemma rotate_by_eye n (r c : rmat) : (meq n n r rI) -> meq n n (@rotateCov RScalar n r c) c.
Proof.
  intros Hr i j Hi Hj. rewrite (rotate_ext n r rI c c i j) by (try assumption; intros ? ? ? ?; reflexivity).
  rewrite rotateCov_R. replace (rT rI) with rI.
  - rewrite rmul_I_r by exact Hj. apply rmul_I_l. exact Hi.
  - apply FunctionalExtensionality.functional_extensionality. intros a.
    apply FunctionalExtensionality.functional_extensionality. intros b. unfold rT, rI. rewrite Nat.eqb_sym. reflexivity.
Qed.

Lemma rotate_twice n (r s c : rmat) : meq n n (@rotateCov RScalar n r (@rotateCov RScalar n s c))
  (@rotateCov RScalar n (rmul n r s) c).
Proof.
  intros i j Hi Hj. rewrite !rotateCov_R, rT_mul. rewrite <- !rmul_assoc. reflexivity.
Qed.

Lemma rotate_back n (r s c : rmat) : meq n n (rmul n s r) rI ->
  meq n n (@rotateCov RScalar n s (@rotateCov RScalar n r c)) c.
Proof.
  intros H i j Hi Hj. rewrite rotate_twice by assumption. apply rotate_by_eye; assumption.
Qed.

Lemma rot6_back (m : M3) : rotation m -> meq 6 6 (rmul 6 (@rot6 RScalar (m3T m)) (@rot6 RScalar m)) rI.
Proof. intros H i j Hi Hj. rewrite rot6_mul by assumption. rewrite rotation_Tmul by exact H. apply rot6_eye; assumption. Qed.
Lemma rot3_back (m : M3) : rotation m -> meq 3 3 (rmul 3 (@rot3 RScalar (m3T m)) (@rot3 RScalar m)) rI.
Proof. intros H i j Hi Hj. rewrite rot3_mul by assumption. rewrite rotation_Tmul by exact H. apply rot3_eye; assumption. Qed.

(** A block on the diagonal of a zero matrix. *)
Lemma set_block_psd o n d (b : rmat) : (o + n <= d)%nat -> psd n b -> psd d (@set_block RScalar mzero o n b).
Proof.
  intros Hd Hb. set (G := (fun i l => if Nat.eqb i (o + l) then 1 else 0) : rmat).
  apply psd_ext with (rmul n (rmul n G b) (rT G)); [|apply psd_sandwich; exact Hb].
  intros i j Hi Hj. unfold rmul, rT, G.
  assert (GS : forall (f : nat -> R) k, rsum n (fun l => (if Nat.eqb k (o + l) then 1 else 0) * f l) =
     if (Nat.leb o k && Nat.ltb k (o + n))%bool then f (k - o)%nat else 0).
  { intros f k. destruct (Nat.leb_spec o k); destruct (Nat.ltb_spec k (o + n)); cbn [andb].
    - rewrite (rsum_single n (k - o)); [|lia|].
      + replace (o + (k - o))%nat with k by lia. rewrite Nat.eqb_refl. ring.
      + intros l Hl Hne. destruct (Nat.eqb_spec k (o + l)); [lia|]. ring.
    - apply rsum_zero. intros l Hl. destruct (Nat.eqb_spec k (o + l)); [lia|]. ring.
    - apply rsum_zero. intros l Hl. destruct (Nat.eqb_spec k (o + l)); [lia|]. ring.
    - apply rsum_zero. intros l Hl. destruct (Nat.eqb_spec k (o + l)); [lia|]. ring. }
  rewrite (rsum_ext n _ (fun l => (if Nat.eqb j (o + l) then 1 else 0) *
     (if (Nat.leb o i && Nat.ltb i (o + n))%bool then b (i - o)%nat l else 0))).
  2:{ intros l Hl. rewrite (GS (fun m => b m l) i). ring. }
  rewrite (GS (fun l => if (Nat.leb o i && Nat.ltb i (o + n))%bool then b (i - o)%nat l else 0) j).
  unfold set_block. destruct (Nat.leb o i && Nat.ltb i (o + n))%bool; cbn [andb]; [reflexivity|].
  destruct (Nat.leb o j && Nat.ltb j (o + n))%bool; reflexivity.
Qed.

(** ** Twist *)
Lemma v3add_R (a b : V3) : v3add a b = plus3 a b.
Proof. reflexivity. Qed.
Lemma v3sub_R (a b : V3) : v3sub a b = minus3 a b.
Proof. reflexivity. Qed.

Section Prep.
Context {E : Type} (e : penv RScalar) (c : config RScalar).

Definition rotated_flags (r : M3) (o : nat) (u : list bool) : list bool := unmask (@m3mul RScalar r (mask3 u o)) o u.
Definition rotated_flags2 (r : M3) (o : nat) (u : list bool) : list bool :=
  unmask (@m3mul RScalar r (mask3 u (o + 3))) (o + 3) (rotated_flags r o u).

Lemma twist_ready msg topic target (n : node RScalar E) upd v0 c0 t :
  lookupTransformSafe e target (frame_or (tw_frame msg) target) (tw_stamp msg) = Some t ->
  rotation (t_basis t) ->
  let r := prepareTwist e c msg topic target n upd v0 c0 in
  pr_ok r = true /\ pr_streams r = n_streams n /\
  (forall i, kept (e_two_d e) i ->
     pr_val r i = @set_vec3 RScalar
       (@set_vec3 RScalar v0 6 (plus3 (turn (t_basis t) (tw_linear msg)) (cross3 (t_origin t) (angular_velocity n))))
       9 (turn (t_basis t) (tw_angular msg)) i /\
     nth i (pr_upd r) false = nth i (rotated_flags2 (t_basis t) 6 upd) false) /\
  (forall i j, kept (e_two_d e) i \/ i <> j ->
     pr_cov r i j = @set_block RScalar c0 6 6
       (@rotateCov RScalar 6 (@rot6 RScalar (t_basis t)) (as_matrix 6 (tw_cov msg))) i j).
Proof.
  intros HL HR. cbv zeta. unfold prepareTwist.
  replace (if String.eqb (tw_frame msg) "" then target else tw_frame msg) with (frame_or (tw_frame msg) target)
    by (destruct (tw_frame msg); reflexivity).
  rewrite HL. cbv zeta.
  destruct (getRotation_correct (t_basis t) HR) as [_ ->].
  match goal with |- context [finish ?d ?v ?cv ?u] =>
    destruct (finish d v cv u) as [[v' c'] u'] eqn:F end.
  apply finish_kept in F as (F1 & F2 & _). cbn [pr_ok pr_streams pr_val pr_upd pr_cov].
  split; [reflexivity|]. split; [reflexivity|]. split.
  - intros i Hi. destruct (F1 i Hi) as [-> ->]. split; [|reflexivity].
    reflexivity.
  - intros i j Hij. rewrite (F2 i j Hij). reflexivity.
Qed.

(** ** Acceleration *)
Lemma acceleration_ready msg topic target relative (n : node RScalar E) upd v0 c0 t :
  lookupTransformSafe e target (frame_or (im_frame msg) (c_base c)) (im_stamp msg) = Some t ->
  rotation (t_basis t) ->
  let r := prepareAcceleration e c msg topic target relative n upd v0 c0 in
  let w := angular_velocity n in
  let felt := minus3 (plus3 (turn (t_basis t) (im_linear msg)) (cross3 (t_origin t) (a_acc (n_ang n))))
                     (cross3 (cross3 (t_origin t) w) w) in
  let fused := match sm_find (e_remove e) topic with
               | Some true => minus3 felt (gravity_vector e n msg relative (t_basis t))
               | _ => felt
               end in
  pr_ok r = true /\ pr_streams r = n_streams n /\
  (forall i, kept (e_two_d e) i ->
     pr_val r i = @set_vec3 RScalar v0 12 fused i /\
     nth i (pr_upd r) false = nth i (rotated_flags (t_basis t) 12 upd) false) /\
  (forall i j, kept (e_two_d e) i \/ i <> j ->
     pr_cov r i j = @set_block RScalar c0 12 3
       (@rotateCov RScalar 3 (@rot3 RScalar (t_basis t)) (as_matrix 3 (im_acc_cov msg))) i j).
Proof.
  intros HL HR. cbv zeta. unfold prepareAcceleration.
  replace (if String.eqb (im_frame msg) "" then c_base c else im_frame msg) with (frame_or (im_frame msg) (c_base c))
    by (destruct (im_frame msg); reflexivity).
  rewrite HL. cbv zeta.
  destruct (getRotation_correct (t_basis t) HR) as [_ ->].
  match goal with |- context [finish ?d ?v ?cv ?u] =>
    destruct (finish d v cv u) as [[v' c'] u'] eqn:F end.
  apply finish_kept in F as (F1 & F2 & _). cbn [pr_ok pr_streams pr_val pr_upd pr_cov].
  split; [reflexivity|]. split; [reflexivity|]. split.
  - intros i Hi. destruct (F1 i Hi) as [-> ->]. split; [|reflexivity].
    reflexivity.
  - intros i j Hij. rewrite (F2 i j Hij). reflexivity.
Qed.

(** ** Pose *)
Definition pose_attitude (msg : pose_msg RScalar) : M3 := m3_of_quat (pose_quat (ps_orientation msg)).

(** The pose of the message, and what replaces it for an IMU. *)
Definition pose_of (msg : pose_msg RScalar) : T4 := mkTrans (pose_attitude msg) (ps_position msg).

Lemma pose_quat_nonzero (q : Q4) : @quat_length2 RScalar (@pose_quat RScalar q) <> 0.
Proof.
  unfold pose_quat, zero_quat. destruct q as [x y z w]. cbn [qx qy qz qw].
  destruct (_ && _)%bool eqn:H.
  - unfold quat_length2, quat_identity. cbn. toR. lra.
  - assert (N : 0 < x * x + y * y + z * z + w * w).
    { apply Bool.andb_false_iff in H as [H|H]; [apply Bool.andb_false_iff in H as [H|H];
        [apply Bool.andb_false_iff in H as [H|H]|]|]; apply Reqb_false in H; toR;
        pose proof (Rle_0_sqr x); pose proof (Rle_0_sqr y); pose proof (Rle_0_sqr z); pose proof (Rle_0_sqr w);
        unfold Rsqr in *; apply Rlt_0_sqr in H; unfold Rsqr in H; lra. }
    unfold checked_quat. destruct (@s_ltb RScalar _ _); unfold quat_length2, quat_normalize; cbn [qx qy qz qw]; toR; [|lra].
    unfold quat_length, quat_length2. cbn [qx qy qz qw]. toR. set (s := sqrt _).
    assert (0 < s) by (apply sqrt_lt_R0; exact N).
    intros h. assert ((x * x + y * y + z * z + w * w) * (1 / s * (1 / s)) = 0) by lra.
    apply Rmult_integral in H1 as [H1|H1]; [lra|].
    assert (0 < 1 / s) by (unfold Rdiv; rewrite Rmult_1_l; apply Rinv_0_lt_compat; exact H0). nra.
Qed.
Lemma pose_rigid msg : rigid (pose_of msg).
Proof. apply of_quat_rotation, pose_quat_nonzero. Qed.

Definition rpy_of (m : M3) : V3 := let '(r, p, y) := @m3_getRPY RScalar m in v3 r p y.

Lemma quatToRPY_rotation (m : M3) : rotation m ->
  @quatToRPY RScalar (@m3_getRotation RScalar m) = @m3_getRPY RScalar m.
Proof. intros H. unfold quatToRPY. destruct (getRotation_correct m H) as [_ ->]. reflexivity. Qed.

Lemma rpy_describes (m : M3) : rotation m -> not_vertical (turn m (v3 1 0 0)) -> describes (rpy_of m) (turn m).
Proof.
  intros H V v. assert (V' : - 1 < v3x (m3r2 m) < 1).
  { unfold not_vertical, turn, inner, Z3 in V. cbn in V. unfold X in V. toR. lra. }
  destruct (setRPY_getRPY m H V') as (r & p & y & G & S & _). unfold rpy_of. rewrite G.
  cbn [v3 X Y Z3 v3x v3y v3z]. rewrite <- setRPY_oriented. rewrite S. reflexivity.
Qed.

Definition imu_pose_of (t : T4) (msg : pose_msg RScalar) : T4 :=
  mkTrans (imu_basis (t_basis t) (pose_attitude msg)) (ps_position msg).
Definition yaw_turn (m : M3) : M3 := @m3_setRPY RScalar 0 0 (m3_yaw m).
Definition base_pose (t : T4) (imu : bool) (msg : pose_msg RScalar) : T4 :=
  if imu then imu_pose_of t msg else pose_of msg.
Definition to_base (src : option T4) (p : T4) : T4 := match src with Some s => t_mult p s | None => p end.
Definition source_of (source : string) (time : Z) : option T4 :=
  if String.eqb source (c_base c) then None else lookupTransformSafe e source (c_base c) time.
Definition source_cov (src : option T4) (cov : rmat) : rmat :=
  match src with
  | Some s => @rotateCov RScalar 6 (mT (@rot6 RScalar (t_basis s))) cov
  | None => cov
  end.

Lemma pose_ready msg topic target source (relative imu : bool) (n : node RScalar E) upd v0 c0 t ft pf :
  pose_frames c (ps_frame msg) target false imu = (ft, pf) ->
  lookupTransformSafe e ft pf (pose_lookup_time e (ps_stamp msg)) = Some t ->
  rotation (t_basis t) ->
  let src := source_of source (pose_lookup_time e (ps_stamp msg)) in
  (forall s, src = Some s -> rotation (t_basis s)) ->
  let p2 := to_base src (base_pose t imu msg) in
  let st := n_streams n in
  let p3 := if relative
            then t_inverseTimes (match sm_find (st_initial st) topic with Some i => i | None => p2 end) p2
            else p2 in
  let p4 := t_mult (if imu then t_identity else t) p3 in
  rotation (t_basis p4) ->
  let r := preparePose e c msg topic target source false relative imu n upd v0 c0 in
  pr_ok r = true /\
  pr_streams r = (if relative
    then match sm_find (st_initial st) topic with
         | Some _ => st
         | None => mkStreams (sm_set (st_initial st) topic p2) (st_previous st) (st_prev_cov st)
         end
    else st) /\
  (forall i, kept (e_two_d e) i ->
     pr_val r i = @set_vec3 RScalar (@set_vec3 RScalar v0 0 (t_origin p4)) 3 (rpy_of (t_basis p4)) i /\
     nth i (pr_upd r) false = nth i (rotated_flags2 (if imu then yaw_turn (t_basis t) else t_basis t) 0 upd) false) /\
  (forall i j, kept (e_two_d e) i \/ i <> j ->
     pr_cov r i j = @set_block RScalar c0 0 6
       (@rotateCov RScalar 6 (@rot6 RScalar (if imu then yaw_turn (t_basis t) else t_basis t))
          (source_cov src (as_matrix 6 (ps_cov msg)))) i j).
Proof.
  intros HF HL HR src HS p2 st p3 p4 H4 r.
  assert (Er : r = preparePose e c msg topic target source false relative imu n upd v0 c0) by reflexivity.
  unfold preparePose in Er. rewrite HF in Er. cbv zeta in Er. rewrite HL in Er.
  destruct (getRotation_correct (t_basis t) HR) as [_ HQ]. rewrite HQ in Er. clear HQ.
  fold (source_of source (pose_lookup_time e (ps_stamp msg))) in Er. fold src in Er.
  change (if imu then mkTrans (imu_basis (t_basis t) (t_basis (t_of (pose_quat (ps_orientation msg)) (ps_position msg))))
             (t_origin (t_of (pose_quat (ps_orientation msg)) (ps_position msg)))
          else t_of (pose_quat (ps_orientation msg)) (ps_position msg)) with (base_pose t imu msg) in Er.
  change (match src with Some s => t_mult (base_pose t imu msg) s | None => base_pose t imu msg end) with p2 in Er.
  assert (E2 : (if relative
     then (match sm_find (st_initial (match sm_find (st_initial (n_streams n)) topic with
             | Some _ => n_streams n
             | None => mkStreams (sm_set (st_initial (n_streams n)) topic p2) (st_previous (n_streams n)) (st_prev_cov (n_streams n))
             end)) topic with Some initial => t_inverseTimes initial p2 | None => p2 end,
           match sm_find (st_initial (n_streams n)) topic with
             | Some _ => n_streams n
             | None => mkStreams (sm_set (st_initial (n_streams n)) topic p2) (st_previous (n_streams n)) (st_prev_cov (n_streams n))
             end) else (p2, n_streams n)) =
     (p3, if relative
    then match sm_find (st_initial st) topic with
         | Some _ => st
         | None => mkStreams (sm_set (st_initial st) topic p2) (st_previous st) (st_prev_cov st)
         end
    else st)).
  { unfold p3, st. destruct relative; [|reflexivity].
    destruct (sm_find (st_initial (n_streams n)) topic) as [i|] eqn:Hi; [rewrite Hi; reflexivity|].
    cbn [st_initial]. rewrite sm_find_set. reflexivity. }
  rewrite E2 in Er. clear E2. fold p4 in Er.
  rewrite quatToRPY_rotation in Er by exact H4.
  assert (EP : @m3_getRPY RScalar (t_basis p4) =
    (X (rpy_of (t_basis p4)), Y (rpy_of (t_basis p4)), Z3 (rpy_of (t_basis p4)))).
  { unfold rpy_of. destruct (@m3_getRPY RScalar (t_basis p4)) as [[? ?] ?]. reflexivity. }
  rewrite EP in Er.
  match type of Er with context [finish ?d ?v ?cv ?u] =>
    destruct (finish d v cv u) as [[v' c'] u'] eqn:F end.
  apply finish_kept in F as (F1 & F2 & _).
  rewrite Er. cbn [pr_ok pr_streams pr_val pr_upd pr_cov].
  split; [reflexivity|]. split; [reflexivity|]. split.
  - intros i Hi. destruct (F1 i Hi) as [-> ->]. split; [reflexivity|].
    destruct imu; reflexivity.
  - intros i j Hij. rewrite (F2 i j Hij).
    assert (EC : forall s, src = Some s -> m3_of_quat (@m3_getRotation RScalar (t_basis s)) = t_basis s).
    { intros s Hs. apply getRotation_correct, HS, Hs. }
    unfold source_cov. destruct src as [s|].
    + rewrite (EC s eq_refl). destruct imu; reflexivity.
    + destruct imu; reflexivity.
Qed.

(** ** Differential poses *)
Definition over (v : V3) (dt : R) : V3 := v3 (X v / dt) (Y v / dt) (Z3 v / dt).

Lemma stampToSec_R t : @stampToSec RScalar t = IZR t / 1000000000.
Proof.
  unfold stampToSec. rewrite lit_1_9. toR.
  rewrite (Z.div_mod t 1000000000) at 3 by lia. rewrite plus_IZR, mult_IZR. lra.
Qed.

Definition mask_turn (t : T4) (imu : bool) : M3 := if imu then yaw_turn (t_basis t) else t_basis t.
Definition stored (n : node RScalar E) topic (p : T4) (cov : rmat) : streams RScalar :=
  mkStreams (st_initial (n_streams n)) (sm_set (st_previous (n_streams n)) topic p)
            (sm_set (st_prev_cov (n_streams n)) topic cov).
Definition delta_twist (msg : pose_msg RScalar) source (delta : T4) (dt : R) (cov : rmat) : twist_msg RScalar :=
  mkTwist (ps_stamp msg) source (over (t_origin delta) dt) (over (rpy_of (t_basis delta)) dt)
    (@uncopyCovariance RScalar cov 6).

Lemma differential_ready msg topic target source (relative imu : bool) (n : node RScalar E) upd v0 c0 t ft pf :
  pose_frames c (ps_frame msg) target true imu = (ft, pf) ->
  lookupTransformSafe e ft pf (pose_lookup_time e (ps_stamp msg)) = Some t ->
  rotation (t_basis t) ->
  let src := source_of source (pose_lookup_time e (ps_stamp msg)) in
  (forall s, src = Some s -> rotation (t_basis s)) ->
  let p1 := base_pose t imu msg in
  let cov := source_cov src (as_matrix 6 (ps_cov msg)) in
  let rot := @rot6 RScalar (mask_turn t imu) in
  let r := preparePose e c msg topic target source true relative imu n upd v0 c0 in
  pr_streams r = stored n topic p1 cov /\
  match sm_find (st_previous (n_streams n)) topic, sm_find (st_prev_cov (n_streams n)) topic with
  | Some prev, Some pcov =>
      let delta := t_mult (mkTrans (t_basis (if imu then t_identity else t)) (v3 0 0 0)) (t_inverseTimes prev p1) in
      rotation (t_basis delta) ->
      let dt := IZR (ps_stamp msg - match sm_find (n_last_msg n) topic with Some x => x | None => 0%Z end) / 1000000000 in
      let q := prepareTwist e c
                 (delta_twist msg source delta dt
                    (fun i j => (@rotateCov RScalar 6 rot cov i j + @rotateCov RScalar 6 rot pcov i j) * dt))
                 (topic ++ "_twist") (c_base c) n (differential_flags (rotated_flags2 (mask_turn t imu) 0 upd)) v0 c0 in
      pr_ok r = pr_ok q /\ pr_val r = pr_val q /\ pr_cov r = pr_cov q /\ pr_upd r = pr_upd q
  | _, _ => pr_ok r = false
  end.
Proof.
  intros HF HL HR src HS p1 cov rot r.
  assert (Er : r = preparePose e c msg topic target source true relative imu n upd v0 c0) by reflexivity.
  unfold preparePose in Er. rewrite HF in Er. cbv zeta in Er. rewrite HL in Er.
  destruct (getRotation_correct (t_basis t) HR) as [_ HQ]. rewrite HQ in Er. clear HQ.
  fold (source_of source (pose_lookup_time e (ps_stamp msg))) in Er. fold src in Er.
  change (if imu then mkTrans (imu_basis (t_basis t) (t_basis (t_of (pose_quat (ps_orientation msg)) (ps_position msg))))
             (t_origin (t_of (pose_quat (ps_orientation msg)) (ps_position msg)))
          else t_of (pose_quat (ps_orientation msg)) (ps_position msg)) with p1 in Er.
  assert (EC : match src with
      | Some s => @rotateCov RScalar 6 (mT (@rot6 RScalar (m3_of_quat (@m3_getRotation RScalar (t_basis s)))))
                    (copyCovariance (ps_cov msg) 6)
      | None => copyCovariance (ps_cov msg) 6
      end = cov).
  { unfold cov, source_cov. destruct src as [s|]; [|reflexivity].
    destruct (getRotation_correct (t_basis s) (HS s eq_refl)) as [_ ->]. reflexivity. }
  change POSE_SIZE with 6%nat in Er.
  rewrite EC in Er. clear EC.
  destruct (sm_find (st_previous (n_streams n)) topic) as [prev|] eqn:Hp.
  2:{ rewrite Er. split; reflexivity. }
  destruct (sm_find (st_prev_cov (n_streams n)) topic) as [pcov|] eqn:Hc.
  2:{ rewrite Er. split; reflexivity. }
  match type of Er with context [t_mult ?a ?b] => set (delta := t_mult a b) in * end.
  rewrite stampToSec_R, toSec_R in Er.
  set (dt := @s_sub RScalar _ _) in Er.
  assert (Edt : dt = IZR (ps_stamp msg - match sm_find (n_last_msg n) topic with Some x => x | None => 0%Z end) / 1000000000).
  { unfold dt. toR. rewrite minus_IZR. lra. }
  destruct (@quatToRPY RScalar (@m3_getRotation RScalar (t_basis delta))) as [[ro pi] ya] eqn:EA.
  rewrite Er. cbn [pr_ok pr_streams pr_val pr_upd pr_cov].
  split; [reflexivity|].
  change (@mkV3 RScalar 0 0 0) with (@v3zero RScalar) in *.
  cbv zeta. change (v3 0 0 0) with (@v3zero RScalar). fold delta. intros HD.
  rewrite <- Edt. rewrite (quatToRPY_rotation (t_basis delta)) in EA by exact HD.
  assert (ER : rpy_of (t_basis delta) = v3 ro pi ya) by (unfold rpy_of; rewrite EA; reflexivity).
  unfold delta_twist. rewrite ER.
  destruct imu; repeat split; reflexivity.
Qed.
End Prep.
