(** * Lookup times, projections, altitudes, covariances and broadcasts (C57, C67, C68) *)

From Coq Require Import Reals ZArith List Bool String Lia Lra Arith.
From Verif Require Import Scalar Mat FilterBase Tf StrMap RosFilter RosPrepare Navsat SpecFilter SpecLin SpecTf SpecPrepare SpecNavsat
  RBridge Angles Trig TfReal TfRot TfQuat PrepareProofs PrepareReal PrepareFacts PrepareThm PrepareMotion PreparePsd PrepareGoals RLin
  NavsatProofs NavsatTrace NavsatLife NavsatReal NavsatDatum NavsatGoals NavsatSim.
Import ListNotations.
Local Open Scope list_scope.
Local Open Scope R_scope.

Implicit Types (g : geolib RScalar) (p : nav_params RScalar) (n : nav RScalar) (e : penv RScalar).

(** ** C57: the time asked for *)
Lemma gps_depends g p u junk evs n outs e e' now : execution g p u junk evs n outs -> nv_good n = true ->
  exact_clock e -> same_settings e e' ->
  (forall ef f, last_with usable_fix evs (ef, EvGps f) -> stamp_range (fx_stamp f) /\
     forall a b, e_buffer e' a b (fx_stamp f / 1000000000)%Z = e_buffer e a b (fx_stamp f / 1000000000)%Z) ->
  (forall a b, e_buffer e' a b 0%Z = e_buffer e a b 0%Z) ->
  nav_step g p junk e' (EvTick now) n = nav_step g p junk e (EvTick now) n.
Proof.
  intros H G C SS B B0. cbn [nav_step]. unfold transformCallback. rewrite G.
  replace (prepareGpsOdometry e' p n) with (prepareGpsOdometry e p n); [reflexivity|].
  unfold prepareGpsOdometry. destruct (nv_good n && nv_gps_updated n && nv_odom_updated n)%bool eqn:R; [|reflexivity].
  rewrite !andb_true_iff in R. destruct R as ((_ & GU) & _).
  destruct (execution_holds _ _ _ _ _ _ _ H) as (F & _).
  destruct (F GU) as (j & ef & f & z & np & x & y & gm & J & U & T' & _ & _ & _ & NF & _).
  assert (Lf : last_with usable_fix evs (ef, EvGps f)).
  { eapply nth_last; [exact J|exists f; auto|]. intros i ev' Hi Hev (f' & -> & U'). eapply NF; eauto. }
  destruct (B _ _ Lf) as (SR & BF). rewrite <- T' in SR, BF. pose proof (range_seconds _ SR) as SR'.
  assert (L : forall a b, lookupTransformSafe e' a b (@gps_lookup_time RScalar (nv_gps_time n)) =
                          lookupTransformSafe e a b (@gps_lookup_time RScalar (nv_gps_time n))).
  { intros a b. rewrite gps_time by apply SR. apply lookup_depends; try assumption. intros a' b'. split; [apply BF|apply B0]. }
  unfold getRobotOriginWorldPose. rewrite !L. reflexivity.
Qed.

(** ** C67: the projection of the fix and of the datum *)
(** The antenna position implied by the published position, against the map
    position of the same fix. *)
Lemma antenna_on_map a b : plus3 (minus3 a b) b = a.
Proof. revert a b. tf_ring. Qed.
Theorem gps_vs_map g p u junk evs e ev n' outs o m :
  execution g p u junk (evs ++ [(e, ev)]) n' (outs ++ [o]) -> In (PubGps m) o -> p_zero_alt p = false ->
  exists n ef f ex ff eo q z np x y gm, execution g p u junk evs n outs /\ nv_good n = true /\
    last_with usable_fix evs (ef, EvGps f) /\ last_with any_fix evs (ex, EvGps ff) /\ last_with odometry evs (eo, EvOdom q) /\
    g_forward g (fx_lat f) (fx_lon f) (-1) = Some (z, np, x, y, gm) /\
    ((0 <= fx_stamp f)%Z ->
     forall off robot, asked e (o_child q) (fx_frame ff) (fx_stamp f / 1000000000) (Some off) ->
        asked e (o_frame q) (o_child q) (fx_stamp f / 1000000000) (Some robot) -> rigid robot ->
        let antenna := plus3 (o_position m) (turn (t_basis robot) (t_origin off)) in
        (p_local p = false -> forall z' np' x' y' gm',
           g_forward g (fx_lat f) (fx_lon f) (nv_zone n) = Some (z', np', x', y', gm') ->
           exists a, from_ll g p junk n (fx_lat f) (fx_lon f) (fx_alt f) a /\
             distance3 antenna a = distance3 (v3 x y (fx_alt f)) (v3 x' y' (fx_alt f))) /\
        (p_local p = true -> forall x' y',
           g_local g (fst (nv_local n)) (snd (nv_local n)) (fx_lat f) (fx_lon f) (fx_alt f) = (x', y') ->
           exists a, from_ll g p junk n (fx_lat f) (fx_lon f) (fx_alt f) a /\
             distance3 antenna a = distance3 (v3 x y (fx_alt f)) (v3 x' y' (fx_alt f)))).
Proof.
  intros H I Z. destruct (gps_position _ _ _ _ _ _ _ _ _ _ _ H I) as (n & ef & f & ex & ff & eo & q & z & np & x & y & gm & A & G & Lf & Lx & Lo & F & _ & P).
  exists n, ef, f, ex, ff, eo, q, z, np, x, y, gm. do 6 (split; [assumption|]). intros S off robot L1 L2 R. cbn zeta.
  destruct (P S) as (K & _). rewrite (K _ _ L1 L2 R), Z. unfold plane. rewrite antenna_on_map.
  assert (RC : rigid (nv_cw n)).
  { apply upright_rigid. apply (good_upright g p n); [exists u, junk, evs, outs; exact A|exact G]. }
  split.
  - intros L z' np' x' y' gm' F'. eexists. split; [eapply from_utm; eauto|]. rewrite Z. apply distance_move, RC.
  - intros L x' y' F'. eexists. split; [eapply from_local; eauto|]. rewrite Z, F'. apply distance_move, RC.
Qed.
Lemma distance_x a b d : d <= X a - X b -> 0 <= d -> d <= distance3 a b.
Proof.
  intros H D. unfold distance3. rewrite <- (sqrt_square d D). apply sqrt_le_1_alt.
  assert (d * d <= (X a - X b) * (X a - X b)) by nra. pose proof (Rle_0_sqr (Y a - Y b)). pose proof (Rle_0_sqr (Z3 a - Z3 b)). unfold Rsqr in *. lra.
Qed.
Lemma distance_y a b d : d <= Y a - Y b -> 0 <= d -> d <= distance3 a b.
Proof.
  intros H D. unfold distance3. rewrite <- (sqrt_square d D). apply sqrt_le_1_alt.
  assert (d * d <= (Y a - Y b) * (Y a - Y b)) by nra. pose proof (Rle_0_sqr (X a - X b)). pose proof (Rle_0_sqr (Z3 a - Z3 b)). unfold Rsqr in *. lra.
Qed.
Lemma distance_self a : distance3 a a = 0.
Proof. unfold distance3. rewrite <- sqrt_0. f_equal. ring. Qed.
Lemma distance_sym a b : distance3 a b = distance3 b a.
Proof. unfold distance3. f_equal. ring. Qed.
Lemma distance_0 a b : distance3 a b = 0 -> a = b.
Proof.
  unfold distance3. intros H. apply sqrt_eq_0 in H.
  2:{ pose proof (Rle_0_sqr (X a - X b)). pose proof (Rle_0_sqr (Y a - Y b)). pose proof (Rle_0_sqr (Z3 a - Z3 b)). unfold Rsqr in *. lra. }
  pose proof (Rle_0_sqr (X a - X b)). pose proof (Rle_0_sqr (Y a - Y b)). pose proof (Rle_0_sqr (Z3 a - Z3 b)). unfold Rsqr in *.
  apply v3_eq; apply Rminus_diag_uniq; apply Rsqr_0_uniq; unfold Rsqr; lra.
Qed.
(** Points on both sides of the equator. *)
Theorem hemisphere g p junk n lat lon alt lat' lon' alt' z np x y gm z' np' x' y' gm' d : reachable g p n -> nv_good n = true ->
  p_local p = false -> p_zero_alt p = false ->
  g_forward g lat lon (nv_zone n) = Some (z, np, x, y, gm) -> g_forward g lat' lon' (nv_zone n) = Some (z', np', x', y', gm') ->
  0 <= d <= y - y' ->
  exists v v', from_ll g p junk n lat lon alt v /\ from_ll g p junk n lat' lon' alt' v' /\ d <= distance3 v v'.
Proof.
  intros R G L Z F F' D. destruct (map_distance g p junk n lat lon alt lat' lon' alt' _ _ _ _ _ _ _ _ _ _ R G L Z F F') as (v & v' & A & B & E).
  exists v, v'. split; [exact A|]. split; [exact B|]. rewrite E. apply distance_y; [apply D|apply D].
Qed.

(** ** C68: the altitude of the filtered fix *)
Lemma fix_published g p junk e now n n' o m : nav_step g p junk e (EvTick now) n = Done (n', o) -> In (PubFix m) o ->
  exists lat lon alt, nv_good n = true /\ mapToLL g n (t_origin (nv_odom_pose n)) = Done (lat, lon, alt) /\
    fx_stamp m = nv_odom_time n /\ fx_frame m = nv_base_frame n /\ fx_lat m = lat /\ fx_lon m = lon /\ fx_alt m = alt /\ nv_odom_updated n = true /\
    fx_cov m = (fun k => rotateCov 6 (rot6 (m3_of_quat (m3_getRotation (t_basis (nv_cwi n))))) (nv_odom_cov n) (Nat.div k 3) (Nat.modulo k 3)).
Proof.
  intros S I. destruct (step_fix _ _ _ _ _ _ _ _ _ S I) as (_ & G & OU & P).
  cbn [nav_step] in S. unfold transformCallback in S. rewrite G, P in S.
  assert (X : exists n1 r, prepareGpsOdometry e p n = (n1, r) /\ nv_good n1 = true /\ nv_odom_updated n1 = true /\
    nv_cwi n1 = nv_cwi n /\ nv_zone n1 = nv_zone n /\ nv_northp n1 = nv_northp n /\ nv_odom_pose n1 = nv_odom_pose n /\
    nv_odom_cov n1 = nv_odom_cov n /\ nv_odom_time n1 = nv_odom_time n /\ nv_base_frame n1 = nv_base_frame n).
  { destruct (prepareGps_cases e p n) as [(_ & _ & _ & c & m0 & Q)|(_ & Q)]; rewrite Q; eexists _, _; (split; [reflexivity|]); cbn; auto 12. }
  destruct X as (n1 & r & Q & G1 & O1 & X1 & X2 & X3 & X4 & X5 & X6 & X7). rewrite Q in S.
  unfold prepareFilteredGps in S. rewrite G1, O1 in S. cbn [andb] in S.
  unfold mapToLL in S |- *. rewrite X1, X2, X3, X4 in S. destruct (g_reverse _ _ _ _ _) as [(lat, lon)|]; [|discriminate].
  inversion S; subst o. clear S. assert (M : PubFix m = PubFix (mkFix (nv_odom_time n1) (nv_base_frame n1) 2 lat lon
     (v3z (t_origin (t_mult (nv_cwi n) (t_of quat_identity (t_origin (nv_odom_pose n))))))
     (fun k => rotateCov 6 (rot6 (m3_of_quat (m3_getRotation (t_basis (nv_cwi n1))))) (nv_odom_cov n1) (Nat.div k 3) (Nat.modulo k 3)))).
  { apply in_app_or in I as [I|[I|[]]]; [destruct r; [destruct I as [I|[]]; discriminate|destruct I]|]. rewrite X1, <- I. reflexivity. }
  inversion M as [M']. eexists _, _, _. split; [exact G|]. split; [reflexivity|]. cbn. rewrite X1, X5, X6, X7. auto 10.
Qed.
(** The filtered fix follows the odometry, whatever zero_altitude says: [c] and
    [w] are the datum and its place on the map. *)
Theorem filtered_altitude g p u junk evs e ev n' outs o m :
  execution g p u junk (evs ++ [(e, ev)]) n' (outs ++ [o]) -> In (PubFix m) o ->
  exists n eo q, execution g p u junk evs n outs /\ nv_good n = true /\ last_with odometry evs (eo, EvOdom q) /\
    fx_stamp m = o_stamp q /\ fx_frame m = o_child q /\
    forall c w, move (nv_cw n) c = w -> fx_alt m = Z3 (o_position q) - Z3 w + Z3 c.
Proof.
  intros H I. apply execution_snoc in H as (n & outs' & o' & A & S & Q). apply app_inj_tail in Q as (<- & <-).
  destruct (step_fix _ _ _ _ _ _ _ _ _ S I) as ((now & ->) & _).
  destruct (fix_published _ _ _ _ _ _ _ _ _ S I) as (lat & lon & alt & G & M & T & FR & _ & _ & AL & OU & _).
  destruct (execution_holds _ _ _ _ _ _ _ A) as (_ & O). destruct (O OU) as (j2 & eo & q & J2 & OT & OP & _ & W & B & NO & _ & _).
  exists n, eo, q. split; [exact A|]. split; [exact G|]. split.
  { eapply nth_last; [exact J2|exists q; auto|]. intros i ev' Hi Hev (f' & ->). eapply NO; eauto. }
  split; [congruence|]. split; [congruence|]. intros c w <-.
  destruct (good_upright g p n) as (U & CI); [exists u, junk, evs, outs; exact A|exact G|].
  rewrite AL. unfold mapToLL in M. destruct (g_reverse _ _ _ _ _) as [(la, lo)|]; [|discriminate]. 
  apply (f_equal (fun r => match r with Done (_, _, a) => a | Thrown => 0 end)) in M. rewrite <- M, back_position, OP. unfold t_of. cbn [t_origin].
  rewrite CI. change (Z3 (move (t_inverse (nv_cw n)) (o_position q)) = Z3 (o_position q) - Z3 (move (nv_cw n) c) + Z3 c).
  destruct U as (a & V). rewrite move_inverse_eq, (vertical_T _ _ V). unfold move. rewrite V.
  unfold about_z, plus3, minus3, v3, X, Y, Z3. cbn [v3x v3y v3z]. ring.
Qed.

(** ** Covariances *)
Lemma gps_cov_psd (cov : nat -> R) : psd 3 (as_matrix 3 cov) -> psd 6 (@gps_covariance RScalar cov).
Proof.
  intros H. apply psd_ext with (A := @set_block RScalar mzero 0 3 (as_matrix 3 cov)); [|apply set_block_psd; [lia|exact H]].
  intros i j Hi Hj. unfold set_block, gps_covariance, as_matrix. cbn [Nat.leb Nat.add andb].
  rewrite !Nat.sub_0_r. destruct (Nat.ltb i 3); [|reflexivity]. destruct (Nat.ltb j 3); reflexivity.
Qed.
Lemma index6 i j : (j < 6)%nat -> ((6 * i + j) / 6 = i /\ (6 * i + j) mod 6 = j)%nat.
Proof.
  intros H. split.
  - symmetry. apply (Nat.div_unique _ _ _ j); lia.
  - symmetry. apply (Nat.mod_unique _ _ i); lia.
Qed.
Lemma index3 i j : (j < 3)%nat -> ((3 * i + j) / 3 = i /\ (3 * i + j) mod 3 = j)%nat.
Proof.
  intros H. split.
  - symmetry. apply (Nat.div_unique _ _ _ j); lia.
  - symmetry. apply (Nat.mod_unique _ _ i); lia.
Qed.
(** The position covariance of the fix, with nothing for the orientation. *)
Definition padded (C : nat -> R) : rmat := fun i j => if (Nat.ltb i 3 && Nat.ltb j 3)%bool then as_matrix 3 C i j else 0.
Theorem gps_covariance_turned g p u junk evs e ev n' outs o m :
  execution g p u junk (evs ++ [(e, ev)]) n' (outs ++ [o]) -> In (PubGps m) o ->
  exists n ef f, execution g p u junk evs n outs /\ nv_good n = true /\ last_with usable_fix evs (ef, EvGps f) /\
    turned6 (t_basis (nv_cw n)) (padded (fx_cov f)) (as_matrix 6 (o_pose_cov m)) /\
    (psd 3 (as_matrix 3 (fx_cov f)) -> psd 6 (as_matrix 6 (o_pose_cov m))).
Proof.
  intros H I. apply execution_snoc in H as (n & outs' & o' & A & S & Q). apply app_inj_tail in Q as (<- & <-).
  destruct (step_pub _ _ _ _ _ _ _ _ _ S I) as (T & G & GU & OU & P).
  destruct (execution_holds _ _ _ _ _ _ _ A) as (F & _).
  destruct (F GU) as (j & ef & f & z & np & x & y & gm & J & U & T' & FW & GP & GC & NF & NPub).
  exists n, ef, f. split; [exact A|]. split; [exact G|]. split.
  { eapply nth_last; [exact J|exists f; auto|]. intros i ev' Hi Hev (f' & -> & U'). eapply NF; eauto. }
  assert (RC : rotation (t_basis (nv_cw n))).
  { apply (upright_rigid (nv_cw n)). apply (good_upright g p n); [exists u, junk, evs, outs; exact A|exact G]. }
  unfold prepareGpsOdometry in P. rewrite G, GU, OU in P. cbn [andb snd] in P.
  apply (f_equal (fun r : option (odom_msg RScalar) => match r with Some a => o_pose_cov a | None => fun _ => 0 end)) in P. cbn [o_pose_cov] in P.
  destruct (getRotation_correct _ RC) as (UQ & EQ). rewrite EQ, GC in P.
  assert (M : meq 6 6 (as_matrix 6 (o_pose_cov m)) (@rotateCov RScalar 6 (@rot6 RScalar (t_basis (nv_cw n))) (padded (fx_cov f)))).
  { intros i k Hi Hk. rewrite <- P. unfold as_matrix. destruct (index6 i k Hk) as (-> & ->). reflexivity. }
  split; [apply turned6_rotate; assumption|].
  intros PS. eapply psd_ext; [intros i k Hi Hk; symmetry; apply M; assumption|]. apply rotate_psd. apply (gps_cov_psd _ PS).
Qed.
Theorem fix_covariance_turned g p u junk evs e ev n' outs o m :
  execution g p u junk (evs ++ [(e, ev)]) n' (outs ++ [o]) -> In (PubFix m) o ->
  exists n eo q D, execution g p u junk evs n outs /\ nv_good n = true /\ last_with odometry evs (eo, EvOdom q) /\
    turned6 (t_basis (nv_cwi n)) (as_matrix 6 (o_pose_cov q)) D /\
    (forall i j, (i < 3)%nat -> (j < 3)%nat -> as_matrix 3 (fx_cov m) i j = D i j) /\
    (psd 6 (as_matrix 6 (o_pose_cov q)) -> psd 6 D).
Proof.
  intros H I. apply execution_snoc in H as (n & outs' & o' & A & S & Q). apply app_inj_tail in Q as (<- & <-).
  destruct (step_fix _ _ _ _ _ _ _ _ _ S I) as ((now & ->) & _).
  destruct (fix_published _ _ _ _ _ _ _ _ _ S I) as (lat & lon & alt & G & M & _ & _ & _ & _ & AL & OU & CV).
  destruct (execution_holds _ _ _ _ _ _ _ A) as (_ & O). destruct (O OU) as (j2 & eo & q & J2 & _ & OP & OC & W & B & NO & _ & _).
  destruct (good_upright g p n) as (U & CI); [exists u, junk, evs, outs; exact A|exact G|].
  assert (RC : rotation (t_basis (nv_cwi n))).
  { rewrite CI. destruct U as (a & V). eapply vertical_rotation. apply (vertical_T _ _ V). }
  destruct (getRotation_correct _ RC) as (UQ & EQ). rewrite EQ in CV.
  exists n, eo, q, (@rotateCov RScalar 6 (@rot6 RScalar (t_basis (nv_cwi n))) (nv_odom_cov n)).
  split; [exact A|]. split; [exact G|]. split.
  { eapply nth_last; [exact J2|exists q; auto|]. intros i ev' Hi Hev (f' & ->). eapply NO; eauto. }
  assert (OE : meq 6 6 (nv_odom_cov n) (as_matrix 6 (o_pose_cov q))).
  { intros i k Hi Hk. rewrite OC. rewrite (proj2 (Nat.ltb_lt i 6) Hi), (proj2 (Nat.ltb_lt k 6) Hk). reflexivity. }
  split; [|split].
  - intros a b a' b'. rewrite (turned6_rotate (t_basis (nv_cwi n)) (nv_odom_cov n) _ RC (fun i j _ _ => eq_refl)).
    apply bilinear_ext; [exact OE| |]; intros i _; reflexivity.
  - intros i k Hi Hk. unfold as_matrix. rewrite CV. destruct (index3 i k Hk) as (-> & ->). reflexivity.
  - intros PS. apply rotate_psd. eapply psd_ext; [intros i k Hi Hk; symmetry; apply OE; assumption|]. exact PS.
Qed.

(** ** The broadcast transform *)
Theorem broadcast_tf g p u junk evs e now n' outs o s :
  execution g p u junk (evs ++ [(e, EvTick now)]) n' (outs ++ [o]) -> In (PubTf s) o ->
  p_broadcast p = true /\ nv_good n' = true /\ (exists n, execution g p u junk evs n outs /\ nv_good n = false) /\
  st_stamp s = now /\
  (let cart := (if p_local p then "local_enu" else "utm")%string in
   if p_as_parent p then st_frame s = cart /\ st_child s = nv_world_frame n' else st_frame s = nv_world_frame n' /\ st_child s = cart) /\
  unit_quat (st_rotation s) /\
  forall v, let w := plus3 (spin (st_rotation s) v) (st_translation s) in
    let w' := if p_as_parent p then move (nv_cwi n') v else move (nv_cw n') v in
    X w = X w' /\ Y w = Y w' /\ (if p_zero_alt p then Z3 w = Z3 v else Z3 w = Z3 w').
Proof.
  intros H I. destruct (good_or n') as [G'|G'].
  2:{ exfalso. apply execution_snoc in H as (n & outs' & o' & A & S & Q). apply app_inj_tail in Q as (<- & <-).
      cbn [nav_step] in S. destruct (tick_cases _ _ _ _ _ _ _ S) as [(G & _ & m & C & D)|(G & D)].
      - unfold computeTransform in C. match type of C with (if ?b then _ else _) = _ => destruct b end.
        + inversion C; subst. destruct D as [->|(-> & _)]; discriminate.
        + inversion C; subst. destruct I.
      - cbn zeta in D. destruct D as [(_ & -> & _)|[(_ & _ & -> & _)|(_ & _ & m' & c' & -> & _)]];
        [| |apply in_app_or in I as [I|[I|[]]]; [|discriminate]]; try (destruct I; fail);
        destruct (snd (prepareGpsOdometry e p n)); try (destruct I as [I|[]]; discriminate); destruct I. }
  destruct (good_upright g p n') as (U & CI); [eexists _, _, _, _; exact H|exact G'|].
  apply execution_snoc in H as (n & outs' & o' & A & S & Q). apply app_inj_tail in Q as (<- & <-).
  cbn [nav_step] in S. destruct (tick_cases _ _ _ _ _ _ _ S) as [(G & _ & m & C & D)|(G & D)].
  - unfold computeTransform in C.
    match type of C with (if ?b then _ else _) = _ => destruct b end; [|inversion C; subst; destruct I].
    inversion C; subst o. unfold cartesian_broadcast in I. destruct (p_broadcast p); [|destruct I].
    destruct I as [I|[]].
    assert (E : nv_cw n' = nv_cw m /\ nv_cwi n' = nv_cwi m /\ nv_world_frame n' = nv_world_frame m) by (destruct D as [->|(-> & _)]; auto).
    destruct E as (E1 & E2 & E3). rewrite H0 in I. rewrite <- E1, <- E2, <- E3 in I. clear D C H0 E1 E2 E3 S.
    inversion I; subst s. clear I. cbn [st_stamp st_frame st_child st_rotation st_translation].
    split; [reflexivity|]. split; [exact G'|]. split; [exists n; auto|]. split; [reflexivity|].
    split; [cbn zeta; destruct (p_as_parent p); auto|].
    set (t := if p_as_parent p then nv_cwi n' else nv_cw n').
    assert (V : exists a, vertical (t_basis t) a).
    { unfold t. destruct U as (a & V). destruct (p_as_parent p); [|exists a; exact V]. rewrite CI. exists (- a). apply (vertical_T _ _ V). }
    assert (T : forall v, (if p_as_parent p then move (nv_cwi n') v else move (nv_cw n') v) = move t v) by (intros v; unfold t; destruct (p_as_parent p); reflexivity).
    destruct V as (a & V). pose proof (vertical_rotation _ _ V) as R. destruct (getRotation_correct _ R) as (UQ & EQ).
    split; [exact UQ|]. intros v. cbn zeta. rewrite T.
    rewrite <- of_quat_spin, EQ, V by exact UQ. rewrite zero_plane. unfold move, plane. rewrite V. destruct (p_zero_alt p).
    + unfold about_z, plus3, v3, X, Y, Z3. cbn [v3x v3y v3z]. split; [reflexivity|]. split; [reflexivity|]. ring.
    + auto.
  - exfalso. cbn zeta in D. destruct D as [(_ & -> & _)|[(_ & _ & -> & _)|(_ & _ & m' & c' & -> & _)]];
        [| |apply in_app_or in I as [I|[I|[]]]; [|discriminate]]; try (destruct I; fail);
        destruct (snd (prepareGpsOdometry e p n)); try (destruct I as [I|[]]; discriminate); destruct I.
Qed.
