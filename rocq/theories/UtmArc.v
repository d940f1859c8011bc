(** * The northing of the UTM conversion on the central meridian (C103) *)

From Coq Require Import Reals ZArith Lia Lra Psatz.
From Verif Require Import Scalar RBridge Conversions ConversionsProofs SpecUtm.
Local Open Scope R_scope.

Lemma code_e2_bounds : 0.0066943 <= code_e2 <= 0.0066944.
Proof. unfold code_e2. lra. Qed.
Lemma wgs_e2_bounds : 0.0066943 <= ecc2_of wgs84_flattening <= 0.0066944.
Proof. unfold ecc2_of, wgs84_flattening. lra. Qed.
Lemma code_e2_close : - (1 / 100000000000) <= ecc2_of wgs84_flattening - code_e2 <= 1 / 100000000000.
Proof. unfold ecc2_of, wgs84_flattening, code_e2. lra. Qed.

(** ** The constants of the model *)
Lemma e2_R : @UTM_E2 RScalar = code_e2.
Proof. unfold UTM_E2, WGS84_E, code_e2. rewrite lit_R. cbn [s_mul RScalar]. change (IZR (10 ^ 10)) with 10000000000. lra. Qed.
Lemma axis_R : @WGS84_A RScalar = wgs84_axis.
Proof. unfold WGS84_A, wgs84_axis. rewrite lit_R. cbn. lra. Qed.
Lemma k0_R : @UTM_K0 RScalar = 0.9996.
Proof. unfold UTM_K0. rewrite lit_R. change (IZR (10 ^ 4)) with 10000. lra. Qed.
Lemma rpd_R : @RADIANS_PER_DEGREE RScalar = PI / 180.
Proof. unfold RADIANS_PER_DEGREE. rewrite lit_R. cbn [s_div s_pi RScalar]. change (IZR (10 ^ 0)) with 1. f_equal. lra. Qed.
Lemma ep_R : @UTM_EP2 RScalar = code_e2 / (1 - code_e2).
Proof. unfold UTM_EP2. rewrite e2_R. reflexivity. Qed.
Lemma fe_R : @UTM_FE RScalar = 500000.
Proof. unfold UTM_FE. rewrite lit_R. cbn. lra. Qed.

(** ** The series of the arc *)
Section Series.
Variable E : R.
Definition arc_series (phi : R) : R :=
  wgs84_axis * ((1 - E / 4 - 3 * (E * E) / 64 - 5 * (E * E * E) / 256) * phi +
    - (3 * E / 8 + 3 * (E * E) / 32 + 45 * (E * E * E) / 1024) * sin (2 * phi) +
    (15 * (E * E) / 256 + 45 * (E * E * E) / 1024) * sin (4 * phi) +
    - (35 * (E * E * E) / 3072) * sin (6 * phi)).
Definition arc_rate (y : R) : R :=
  1 + E * (3 / 2 * y - 1) + E * E * (15 / 8 * y ^ 2 - 3 / 2 * y) + E * E * E * (35 / 16 * y ^ 3 - 15 / 8 * y ^ 2).

Lemma dl_sin_scaled k phi : derivable_pt_lim (fun x => sin (k * x)) phi (k * cos (k * phi)).
Proof.
  rewrite Rmult_comm. apply (derivable_pt_lim_comp (fun x => k * x) sin).
  - pose proof (derivable_pt_lim_scal (fun x => x) k phi 1 (derivable_pt_lim_id phi)) as X. rewrite Rmult_1_r in X. exact X.
  - apply derivable_pt_lim_sin.
Qed.
Lemma dl_series A m0 m1 m2 m3 phi :
  derivable_pt_lim (fun x => A * (m0 * x + m1 * sin (2 * x) + m2 * sin (4 * x) + m3 * sin (6 * x))) phi
    (A * (m0 * 1 + m1 * (2 * cos (2 * phi)) + m2 * (4 * cos (4 * phi)) + m3 * (6 * cos (6 * phi)))).
Proof.
  apply (derivable_pt_lim_scal (fun x => m0 * x + m1 * sin (2 * x) + m2 * sin (4 * x) + m3 * sin (6 * x))).
  apply (derivable_pt_lim_plus (fun x => m0 * x + m1 * sin (2 * x) + m2 * sin (4 * x)) (fun x => m3 * sin (6 * x))).
  - apply (derivable_pt_lim_plus (fun x => m0 * x + m1 * sin (2 * x)) (fun x => m2 * sin (4 * x))).
    + apply (derivable_pt_lim_plus (fun x => m0 * x) (fun x => m1 * sin (2 * x))).
      * apply (derivable_pt_lim_scal (fun x => x)), derivable_pt_lim_id.
      * apply (derivable_pt_lim_scal (fun x => sin (2 * x))), dl_sin_scaled.
    + apply (derivable_pt_lim_scal (fun x => sin (4 * x))), dl_sin_scaled.
  - apply (derivable_pt_lim_scal (fun x => sin (6 * x))), dl_sin_scaled.
Qed.
Lemma cos2 x : cos (2 * x) = 1 - 2 * (sin x * sin x).
Proof. rewrite cos_2a_sin. ring. Qed.
Lemma cos4 x : cos (4 * x) = 1 - 8 * (sin x * sin x) + 8 * (sin x * sin x) ^ 2.
Proof. replace (4 * x) with (2 * (2 * x)) by ring. rewrite cos_2a_cos, cos2. ring. Qed.
Lemma cos6 x : cos (6 * x) = 1 - 18 * (sin x * sin x) + 48 * (sin x * sin x) ^ 2 - 32 * (sin x * sin x) ^ 3.
Proof.
  assert (T : cos (3 * (2 * x)) = 4 * cos (2 * x) ^ 3 - 3 * cos (2 * x)).
  { set (t := 2 * x). replace (3 * t) with (2 * t + t) by ring. rewrite cos_plus, cos_2a_cos, sin_2a.
    pose proof (sin2_cos2 t) as P. unfold Rsqr in P.
    replace (2 * sin t * cos t * sin t) with (2 * cos t * (sin t * sin t)) by ring.
    replace (sin t * sin t) with (1 - cos t * cos t) by lra. ring. }
  replace (6 * x) with (3 * (2 * x)) by ring. rewrite T, cos2. ring.
Qed.
Lemma dl_arc_series phi : derivable_pt_lim arc_series phi (wgs84_axis * arc_rate (sin phi * sin phi)).
Proof.
  unfold arc_series.
  replace (wgs84_axis * arc_rate (sin phi * sin phi)) with
    (wgs84_axis * ((1 - E / 4 - 3 * (E * E) / 64 - 5 * (E * E * E) / 256) * 1 +
      - (3 * E / 8 + 3 * (E * E) / 32 + 45 * (E * E * E) / 1024) * (2 * cos (2 * phi)) +
      (15 * (E * E) / 256 + 45 * (E * E * E) / 1024) * (4 * cos (4 * phi)) +
      - (35 * (E * E * E) / 3072) * (6 * cos (6 * phi)))).
  - apply dl_series.
  - rewrite cos2, cos4, cos6. unfold arc_rate. generalize (sin phi * sin phi). intros y. field.
Qed.
End Series.

(** ** The radius of curvature against its series *)
Lemma cube_bounds x : 0 <= x <= 0.0068 ->
  1 + 3 / 2 * x + 15 / 8 * x ^ 2 + 35 / 16 * x ^ 3 + 12 / 5 * x ^ 4 <= / sqrt (1 - x) ^ 3 <=
  1 + 3 / 2 * x + 15 / 8 * x ^ 2 + 35 / 16 * x ^ 3 + 5 / 2 * x ^ 4.
Proof.
  intros H. set (w := sqrt (1 - x)). assert (W : 0 < w) by (apply sqrt_lt_R0; lra).
  assert (W2 : w * w = 1 - x) by (apply sqrt_sqrt; lra). assert (W3 : 0 < w ^ 3) by (apply pow_lt; exact W).
  assert (S6 : w ^ 3 * w ^ 3 = (1 - x) ^ 3) by (rewrite <- W2; ring).
  assert (P2 : 0 <= x ^ 2) by (apply pow_le; lra). assert (P3 : 0 <= x ^ 3) by (apply pow_le; lra). assert (P4 : 0 <= x ^ 4) by (apply pow_le; lra).
  assert (Lo : forall Q, 0 <= Q -> Q * Q * (1 - x) ^ 3 <= 1 -> Q <= / w ^ 3).
  { intros Q Q0 HQ. rewrite <- S6 in HQ. apply Rmult_le_reg_r with (w ^ 3); [exact W3|]. rewrite Rinv_l by lra.
    set (t := Q * w ^ 3) in *. assert (t * t <= 1) by (unfold t; lra). assert (0 <= t) by (unfold t; apply Rmult_le_pos; lra). nra. }
  assert (Hi : forall Q, 0 <= Q -> 1 <= Q * Q * (1 - x) ^ 3 -> / w ^ 3 <= Q).
  { intros Q Q0 HQ. rewrite <- S6 in HQ. apply Rmult_le_reg_r with (w ^ 3); [exact W3|]. rewrite Rinv_l by lra.
    set (t := Q * w ^ 3) in *. assert (1 <= t * t) by (unfold t; lra). assert (0 <= t) by (unfold t; apply Rmult_le_pos; lra). nra. }
  clearbody w. split; [apply Lo|apply Hi]; try lra.
  - replace (_ * _ * (1 - x) ^ 3) with
      (1 - x ^ 4 * (39 / 320 + x * (837 / 160 + x * (- (2829 / 1280) + x * (- (609 / 1280) + x * (- (1359 / 6400) + x * (- (2783 / 6400) + x * (- (339 / 50) + x * (144 / 25)))))))))
      by field.
    apply Rle_trans with (1 - 0); [|lra]. apply Rplus_le_compat_l, Ropp_le_contravar. apply Rmult_le_pos; [exact P4|]. nra.
  - replace (_ * _ * (1 - x) ^ 3) with
      (1 + x ^ 4 * (5 / 64 + x * (- (177 / 32) + x * (585 / 256 + x * (125 / 256 + x * (55 / 256 + x * (- (25 / 256) + x * (125 / 16 + x * (- (25 / 4))))))))))
      by field.
    apply Rle_trans with (1 + 0); [lra|]. apply Rplus_le_compat_l. apply Rmult_le_pos; [exact P4|]. nra.
Qed.

(** The second and the fourth power, times four thousand million. *)
Lemma rate_close E F y : 0.0066943 <= E <= 0.0066944 -> 0.0066943 <= F <= 0.0066944 ->
  - (1 / 100000000000) <= F - E <= 1 / 100000000000 -> 0 <= y <= 1 ->
  - (7 / 10 ^ 10) <= (1 - F) * / sqrt (1 - F * y) ^ 3 - arc_rate E y <= 7 / 10 ^ 10.
Proof.
  intros HE HF D Hy. assert (X : 0 <= F * y <= 0.0068) by nra.
  destruct (cube_bounds (F * y) X) as (B1 & B2). set (u := / sqrt (1 - F * y) ^ 3) in *. clearbody u.
  set (P := 1 + 3 / 2 * (F * y) + 15 / 8 * (F * y) ^ 2 + 35 / 16 * (F * y) ^ 3) in *.
  assert (Q : (1 - F) * P = arc_rate F y - 35 / 16 * (F ^ 4 * y ^ 3)) by (unfold P, arc_rate; field).
  assert (U : u = P + (u - P)) by ring.
  assert (Y2 : 0 <= y * y <= 1) by nra. assert (Y3 : 0 <= y ^ 3 <= 1) by nra. assert (Y4 : 0 <= y ^ 4 <= 1) by nra.
  assert (F2 : 0.0000448 <= F * F <= 0.0000448151) by nra. assert (F4 : 2 / 10 ^ 9 <= F ^ 4 <= 2.0084 / 10 ^ 9).
  { replace (F ^ 4) with ((F * F) * (F * F)) by ring. set (f := F * F) in *. clearbody f. split; simpl; nra. }
  (* the difference of the rates *)
  assert (R : - (2 / 100000000000) <= arc_rate F y - arc_rate E y <= 2 / 100000000000).
  { replace (arc_rate F y - arc_rate E y) with
      ((F - E) * ((3 / 2 * y - 1) + (F + E) * (15 / 8 * y ^ 2 - 3 / 2 * y) + (F * F + F * E + E * E) * (35 / 16 * y ^ 3 - 15 / 8 * y ^ 2)))
      by (unfold arc_rate; ring).
    set (d := F - E) in *. set (v := _ + _ + _). assert (V : -1.5 <= v <= 1.5).
    { unfold v. assert (-2 <= 15 / 8 * y ^ 2 - 3 / 2 * y <= 2) by (simpl; nra). assert (-3 <= 35 / 16 * y ^ 3 - 15 / 8 * y ^ 2 <= 3) by (split; simpl in *; nra).
      assert (0 <= F + E <= 0.02) by lra. assert (0 <= F * F + F * E + E * E <= 0.02) by nra.
      set (a := F + E) in *. set (b := F * F + F * E + E * E) in *. set (p := 15 / 8 * y ^ 2 - 3 / 2 * y) in *. set (q := 35 / 16 * y ^ 3 - 15 / 8 * y ^ 2) in *.
      clearbody a b p q. assert (-0.04 <= a * p <= 0.04) by nra. assert (-0.06 <= b * q <= 0.06) by nra. lra. }
    clearbody d v. split; nra. }
  (* the remainder *)
  assert (Z : (1 - F) * u - arc_rate F y = (1 - F) * (u - P) - 35 / 16 * (F ^ 4 * y ^ 3)) by (rewrite U at 1; lra).
  replace ((F * y) ^ 4) with (F ^ 4 * y ^ 4) in * by ring.
  assert (M : 2.38 * (F ^ 4 * y ^ 4) <= (1 - F) * (u - P) <= 5 / 2 * (F ^ 4 * y ^ 4)).
  { assert (0 <= F ^ 4 * y ^ 4) by (apply Rmult_le_pos; lra). set (g := F ^ 4 * y ^ 4) in *. set (h := u - P) in *.
    assert (12 / 5 * g <= h <= 5 / 2 * g) by (unfold h; lra). clearbody g h. split; nra. }
  assert (N : -0.3 <= 2.38 * y ^ 4 - 35 / 16 * y ^ 3).
  { pose proof (Rle_0_sqr (y * y - 0.46 * y - 0.1)) as Q1. unfold Rsqr in Q1. simpl. lra. }
  assert (N' : 5 / 2 * y ^ 4 - 35 / 16 * y ^ 3 <= 0.3125) by (simpl; nra).
  set (g := F ^ 4) in *. assert (-0.3 * g <= g * (2.38 * y ^ 4 - 35 / 16 * y ^ 3)) by (clearbody g; nra).
  assert (g * (5 / 2 * y ^ 4 - 35 / 16 * y ^ 3) <= 0.3125 * g) by (clearbody g; nra).
  replace (7 / 10 ^ 10) with (7 / 10000000000) by (simpl; lra). replace (2.0084 / 10 ^ 9) with (2.0084 / 1000000000) in F4 by (simpl; lra).
  split; lra.
Qed.

(** ** The arc against its series *)
Lemma arc_close L phi : is_arc (ecc2_of wgs84_flattening) L -> - (PI / 2) <= phi <= PI / 2 ->
  Rabs (arc_series code_e2 phi - L phi) <= 9 / 1000.
Proof.
  intros (L0 & HL) H. set (F := ecc2_of wgs84_flattening) in *.
  set (h := fun x => arc_series code_e2 x - L x).
  set (h' := fun x => wgs84_axis * arc_rate code_e2 (sin x * sin x) - meridian_radius F x).
  assert (D : forall c, Rmin 0 phi <= c <= Rmax 0 phi -> derivable_pt_lim h c (h' c)).
  { intros c Hc. assert (- (PI / 2) <= c <= PI / 2).
    { pose proof PI_RGT_0. unfold Rmin, Rmax in Hc. destruct (Rle_dec 0 phi); lra. }
    apply (derivable_pt_lim_minus (arc_series code_e2) L); [apply dl_arc_series|apply HL; assumption]. }
  destruct (MVT_abs h h' 0 phi D) as (c & Hc & _).
  assert (H0 : h 0 = 0) by (unfold h, arc_series; rewrite L0, !Rmult_0_r, sin_0; ring).
  rewrite H0, !Rminus_0_r in Hc. change (arc_series code_e2 phi - L phi) with (h phi). rewrite Hc.
  assert (B : Rabs (h' c) <= 45 / 10000).
  { unfold h', meridian_radius. assert (S : 0 <= sin c * sin c <= 1).
    { split; [nra|]. pose proof (sin2_cos2 c) as S. unfold Rsqr in S. nra. }
    destruct (rate_close code_e2 F (sin c * sin c) code_e2_bounds wgs_e2_bounds code_e2_close S) as (A1 & A2).
    unfold Rdiv at 1. set (u := / sqrt _ ^ 3) in *. set (q := arc_rate _ _) in *.
    replace (wgs84_axis * q - wgs84_axis * (1 - F) * u) with (- (wgs84_axis * ((1 - F) * u - q))) by ring.
    rewrite Rabs_Ropp. set (d := (1 - F) * u - q) in *. clearbody d. unfold wgs84_axis.
    replace (7 / 10 ^ 10) with (7 / 10000000000) in * by (simpl; lra). apply Rabs_le. split; lra. }
  assert (P : Rabs phi <= 2) by (apply Rabs_le; pose proof PI_4; lra).
  pose proof (Rabs_pos (h' c)). pose proof (Rabs_pos phi). nra.
Qed.

(** The northing on a central meridian. *)
Lemma northing_meridian k lat :
  snd (utm lat (IZR (6 * k + 3))) = false_northing lat + 0.9996 * arc_series code_e2 (rad lat).
Proof.
  unfold utm, UTM. cbv zeta. rewrite (meridian_in k (IZR (6 * k + 3))) by (rewrite !plus_IZR; lra).
  cbn [fst snd RScalar s_add s_mul s_sub s_div s_opp s_ofZ s_sin s_cos s_sqrt s_ltb powerRZ].
  rewrite rpd_R, k0_R, axis_R. unfold UTM_E6, UTM_E4. rewrite e2_R. cbn [RScalar s_mul].
  change (Pos.to_nat 4) with 4%nat. change (Pos.to_nat 6) with 6%nat.
  assert (FN : (if Rltb 0 lat then @UTM_FN_N RScalar else @UTM_FN_S RScalar) = false_northing lat).
  { unfold false_northing, Rltb. destruct (Rlt_dec 0 lat); [unfold UTM_FN_N|unfold UTM_FN_S]; rewrite lit_R; cbn; lra. }
  rewrite FN. unfold arc_series, rad. set (ph := lat * (PI / 180)).
  replace (IZR (6 * k + 3) * (PI / 180) - IZR (6 * k + 3) * (PI / 180)) with 0 by ring. rewrite Rmult_0_l.
  rewrite !Rmult_0_l. simpl (0 ^ 4). simpl (0 ^ 6). unfold Rdiv. rewrite !Rmult_0_l, !Rmult_0_r, !Rmult_0_l, !Rplus_0_r, !Rmult_0_r, !Rplus_0_r.
  reflexivity.
Qed.

Theorem utm_arc k lat L : is_arc (ecc2_of wgs84_flattening) L -> -90 <= lat <= 90 ->
  Rabs (snd (utm lat (IZR (6 * k + 3))) - (false_northing lat + 0.9996 * L (rad lat))) <= 1 / 100.
Proof.
  intros HL H. rewrite northing_meridian. assert (A : - (PI / 2) <= rad lat <= PI / 2) by (unfold rad; pose proof PI_RGT_0; nra).
  pose proof (arc_close L (rad lat) HL A) as C.
  replace (_ - _) with (0.9996 * (arc_series code_e2 (rad lat) - L (rad lat))) by ring.
  rewrite Rabs_mult, (Rabs_right 0.9996) by lra. pose proof (Rabs_pos (arc_series code_e2 (rad lat) - L (rad lat))). lra.
Qed.

(** ** The northing grows along the meridian *)
Lemma rate_bounds y : 0 <= y <= 1 -> 0.9933 <= arc_rate code_e2 y <= 1.0034.
Proof.
  intros H. pose proof code_e2_bounds as B. unfold arc_rate. set (E := code_e2) in *. clearbody E.
  assert (Y2 : 0 <= y ^ 2 <= 1) by (simpl; nra). assert (Y3 : 0 <= y ^ 3 <= 1) by (simpl in *; nra).
  assert (E2 : 0 <= E * E <= 0.000045) by nra. assert (E3 : 0 <= E * E * E <= 0.00000031) by nra.
  assert (A1 : 0 <= E * y <= 0.0066944) by nra.
  assert (A2 : 0 <= E * E * y ^ 2 <= 0.000045) by nra. assert (A3 : 0 <= E * E * y <= 0.000045) by nra.
  assert (A4 : 0 <= E * E * E * y ^ 3 <= 0.00000031) by nra. assert (A5 : 0 <= E * E * E * y ^ 2 <= 0.00000031) by nra.
  assert (A6 : 0 <= E * (1 - y) ) by nra.
  assert (A7 : E * E * y <= 0.0067 * (E * y)) by nra.
  split; [lra|].
  assert (E * E * y ^ 2 <= E * E * y) by (simpl; nra). lra.
Qed.
Theorem utm_monotone k lat1 lat2 : -90 <= lat1 < lat2 -> lat2 <= 90 -> (0 < lat1 \/ lat2 <= 0) ->
  0.9996 * 6335000 * (rad lat2 - rad lat1) <= snd (utm lat2 (IZR (6 * k + 3))) - snd (utm lat1 (IZR (6 * k + 3))) <=
  0.9996 * 6400000 * (rad lat2 - rad lat1).
Proof.
  intros H H2 S. rewrite !northing_meridian.
  assert (F : false_northing lat1 = false_northing lat2) by (unfold false_northing; destruct (Rlt_dec 0 lat1), (Rlt_dec 0 lat2); lra).
  rewrite F. assert (L : rad lat1 < rad lat2) by (unfold rad; pose proof PI_RGT_0; nra).
  destruct (MVT_cor2 (arc_series code_e2) (fun x => wgs84_axis * arc_rate code_e2 (sin x * sin x)) (rad lat1) (rad lat2) L) as (c & Hc & _).
  { intros. apply dl_arc_series. }
  assert (Y : 0 <= sin c * sin c <= 1).
  { split; [nra|]. pose proof (sin2_cos2 c) as Q. unfold Rsqr in Q. nra. }
  destruct (rate_bounds _ Y) as (R1 & R2). set (q := arc_rate _ _) in *. clearbody q.
  set (u := rad lat2 - rad lat1) in *. assert (U : 0 < u) by (unfold u; lra).
  replace (_ - _) with (0.9996 * (arc_series code_e2 (rad lat2) - arc_series code_e2 (rad lat1))) by ring. rewrite Hc.
  unfold wgs84_axis. clearbody u. split; nra.
Qed.

(** ** The two hemispheres mirror each other *)
Theorem utm_mirror lat lon : 0 < lat ->
  fst (utm (- lat) lon) = fst (utm lat lon) /\ snd (utm (- lat) lon) = 10000000 - snd (utm lat lon).
Proof.
  intros H. unfold utm, UTM. cbv zeta.
  cbn [fst snd RScalar s_add s_mul s_sub s_div s_opp s_ofZ s_sin s_cos s_sqrt s_ltb powerRZ].
  change (Pos.to_nat 3) with 3%nat. change (Pos.to_nat 4) with 4%nat. change (Pos.to_nat 5) with 5%nat. change (Pos.to_nat 6) with 6%nat.
  assert (F1 : (if Rltb 0 lat then @UTM_FN_N RScalar else @UTM_FN_S RScalar) = 0).
  { unfold Rltb. destruct (Rlt_dec 0 lat); [|lra]. unfold UTM_FN_N; rewrite lit_R; cbn; lra. }
  assert (F2 : (if Rltb 0 (- lat) then @UTM_FN_N RScalar else @UTM_FN_S RScalar) = 10000000).
  { unfold Rltb. destruct (Rlt_dec 0 (- lat)); [lra|]. unfold UTM_FN_S; rewrite lit_R; cbn; lra. }
  rewrite F1, F2. set (r := @RADIANS_PER_DEGREE RScalar). change (- lat)%R with (Ropp lat).
  rewrite !Ropp_mult_distr_l_reverse. rewrite !Ropp_mult_distr_r_reverse. rewrite !sin_neg, !cos_neg, tan_neg.
  set (s := sin (lat * r)). replace (1 - @UTM_E2 RScalar * - s * - s) with (1 - @UTM_E2 RScalar * s * s) by ring.
  set (q := sqrt _). set (cl := cos _). set (tl := tan _). set (cm := IZR (@central_meridian RScalar lon)).
  set (s2 := sin _). set (s4 := sin (4 * _)). set (s6 := sin (6 * _)).
  set (K0 := @UTM_K0 RScalar). set (A0 := @WGS84_A RScalar). set (E2 := @UTM_E2 RScalar). set (E4 := @UTM_E4 RScalar). set (E6 := @UTM_E6 RScalar). set (EP := @UTM_EP2 RScalar).
  set (FE := @UTM_FE RScalar). unfold Rdiv. set (iq := / q). clearbody iq cl tl K0 A0 E2 E4 E6 EP FE r cm s2 s4 s6.
  split; ring.
Qed.
