(** * The UTM conversion is the series of the transverse Mercator projection (C103) *)

From Coq Require Import Reals ZArith Lia Lra Psatz List.
From Verif Require Import Scalar RBridge Conversions ConversionsProofs SpecUtm UtmArc.
Import ListNotations.
Local Open Scope R_scope.

(** ** Polynomials in sine and cosine *)
(** A term is a factor and the powers of the sine and the cosine. *)
Definition term : Type := R * nat * nat.
Definition t_ev (t : term) (x : R) : R := let '(k, i, j) := t in k * (sin x ^ i * cos x ^ j).
Definition t_dv (t : term) (x : R) : R :=
  let '(k, i, j) := t in
  k * (INR i * sin x ^ pred i * cos x * cos x ^ j + sin x ^ i * (INR j * cos x ^ pred j * - sin x)).
Definition p_ev (p : list term) (x : R) : R := fold_right (fun t s => t_ev t x + s) 0 p.
Definition p_dv (p : list term) (x : R) : R := fold_right (fun t s => t_dv t x + s) 0 p.

Lemma dl_pow_of f n x l : derivable_pt_lim f x l -> derivable_pt_lim (fun y => f y ^ n) x (INR n * f x ^ pred n * l).
Proof. intros H. apply (derivable_pt_lim_comp f (fun y => y ^ n)); [exact H|apply derivable_pt_lim_pow]. Qed.
Lemma dl_term t x : derivable_pt_lim (t_ev t) x (t_dv t x).
Proof.
  destruct t as ((k & i) & j). cbn [t_dv].
  apply (derivable_pt_lim_scal (fun y => sin y ^ i * cos y ^ j)).
  apply (derivable_pt_lim_mult (fun y => sin y ^ i) (fun y => cos y ^ j)).
  - apply (dl_pow_of sin), derivable_pt_lim_sin.
  - apply (dl_pow_of cos), derivable_pt_lim_cos.
Qed.
Lemma dl_poly p x : derivable_pt_lim (p_ev p) x (p_dv p x).
Proof.
  induction p as [|t p IH]; cbn [p_dv fold_right].
  - apply (derivable_pt_lim_const 0).
  - apply (derivable_pt_lim_plus (t_ev t) (p_ev p)); [apply dl_term|exact IH].
Qed.

(** ** The radii *)
Section Ellipsoid.
Variable E : R.
Hypothesis HE : 0 <= E < 1.

Lemma sin_sq x : 0 <= sin x * sin x <= 1.
Proof. split; [nra|]. pose proof (sin2_cos2 x) as S. unfold Rsqr in S. nra. Qed.
Lemma under_root x : 0 < 1 - E * (sin x * sin x).
Proof. pose proof (sin_sq x). nra. Qed.
Definition root x := sqrt (1 - E * (sin x * sin x)).
Lemma root_pos x : 0 < root x.
Proof. apply sqrt_lt_R0, under_root. Qed.
Lemma root_sq x : root x * root x = 1 - E * (sin x * sin x).
Proof. apply sqrt_sqrt. left. apply under_root. Qed.
Lemma dl_root x : derivable_pt_lim root x (- (E * sin x * cos x) / root x).
Proof.
  replace (- (E * sin x * cos x) / root x) with (/ (2 * root x) * (0 - E * (cos x * sin x + sin x * cos x)))
    by (pose proof (root_pos x); field; lra).
  apply (derivable_pt_lim_comp (fun y => 1 - E * (sin y * sin y)) sqrt).
  - apply (derivable_pt_lim_minus (fun _ => 1) (fun y => E * (sin y * sin y))); [apply (derivable_pt_lim_const 1)|].
    apply (derivable_pt_lim_scal (fun y => sin y * sin y)). apply (derivable_pt_lim_mult sin sin); apply derivable_pt_lim_sin.
  - apply derivable_pt_lim_sqrt, under_root.
Qed.
Lemma dl_cross x : derivable_pt_lim (cross_radius E) x (wgs84_axis * (E * sin x * cos x) / root x ^ 3).
Proof.
  pose proof (root_pos x) as P.
  replace (wgs84_axis * (E * sin x * cos x) / root x ^ 3) with
    ((0 * root x - - (E * sin x * cos x) / root x * wgs84_axis) / Rsqr (root x)) by (unfold Rsqr; field; lra).
  apply (derivable_pt_lim_div (fun _ => wgs84_axis) root x); [apply (derivable_pt_lim_const wgs84_axis)|apply dl_root|lra].
Qed.

(** ** One step of the series *)
Notation ep := (second_ecc E).
Definition p_next (p : list term) (x : R) : R :=
  cos x * ((1 + ep * cos x ^ 2) * p_dv p x + ep * sin x * cos x * p_ev p x).

Lemma step_derivative p x : cos x <> 0 ->
  derivable_pt_lim (fun y => cross_radius E y * p_ev p y) x
    (cross_radius E x * p_next p x * (meridian_radius E x / (cross_radius E x * cos x))).
Proof.
  intros C. pose proof (root_pos x) as P. pose proof (root_sq x) as Q.
  replace (cross_radius E x * p_next p x * (meridian_radius E x / (cross_radius E x * cos x))) with
    (wgs84_axis * (E * sin x * cos x) / root x ^ 3 * p_ev p x + cross_radius E x * p_dv p x).
  - apply (derivable_pt_lim_mult (cross_radius E) (p_ev p)); [apply dl_cross|apply dl_poly].
  - unfold p_next, meridian_radius, cross_radius, second_ecc. fold (root x). set (w := root x) in *. clearbody w.
    set (a := p_ev p x). set (b := p_dv p x). clearbody a b.
    assert (S2 : cos x ^ 2 = 1 - sin x * sin x) by (pose proof (sin2_cos2 x) as S; unfold Rsqr in S; simpl; lra).
    assert (W2 : (1 - E) + E * cos x ^ 2 = w * w) by (rewrite S2, Q; ring).
    set (c := cos x) in *. set (s := sin x) in *. clearbody c s.
    replace (1 + E / (1 - E) * c ^ 2) with (w * w / (1 - E)) by (rewrite <- W2; field; lra).
    unfold wgs84_axis. field. repeat split; lra.
Qed.
Lemma cos_inside x : - (PI / 2) < x < PI / 2 -> cos x <> 0.
Proof. intros H. pose proof (cos_gt_0 x ltac:(lra) ltac:(lra)). lra. Qed.
Lemma radii_pos x : - (PI / 2) < x < PI / 2 -> 0 < meridian_radius E x / (cross_radius E x * cos x).
Proof.
  intros H. pose proof (root_pos x) as P. unfold meridian_radius, cross_radius. fold (root x).
  pose proof (cos_gt_0 x ltac:(lra) ltac:(lra)). unfold wgs84_axis.
  apply Rdiv_lt_0_compat.
  - apply Rdiv_lt_0_compat; [lra|apply pow_lt; exact P].
  - apply Rmult_lt_0_compat; [apply Rdiv_lt_0_compat; lra|assumption].
Qed.
(** Every derivative with respect to the isometric latitude is the computed one. *)
Lemma step_unique f g p : (forall x, - (PI / 2) < x < PI / 2 -> f x = cross_radius E x * p_ev p x) -> conformal_next E f g ->
  forall x, - (PI / 2) < x < PI / 2 -> g x = cross_radius E x * p_next p x.
Proof.
  intros F N x H. pose proof (N x H) as D. pose proof (step_derivative p x (cos_inside x H)) as D'.
  assert (D'' : derivable_pt_lim f x (cross_radius E x * p_next p x * (meridian_radius E x / (cross_radius E x * cos x)))).
  { apply (derivable_pt_lim_locally_ext (fun y => cross_radius E y * p_ev p y) f x (- (PI / 2)) (PI / 2)); [exact H| |exact D'].
    intros z Hz. symmetry. apply F. exact Hz. }
  pose proof (uniqueness_limite f x _ _ D D'') as U. pose proof (radii_pos x H) as R.
  apply Rmult_eq_reg_r in U; [exact U|lra].
Qed.
Lemma step_exists f p : (forall x, - (PI / 2) < x < PI / 2 -> f x = cross_radius E x * p_ev p x) ->
  conformal_next E f (fun x => cross_radius E x * p_next p x).
Proof.
  intros F x H. apply (derivable_pt_lim_locally_ext (fun y => cross_radius E y * p_ev p y) f x (- (PI / 2)) (PI / 2)); [exact H| |].
  - intros z Hz. symmetry. apply F. exact Hz.
  - apply step_derivative, cos_inside. exact H.
Qed.

(** ** The coefficients *)
Definition coef_1 : list term :=
  [(1, 0%nat, 1%nat)].
Definition coef_2 : list term :=
  [(-1, 1%nat, 1%nat)].
Definition coef_3 : list term :=
  [(-1, 0%nat, 3%nat); (1, 2%nat, 1%nat); (-1 * ep, 0%nat, 5%nat)].
Definition coef_4 : list term :=
  [(5, 1%nat, 3%nat); (-1, 3%nat, 1%nat); (9 * ep, 1%nat, 5%nat); (4 * ep ^ 2, 1%nat, 7%nat)].
Definition coef_5 : list term :=
  [(5, 0%nat, 5%nat); (-18, 2%nat, 3%nat); (1, 4%nat, 1%nat); (14 * ep, 0%nat, 7%nat); (-58 * ep, 2%nat, 5%nat); (13 * ep ^ 2, 0%nat, 9%nat); (-64 * ep ^ 2, 2%nat, 7%nat); (4 * ep ^ 3, 0%nat, 11%nat); (-24 * ep ^ 3, 2%nat, 9%nat)].
Definition coef_6 : list term :=
  [(-61, 1%nat, 5%nat); (58, 3%nat, 3%nat); (-1, 5%nat, 1%nat); (-270 * ep, 1%nat, 7%nat); (330 * ep, 3%nat, 5%nat); (-445 * ep ^ 2, 1%nat, 9%nat); (680 * ep ^ 2, 3%nat, 7%nat); (-324 * ep ^ 3, 1%nat, 11%nat); (600 * ep ^ 3, 3%nat, 9%nat); (-88 * ep ^ 4, 1%nat, 13%nat); (192 * ep ^ 4, 3%nat, 11%nat)].

Lemma next_1 x : p_next coef_1 x = p_ev coef_2 x.
Proof.
  unfold p_next, coef_1, coef_2. cbn [p_ev p_dv fold_right t_ev t_dv INR pred pow]. generalize (sin x) (cos x) ep. intros s c e. ring.
Qed.
Lemma next_2 x : p_next coef_2 x = p_ev coef_3 x.
Proof.
  unfold p_next, coef_2, coef_3. cbn [p_ev p_dv fold_right t_ev t_dv INR pred pow]. generalize (sin x) (cos x) ep. intros s c e. ring.
Qed.
Lemma next_3 x : p_next coef_3 x = p_ev coef_4 x.
Proof.
  unfold p_next, coef_3, coef_4. cbn [p_ev p_dv fold_right t_ev t_dv INR pred pow]. generalize (sin x) (cos x) ep. intros s c e. ring.
Qed.
Lemma next_4 x : p_next coef_4 x = p_ev coef_5 x.
Proof.
  unfold p_next, coef_4, coef_5. cbn [p_ev p_dv fold_right t_ev t_dv INR pred pow]. generalize (sin x) (cos x) ep. intros s c e. ring.
Qed.
Lemma next_5 x : p_next coef_5 x = p_ev coef_6 x.
Proof.
  unfold p_next, coef_5, coef_6. cbn [p_ev p_dv fold_right t_ev t_dv INR pred pow]. generalize (sin x) (cos x) ep. intros s c e. ring.
Qed.

Lemma arc_first L a1 : is_arc E L -> conformal_next E L a1 ->
  forall x, - (PI / 2) < x < PI / 2 -> a1 x = cross_radius E x * p_ev coef_1 x.
Proof.
  intros (_ & HL) N x H. pose proof (uniqueness_limite L x _ _ (N x H) (HL x ltac:(lra))) as U. pose proof (radii_pos x H) as R.
  pose proof (root_pos x) as P. pose proof (cos_inside x H) as C. pose proof (cos_gt_0 x ltac:(lra) ltac:(lra)) as C0.
  unfold coef_1. cbn [p_ev fold_right t_ev pow].
  apply Rmult_eq_reg_r with (meridian_radius E x / (cross_radius E x * cos x)); [|lra]. rewrite U.
  assert (0 < cross_radius E x) by (unfold cross_radius; fold (root x); unfold wgs84_axis; apply Rdiv_lt_0_compat; lra).
  field. split; lra.
Qed.

Theorem coefficients a1 a2 a3 a4 a5 a6 : tm_series E a1 a2 a3 a4 a5 a6 ->
  forall x, - (PI / 2) < x < PI / 2 ->
    a1 x = cross_radius E x * p_ev coef_1 x /\ a2 x = cross_radius E x * p_ev coef_2 x /\ a3 x = cross_radius E x * p_ev coef_3 x /\
    a4 x = cross_radius E x * p_ev coef_4 x /\ a5 x = cross_radius E x * p_ev coef_5 x /\ a6 x = cross_radius E x * p_ev coef_6 x.
Proof.
  intros [(L & HL & N1) N2 N3 N4 N5 N6]. pose proof (arc_first L a1 HL N1) as F1.
  pose proof (step_unique _ _ _ F1 N2) as F2. setoid_rewrite next_1 in F2.
  pose proof (step_unique _ _ _ F2 N3) as F3. setoid_rewrite next_2 in F3.
  pose proof (step_unique _ _ _ F3 N4) as F4. setoid_rewrite next_3 in F4.
  pose proof (step_unique _ _ _ F4 N5) as F5. setoid_rewrite next_4 in F5.
  pose proof (step_unique _ _ _ F5 N6) as F6. setoid_rewrite next_5 in F6.
  intros x H. repeat split; [apply F1|apply F2|apply F3|apply F4|apply F5|apply F6]; exact H.
Qed.

(** ** The series exists *)
Lemma continuous_radius x : continuity_pt (meridian_radius E) x.
Proof.
  unfold meridian_radius. apply (continuity_pt_div (fun _ => wgs84_axis * (1 - E)) (fun y => root y ^ 3)).
  - apply derivable_continuous_pt. exists 0. apply (derivable_pt_lim_const (wgs84_axis * (1 - E))).
  - apply derivable_continuous_pt. exists (INR 3 * root x ^ pred 3 * (- (E * sin x * cos x) / root x)). apply (dl_pow_of root), dl_root.
  - pose proof (root_pos x). apply pow_nonzero. lra.
Qed.
Lemma arc_exists : exists L, is_arc E L.
Proof.
  assert (h : -2 <= 2) by lra.
  assert (C0 : forall x, -2 <= x <= 2 -> continuity_pt (meridian_radius E) x) by (intros; apply continuous_radius).
  set (G := primitive h (FTC_P1 h C0)). exists (fun x => G x - G 0). split; [ring|]. intros x H.
  replace (meridian_radius E x) with (meridian_radius E x - 0) by ring.
  apply (derivable_pt_lim_minus G (fun _ => G 0)); [|apply (derivable_pt_lim_const (G 0))].
  apply RiemannInt_P28. pose proof PI_4. lra.
Qed.
Lemma series_exists : exists a1 a2 a3 a4 a5 a6, tm_series E a1 a2 a3 a4 a5 a6.
Proof.
  exists (fun x => cross_radius E x * p_ev coef_1 x), (fun x => cross_radius E x * p_next coef_1 x), (fun x => cross_radius E x * p_next coef_2 x),
    (fun x => cross_radius E x * p_next coef_3 x), (fun x => cross_radius E x * p_next coef_4 x), (fun x => cross_radius E x * p_next coef_5 x).
  split; try (apply step_exists; intros; rewrite ?next_1, ?next_2, ?next_3, ?next_4; reflexivity).
  destruct arc_exists as (L & HL). exists L. split; [exact HL|]. intros x H. destruct HL as (_ & HL).
  replace (_ * (_ / _)) with (meridian_radius E x); [apply HL; lra|].
  pose proof (root_pos x) as P. pose proof (cos_gt_0 x ltac:(lra) ltac:(lra)) as C0.
  unfold coef_1. cbn [p_ev fold_right t_ev pow].
  assert (0 < cross_radius E x) by (unfold cross_radius; fold (root x); unfold wgs84_axis; apply Rdiv_lt_0_compat; lra).
  field. split; lra.
Qed.
End Ellipsoid.

Lemma code_e2_unit : 0 <= code_e2 < 1.
Proof. pose proof code_e2_bounds. lra. Qed.

(** ** The conversion *)
Notation ep := (second_ecc code_e2).
Theorem utm_series k lat d a1 a2 a3 a4 a5 a6 : tm_series code_e2 a1 a2 a3 a4 a5 a6 -> -90 < lat < 90 -> -3 < d < 3 ->
  let p := rad lat in let l := rad d in let V := cross_radius code_e2 p in
  fst (utm lat (IZR (6 * k + 3) + d)) =
    500000 + 0.9996 * (a1 p * l - a3 p * l ^ 3 / 6 + (a5 p - V * high_5 ep p) * l ^ 5 / 120) /\
  snd (utm lat (IZR (6 * k + 3) + d)) =
    snd (utm lat (IZR (6 * k + 3))) +
    0.9996 * (- (a2 p * l ^ 2 / 2) + a4 p * l ^ 4 / 24 - (a6 p - V * high_6 ep p) * l ^ 6 / 720).
Proof.
  intros HT HL HD p l V. assert (IN : - (PI / 2) < p < PI / 2) by (unfold p, rad; pose proof PI_RGT_0; nra).
  destruct (coefficients code_e2 code_e2_unit _ _ _ _ _ _ HT p IN) as (-> & -> & -> & -> & -> & ->). fold V.
  pose proof (cos_inside p IN) as C.
  rewrite northing_meridian. unfold utm, UTM. cbv zeta. rewrite (meridian_in k (IZR (6 * k + 3) + d)) by (rewrite !plus_IZR; lra).
  cbn [fst snd RScalar s_add s_mul s_sub s_div s_opp s_ofZ s_sin s_cos s_sqrt s_ltb powerRZ].
  rewrite rpd_R, k0_R, axis_R, fe_R, ep_R. unfold UTM_E6, UTM_E4. rewrite e2_R. cbn [RScalar s_mul].
  change (Pos.to_nat 3) with 3%nat. change (Pos.to_nat 4) with 4%nat. change (Pos.to_nat 5) with 5%nat. change (Pos.to_nat 6) with 6%nat.
  assert (FN : (if Rltb 0 lat then @UTM_FN_N RScalar else @UTM_FN_S RScalar) = false_northing lat).
  { unfold false_northing, Rltb. destruct (Rlt_dec 0 lat); [unfold UTM_FN_N|unfold UTM_FN_S]; rewrite lit_R; cbn; lra. }
  rewrite FN. clear FN. fold (rad lat). fold p.
  replace ((IZR (6 * k + 3) + d) * (PI / 180) - IZR (6 * k + 3) * (PI / 180)) with l by (unfold l, rad; ring).
  unfold arc_series. replace (1 - code_e2 * sin p * sin p) with (1 - code_e2 * (sin p * sin p)) by ring. fold (cross_radius code_e2 p). fold V.
  change (code_e2 / (1 - code_e2)) with ep. unfold tan.
  assert (O : sin p * sin p + cos p * cos p = 1) by (pose proof (sin2_cos2 p) as S; unfold Rsqr in S; lra).
  replace (58 * ep) with (58 * ep * (sin p * sin p + cos p * cos p)) by (rewrite O; ring).
  replace (330 * ep) with (330 * ep * (sin p * sin p + cos p * cos p)) by (rewrite O; ring). clear O.
  set (M := wgs84_axis * _). unfold high_5, high_6, coef_1, coef_2, coef_3, coef_4, coef_5, coef_6.
  cbn [p_ev fold_right t_ev].
  clearbody V M l. generalize ep. intros e. generalize dependent (cos p). generalize (sin p) (false_northing lat). intros s fn c C. clear - C.
  split; field; exact C.
Qed.

(** ** The size of the dropped terms *)
Lemma pow_unit x n : -1 <= x <= 1 -> -1 <= x ^ n <= 1.
Proof. intros H. induction n as [|n IH]; cbn [pow]; [lra|]. set (y := x ^ n) in *. clearbody y. nra. Qed.
Lemma mul_unit x y : -1 <= x <= 1 -> -1 <= y <= 1 -> -1 <= x * y <= 1.
Proof. nra. Qed.
Lemma ep_bounds : 0 <= ep <= 0.00674.
Proof.
  unfold second_ecc. pose proof code_e2_bounds. split.
  - apply Rmult_le_pos; [lra|]. left. apply Rinv_0_lt_compat. lra.
  - apply Rmult_le_reg_r with (1 - code_e2); [lra|]. unfold Rdiv. rewrite Rmult_assoc, Rinv_l by lra. lra.
Qed.
Lemma high_small x : Rabs (high_5 ep x) <= 0.0036 /\ Rabs (high_6 ep x) <= 0.052.
Proof.
  destruct ep_bounds as (E0 & E1). set (e := ep) in *. clearbody e. unfold high_5, high_6.
  assert (S := SIN_bound x). assert (C := COS_bound x). set (s := sin x) in *. set (c := cos x) in *. clearbody s c.
  assert (U : forall i j, -1 <= c ^ i * s ^ j <= 1) by (intros; apply mul_unit; apply pow_unit; lra).
  assert (e2 : 0 <= e ^ 2 <= 0.0000454276) by (simpl; nra). assert (e3 : 0 <= e ^ 3 <= 0.00000031) by (simpl in *; nra).
  assert (e4 : 0 <= e ^ 4 <= 0.0000000021) by (simpl in *; nra).
  assert (M : forall a b u v B, 0 <= u <= B -> -1 <= v <= 1 -> -1 <= b <= 1 -> 0 <= a -> - (a * B) <= u * (a * v) <= a * B).
  { clear. intros a b u v B Hu Hv _ Ha. assert (- B <= u * v <= B) by nra. replace (u * (a * v)) with (a * (u * v)) by ring. nra. }
  pose proof (U 9 0)%nat as A1. pose proof (U 7 2)%nat as A2. pose proof (U 11 0)%nat as A3. pose proof (U 9 2)%nat as A4.
  pose proof (U 7 3)%nat as B1. pose proof (U 9 1)%nat as B2. pose proof (U 9 3)%nat as B3. pose proof (U 11 1)%nat as B4. pose proof (U 11 3)%nat as B5. pose proof (U 13 1)%nat as B6.
  assert (O : -1 <= 0 <= 1) by lra.
  pose proof (M 13 0 _ _ _ e2 A1 O ltac:(lra)). pose proof (M 64 0 _ _ _ e2 A2 O ltac:(lra)).
  pose proof (M 4 0 _ _ _ e3 A3 O ltac:(lra)). pose proof (M 24 0 _ _ _ e3 A4 O ltac:(lra)).
  pose proof (M 680 0 _ _ _ e2 B1 O ltac:(lra)). pose proof (M 445 0 _ _ _ e2 B2 O ltac:(lra)).
  pose proof (M 600 0 _ _ _ e3 B3 O ltac:(lra)). pose proof (M 324 0 _ _ _ e3 B4 O ltac:(lra)).
  pose proof (M 192 0 _ _ _ e4 B5 O ltac:(lra)). pose proof (M 88 0 _ _ _ e4 B6 O ltac:(lra)).
  split; apply Rabs_le.
  - replace (e ^ 2 * (13 * c ^ 9 - 64 * c ^ 7 * s ^ 2) + e ^ 3 * (4 * c ^ 11 - 24 * c ^ 9 * s ^ 2)) with
      (e ^ 2 * (13 * (c ^ 9 * s ^ 0)) - e ^ 2 * (64 * (c ^ 7 * s ^ 2)) + e ^ 3 * (4 * (c ^ 11 * s ^ 0)) - e ^ 3 * (24 * (c ^ 9 * s ^ 2))) by ring. lra.
  - replace (e ^ 2 * (680 * c ^ 7 * s ^ 3 - 445 * c ^ 9 * s) + e ^ 3 * (600 * c ^ 9 * s ^ 3 - 324 * c ^ 11 * s) + e ^ 4 * (192 * c ^ 11 * s ^ 3 - 88 * c ^ 13 * s)) with
      (e ^ 2 * (680 * (c ^ 7 * s ^ 3)) - e ^ 2 * (445 * (c ^ 9 * s ^ 1)) + e ^ 3 * (600 * (c ^ 9 * s ^ 3)) - e ^ 3 * (324 * (c ^ 11 * s ^ 1)) +
       e ^ 4 * (192 * (c ^ 11 * s ^ 3)) - e ^ 4 * (88 * (c ^ 13 * s ^ 1))) by ring. lra.
Qed.
Lemma cross_bounds x : 0 < cross_radius code_e2 x <= 6400000.
Proof.
  pose proof code_e2_bounds. pose proof (sin_sq x) as S. unfold cross_radius, wgs84_axis.
  assert (W : 0.9966 <= sqrt (1 - code_e2 * (sin x * sin x))).
  { rewrite <- (sqrt_square 0.9966) by lra. apply sqrt_le_1_alt. nra. }
  split; [apply Rdiv_lt_0_compat; lra|]. apply Rmult_le_reg_r with (sqrt (1 - code_e2 * (sin x * sin x))); [lra|].
  unfold Rdiv. rewrite Rmult_assoc, Rinv_l by lra. lra.
Qed.
Lemma small_angle d : -3 < d < 3 -> Rabs (rad d) <= 1 / 15.
Proof. intros H. unfold rad. apply Rabs_le. pose proof PI_RGT_0. pose proof PI_4. nra. Qed.
Lemma tail_small V h l n B : 0 < V <= 6400000 -> Rabs h <= B -> Rabs l <= 1 / 15 -> Rabs (V * h * l ^ n) <= 6400000 * B * (1 / 15) ^ n.
Proof.
  intros HV HB HL. rewrite !Rabs_mult, (Rabs_right V), <- RPow_abs by lra.
  apply Rmult_le_compat; [apply Rmult_le_pos; [lra|apply Rabs_pos]|apply pow_le, Rabs_pos| |].
  - apply Rmult_le_compat; try lra. apply Rabs_pos.
  - apply pow_incr. split; [apply Rabs_pos|exact HL].
Qed.
Theorem utm_close k lat d a1 a2 a3 a4 a5 a6 : tm_series code_e2 a1 a2 a3 a4 a5 a6 -> -90 < lat < 90 -> -3 < d < 3 ->
  let p := rad lat in let l := rad d in
  Rabs (fst (utm lat (IZR (6 * k + 3) + d)) - (500000 + 0.9996 * (a1 p * l - a3 p * l ^ 3 / 6 + a5 p * l ^ 5 / 120))) <= 3 / 10000 /\
  Rabs (snd (utm lat (IZR (6 * k + 3) + d)) - (snd (utm lat (IZR (6 * k + 3))) +
    0.9996 * (- (a2 p * l ^ 2 / 2) + a4 p * l ^ 4 / 24 - a6 p * l ^ 6 / 720))) <= 3 / 10000.
Proof.
  intros HT HL HD p l. destruct (utm_series k lat d _ _ _ _ _ _ HT HL HD) as (-> & ->). fold p l.
  destruct (high_small p) as (H5 & H6). pose proof (cross_bounds p) as HV. pose proof (small_angle d HD) as Hl. fold l in Hl.
  pose proof (tail_small _ _ l 5 _ HV H5 Hl) as T5. pose proof (tail_small _ _ l 6 _ HV H6 Hl) as T6.
  set (V := cross_radius code_e2 p) in *. set (h5 := high_5 ep p) in *. set (h6 := high_6 ep p) in *.
  replace ((1 / 15) ^ 5) with (1 / 759375) in T5 by field. replace ((1 / 15) ^ 6) with (1 / 11390625) in T6 by field.
  split.
  - replace (_ - _) with (- (0.9996 / 120 * (V * h5 * l ^ 5))) by field. rewrite Rabs_Ropp, Rabs_mult, (Rabs_right (0.9996 / 120)) by lra. lra.
  - replace (_ - _) with (0.9996 / 720 * (V * h6 * l ^ 6)) by field. rewrite Rabs_mult, (Rabs_right (0.9996 / 720)) by lra. lra.
Qed.
