(** * Corrections as sums of information (C85) *)

From Coq Require Import Reals ZArith List Bool Arith Lra Lia Permutation.
From Verif Require Import Scalar Mat FilterBase FilterOps Ekf SpecLin SpecFilter SpecOrder RLin RBridge
  EkfPsd Angles EkfUpdate Pdef FilterExtra UkfUpdate.
Import ListNotations.
Local Open Scope R_scope.

(** ** Inverses *)

Lemma inverse_unique n A B C : is_inverse n A B -> meq n n (rmul n A C) rI -> meq n n C B.
Proof.
  intros HB HC i j Hi Hj.
  transitivity (rmul n (rmul n B A) C i j).
  - rewrite (rmul_ext n (rmul n B A) rI C C i j); [symmetry; apply rmul_I_l; exact Hi| |auto].
    intros k Hk. apply HB; assumption.
  - rewrite rmul_assoc. rewrite (rmul_ext n B B (rmul n A C) rI i j); [apply rmul_I_r; exact Hj|auto|].
    intros k Hk. apply HC; assumption.
Qed.

Lemma inverse_swap n A B : is_inverse n A B -> is_inverse n B A.
Proof. intros H i j Hi Hj. destruct (H i j Hi Hj). split; assumption. Qed.

Lemma inverse_solve n A B v w : is_inverse n A B -> veq n (rmv n A v) w -> veq n v (rmv n B w).
Proof.
  intros H Hv i Hi. transitivity (rmv n (rmul n B A) v i).
  - rewrite (rmv_ext n (rmul n B A) rI v v i); [symmetry; apply rmv_I; exact Hi| |auto].
    intros k Hk. apply H; assumption.
  - rewrite rmv_mul. apply rmv_ext; auto.
Qed.

Lemma inverse_pdef n A B : pdef n A -> is_inverse n A B -> pdef n B.
Proof.
  intros [Hs Hp] H. assert (Hsym : symmetric n B).
  { intros i j Hi Hj. change (B i j = rT B i j). symmetry. apply (inverse_unique n A B (rT B) H); try assumption.
    intros a b Ha Hb. destruct (H b a Hb Ha) as [_ E].
    transitivity (rmul n B A b a).
    - unfold rmul, rT. apply rsum_ext. intros l Hl. rewrite (Hs a l) by assumption. ring.
    - rewrite E. unfold rI. rewrite Nat.eqb_sym. reflexivity. }
  split; [exact Hsym|]. intros x (i & Hi & Hx).
  assert (E : veq n (rmv n A (rmv n B x)) x).
  { intros k Hk. rewrite <- rmv_mul. rewrite (rmv_ext n (rmul n A B) rI x x k); [apply rmv_I; exact Hk| |auto].
    intros l Hl. apply H; assumption. }
  assert (Hq : quad n B x = quad n A (rmv n B x)).
  { rewrite !quad_dot. rewrite (rdot_comm n x). unfold rdot. apply rsum_ext. intros k Hk. rewrite (E k Hk). reflexivity. }
  rewrite Hq. apply Hp.
  destruct (Classical_Prop.classic (exists k, (k < n)%nat /\ rmv n B x k <> 0)) as [|Hn]; [assumption|].
  exfalso. apply Hx. rewrite <- (E i Hi). unfold rmv at 1. apply rsum_zero. intros l Hl.
  destruct (Req_dec (rmv n B x l) 0) as [->|Hne]; [ring|]. exfalso. apply Hn. exists l. auto.
Qed.

(** ** One correction *)
Section One.
Variables (m : meas RScalar) (P Lam Ri : rmat).
Let n := length (selected m).
Let sel a := nth a (selected m) 0%nat.
Hypothesis Hinv : is_inverse 15 P Lam.
Hypothesis Hri : is_inverse n (selected_noise m) Ri.
Let J := information_of m Ri.

Lemma sel15 a : (a < n)%nat -> (sel a < 15)%nat.
Proof. apply selected_lt. Qed.

Lemma at_ext u v : veq n u v -> forall k, at_selected m u k = at_selected m v k.
Proof. intros H k. apply rsum_ext. intros a Ha. rewrite (H a Ha). reflexivity. Qed.

(** H' picks: sum over the state of g k * (H' v) k. *)
Lemma at_sum g v : rsum 15 (fun k => g k * at_selected m v k) = rsum n (fun a => g (sel a) * v a).
Proof.
  unfold at_selected. fold n.
  rewrite (rsum_ext 15 _ (fun k => rsum n (fun a => g k * (if Nat.eqb k (nth a (selected m) 0%nat) then v a else 0)))).
  2:{ intros k Hk. symmetry. apply rsum_scal_l. }
  rewrite rsum_swap. apply rsum_ext. intros a Ha.
  rewrite (rsum_single 15 (sel a)); [|apply sel15; exact Ha|].
  - fold (sel a). rewrite Nat.eqb_refl. reflexivity.
  - intros k Hk Hne. fold (sel a). destruct (Nat.eqb_spec k (sel a)); [contradiction|ring].
Qed.

Lemma J_mv v k : rmv 15 J v k = at_selected m (rmv n Ri (fun b => v (sel b))) k.
Proof.
  unfold rmv, J, information_of. unfold at_selected at 1. fold n.
  rewrite (rsum_ext 15 _ (fun j => rsum n (fun a => if Nat.eqb k (nth a (selected m) 0%nat)
     then at_selected m (fun b => Ri a b) j * v j else 0))).
  2:{ intros j Hj. rewrite <- rsum_scal_r. apply rsum_ext. intros a Ha. destruct (Nat.eqb _ _); ring. }
  rewrite rsum_swap. unfold at_selected at 2. fold n. apply rsum_ext. intros a Ha.
  destruct (Nat.eqb k _).
  - rewrite (rsum_ext 15 _ (fun j => v j * at_selected m (fun b => Ri a b) j)) by (intros; ring).
    rewrite at_sum. apply rsum_ext. intros; ring.
  - apply rsum_zero. auto.
Qed.

Lemma Lam_P_at v k : (k < 15)%nat -> rmv 15 Lam (fun l => rsum n (fun a => P l (sel a) * v a)) k = at_selected m v k.
Proof.
  intros Hk. transitivity (rmv 15 Lam (rmv 15 P (at_selected m v)) k).
  - apply rmv_ext; [auto|]. intros l Hl. symmetry. exact (at_sum (P l) v).
  - rewrite <- rmv_mul. rewrite (rmv_ext 15 (rmul 15 Lam P) rI _ (at_selected m v) k); [apply rmv_I; exact Hk| |auto].
    intros l Hl. apply Hinv; assumption.
Qed.

Lemma mv_plus A B v k : rmv 15 (fun i j => A i j + B i j) v k = rmv 15 A v k + rmv 15 B v k.
Proof. unfold rmv. rewrite <- rsum_plus. apply rsum_ext. intros; ring. Qed.
Lemma mv_plus_v N A u v k : rmv N A (fun i => u i + v i) k = rmv N A u k + rmv N A v k.
Proof. unfold rmv. rewrite <- rsum_plus. apply rsum_ext. intros; ring. Qed.
Lemma mv_minus_v N A u v k : rmv N A (fun i => u i - v i) k = rmv N A u k - rmv N A v k.
Proof. unfold rmv. rewrite <- rsum_minus. apply rsum_ext. intros; ring. Qed.
Lemma at_plus u v k : at_selected m (fun a => u a + v a) k = at_selected m u k + at_selected m v k.
Proof. unfold at_selected. rewrite <- rsum_plus. apply rsum_ext. intros; destruct (Nat.eqb _ _); ring. Qed.

Lemma S_split w a : rmv n (innovation_cov P m) w a =
  rsum n (fun b => P (sel a) (sel b) * w b) + rmv n (selected_noise m) w a.
Proof.
  unfold rmv, innovation_cov, selected_noise. rewrite <- rsum_plus. apply rsum_ext. intros b Hb. unfold sel.
  apply Rmult_plus_distr_r.
Qed.

Lemma Ri_noise w : veq n (rmv n Ri (rmv n (selected_noise m) w)) w.
Proof.
  intros a Ha. rewrite <- rmv_mul. rewrite (rmv_ext n (rmul n Ri (selected_noise m)) rI w w a); [apply rmv_I; exact Ha| |auto].
  intros l Hl. apply Hri; assumption.
Qed.

(** Covariance: the information of the measurement is added. *)
Lemma cov_information P' : invertible n (innovation_cov P m) -> corrected_cov P m P' ->
  meq 15 15 (rmul 15 (fun i j => Lam i j + J i j) P') rI.
Proof.
  intros [Si HSi] HP' i j Hi Hj.
  set (y := rmv n Si (fun a => P (sel a) j)).
  assert (Hy : veq n (rmv n (innovation_cov P m) y) (fun a => P (sel a) j)).
  { intros a Ha. unfold y. rewrite <- rmv_mul.
    rewrite (rmv_ext n (rmul n (innovation_cov P m) Si) rI _ (fun a => P (sel a) j) a);
      [apply (rmv_I n (fun a => P (sel a) j)); exact Ha| |auto]. intros l Hl. apply HSi; assumption. }
  pose proof (HP' j y Hj Hy) as E.
  change (rmv 15 (fun i j => Lam i j + J i j) (fun l => P' l j) i = rI i j).
  rewrite mv_plus.
  rewrite (rmv_ext 15 Lam Lam (fun l => P' l j) (fun l => P l j - rsum n (fun a => P l (sel a) * y a)) i)
    by (auto; intros l Hl; apply E; exact Hl).
  rewrite mv_minus_v, Lam_P_at by assumption.
  change (rmv 15 Lam (fun l => P l j) i) with (rmul 15 Lam P i j).
  rewrite (proj2 (Hinv i j Hi Hj)). rewrite J_mv.
  rewrite (at_ext (rmv n Ri (fun b => P' (sel b) j)) y).
  - ring.
  - intros a Ha. rewrite <- (Ri_noise y a Ha). apply rmv_ext; [auto|]. intros b Hb.
    rewrite (E (sel b) (sel15 b Hb)). fold n. pose proof (S_split y b) as Es. pose proof (Hy b Hb) as Eb.
    cbv beta in Eb. fold (sel b). change (rsum n (fun a0 => P (sel b) (nth a0 (selected m) 0%nat) * y a0))
      with (rsum n (fun a0 => P (sel b) (sel a0) * y a0)). lra.
Qed.

(** State: the information vector of the measurement is added. *)
Lemma state_information (x z w : rvec) :
  veq n (rmv n (innovation_cov P m) w) (fun a => z a - x (sel a)) ->
  let y := fun k => x k + rsum n (fun a => P k (sel a) * w a) in
  forall k, (k < 15)%nat ->
  rmv 15 (fun i j => Lam i j + J i j) y k = rmv 15 Lam x k + at_selected m (rmv n Ri z) k.
Proof.
  intros Hw y k Hk. rewrite mv_plus. unfold y at 1. rewrite mv_plus_v, Lam_P_at by assumption.
  rewrite J_mv. rewrite Rplus_assoc. f_equal. rewrite <- at_plus. apply at_ext. intros a Ha.
  rewrite <- (Ri_noise w a Ha) at 1. rewrite <- mv_plus_v. apply rmv_ext; [auto|]. intros b Hb.
  pose proof (S_split w b) as Es. pose proof (Hw b Hb) as Eb. cbv beta in Eb. unfold y. lra.
Qed.

Lemma J_psd : pdef n (selected_noise m) -> psd 15 J.
Proof.
  intros Hp. destruct (inverse_pdef n _ _ Hp Hri) as [Hs Hq]. split.
  - intros i j Hi Hj. unfold J, information_of, at_selected. fold n.
    transitivity (rsum n (fun a => rsum n (fun b =>
      (if Nat.eqb i (sel a) then 1 else 0) * (if Nat.eqb j (sel b) then 1 else 0) * Ri a b))).
    + apply rsum_ext. intros a Ha. fold (sel a). destruct (Nat.eqb i (sel a)).
      * apply rsum_ext. intros b Hb. fold (sel b). destruct (Nat.eqb j (sel b)); ring.
      * symmetry. apply rsum_zero. intros; ring.
    + rewrite rsum_swap. apply rsum_ext. intros b Hb. fold (sel b). destruct (Nat.eqb j (sel b)).
      * apply rsum_ext. intros a Ha. fold (sel a). rewrite (Hs a b Ha Hb). destruct (Nat.eqb i (sel a)); ring.
      * apply rsum_zero. intros; ring.
  - intros v. assert (E : quad 15 J v = quad n Ri (fun a => v (sel a))).
    { rewrite !quad_dot. unfold rdot.
      rewrite (rsum_ext 15 _ (fun k => v k * at_selected m (rmv n Ri (fun b => v (sel b))) k))
        by (intros; rewrite J_mv; reflexivity).
      apply at_sum. }
    rewrite E. destruct (Classical_Prop.classic (exists a, (a < n)%nat /\ v (sel a) <> 0)) as [H|H].
    + left. apply Hq. exact H.
    + right. symmetry. unfold quad. apply rsum_zero. intros a Ha. apply rsum_zero. intros b Hb.
      destruct (Req_dec (v (sel a)) 0) as [->|Hne]; [ring|]. exfalso. apply H. exists a. auto.
Qed.
End One.

(** ** Sequences of corrections *)

Section Sequence.
Variable eig : Eigen RScalar.
Hypothesis Heig : eigen_inverse_ok eig.

Definition weight (m : meas RScalar) : rmat := e_inv eig (length (selected m)) (selected_noise m).
Definition meas_vector (m : meas RScalar) : rvec :=
  at_selected m (rmv (length (selected m)) (weight m) (fun a => m_value m (nth a (selected m) 0%nat))).
Definition total_info (ms : list (meas RScalar)) : rmat := fun i j =>
  fold_right (fun m acc => information_of m (weight m) i j + acc) 0 ms.
Definition total_vector (ms : list (meas RScalar)) : rvec := fun k =>
  fold_right (fun m acc => meas_vector m k + acc) 0 ms.

Lemma total_perm (f : meas RScalar -> R) a b : Permutation a b ->
  fold_right (fun m acc => f m + acc) 0 a = fold_right (fun m acc => f m + acc) 0 b.
Proof. induction 1; cbn; lra. Qed.

(** [s] carries information [L], [h]; the state may differ by turns. *)
Definition carries (s : ekf RScalar) (L : rmat) (h : rvec) : Prop :=
  pdef 15 L /\ is_inverse 15 (fb_P s) L /\ exists y, same_up_to_turns y (fb_state s) /\ veq 15 (rmv 15 L y) h.

Lemma step_information s m Ri L h : carries s L h -> linear_meas m ->
  is_inverse (length (selected m)) (selected_noise m) Ri ->
  passes_gate (fb_state s) (fb_P s) m ->
  carries (ekf_correct eig s m) (fun i j => L i j + information_of m Ri i j)
      (fun k => h k + at_selected m (rmv (length (selected m)) Ri (fun a => m_value m (nth a (selected m) 0%nat))) k) /\
  forall k, angular k -> - PI < fb_state (ekf_correct eig s m) k <= PI.
Proof.
  intros (HL & HI & y & Hy & Hh) (Hlen & Hna & Hp) HRi (nu & w & Hnu & Hw & Hg).
  assert (HP : pdef 15 (fb_P s)) by (apply (inverse_pdef 15 L); [exact HL|apply inverse_swap; exact HI]).
  assert (HSi : invertible (length (selected m)) (innovation_cov (fb_P s) m)).
  { apply innovation_invertible; [apply pdef_psd; exact HP|exact Hlen|exact Hp]. }
  destruct (ekf_accept eig Heig m Hlen s HSi nu w Hnu Hw Hg) as [Hst Hcov].
  assert (HL' : pdef 15 (fun i j => L i j + information_of m Ri i j)).
  { apply (pdef_ext 15 _ (fun i j => information_of m Ri i j + L i j)); [intros; ring|].
    apply pdef_psd_plus; [apply J_psd; assumption|exact HL]. }
  split.
  - split; [exact HL'|]. split.
    + destruct (pdef_invertible 15 _ HL') as [Q HQ].
      pose proof (cov_information m (fb_P s) L Ri HI HRi _ HSi Hcov) as E.
      pose proof (inverse_unique 15 _ Q _ HQ E) as EQ.
      apply inverse_swap. intros i j Hi Hj. split; [apply E; assumption|].
      rewrite (rmul_ext 15 _ Q _ (fun i j => L i j + information_of m Ri i j) i j); [apply HQ; assumption| |auto].
      intros l Hl. apply EQ; assumption.
    + exists (fun k => y k + rsum (length (selected m)) (fun a => fb_P s k (nth a (selected m) 0%nat) * w a)).
      split.
      * intros k Hk. destruct (Hst k Hk) as [S1 S2]. destruct (Hy k Hk) as [Y1 Y2]. split; intros Hka.
        -- destruct (S1 Hka) as [_ [z Ez]]. destruct (Y1 Hka) as [z' Ez'].
           exists (z + z')%Z. rewrite Ez, Ez', plus_IZR. ring.
        -- rewrite (S2 Hka), (Y2 Hka). reflexivity.
      * intros k Hk.
        rewrite (state_information m (fb_P s) L Ri HI HRi y (fun a => m_value m (nth a (selected m) 0%nat)) w); [|  |exact Hk].
        -- rewrite (Hh k Hk). reflexivity.
        -- intros a Ha. rewrite (Hw a Ha). destruct (Hnu a Ha) as [_ N2]. rewrite (N2 (Hna a Ha)).
           destruct (Hy _ (selected_lt m a Ha)) as [_ Y2]. rewrite (Y2 (Hna a Ha)). reflexivity.
  - intros k Hk. assert (Hk15 : (k < 15)%nat) by (destruct Hk as [->|[->| ->]]; lia).
    destruct (Hst k Hk15) as [S1 _]. destruct (S1 Hk) as [R1 _]. exact R1.
Qed.

Lemma total_info_cons m ms i j : total_info (m :: ms) i j = information_of m (weight m) i j + total_info ms i j.
Proof. reflexivity. Qed.
Lemma total_vector_cons m ms k : total_vector (m :: ms) k = meas_vector m k + total_vector ms k.
Proof. reflexivity. Qed.

Lemma sequence_information ms : forall s L h, carries s L h -> Forall linear_meas ms -> all_accepted eig s ms ->
  carries (correct_all eig ms s) (fun i j => L i j + total_info ms i j) (fun k => h k + total_vector ms k) /\
  (ms <> [] -> forall k, angular k -> - PI < fb_state (correct_all eig ms s) k <= PI).
Proof.
  induction ms as [|m ms IH]; intros s L h Hc Hl Ha.
  - split; [|intros H; contradiction]. cbn. destruct Hc as (A & B & y & C & D). split; [|split].
    + apply (pdef_ext 15 _ L); [intros; cbn; ring|exact A].
    + intros i j Hi Hj. destruct (B i j Hi Hj) as [B1 B2]. split.
      * rewrite <- B1. apply rmul_ext; [auto|]. intros; cbn; ring.
      * rewrite <- B2. apply rmul_ext; [|auto]. intros; cbn; ring.
    + exists y. split; [exact C|]. intros k Hk. transitivity (h k); [|cbn; ring]. rewrite <- (D k Hk).
      apply rmv_ext; [|auto]. intros; cbn; ring.
  - inversion Hl as [|? ? Hm Hms]; subst. destruct Ha as [Hg Ha'].
    assert (HRi : is_inverse (length (selected m)) (selected_noise m) (weight m))
      by (apply Heig, pdef_invertible, Hm).
    destruct (step_information s m (weight m) L h Hc Hm HRi Hg) as [Hc' Hr].
    destruct (IH _ _ _ Hc' Hms Ha') as [(A & B & y & C & D) F].
    split; [split; [|split]|].
    + refine (pdef_ext 15 _ _ _ A). intros. rewrite total_info_cons. ring.
    + change (correct_all eig (m :: ms) s) with (correct_all eig ms (ekf_correct eig s m)).
      intros i j Hi Hj. destruct (B i j Hi Hj) as [B1 B2]. split.
      * rewrite <- B1. apply rmul_ext; [auto|]. intros; rewrite total_info_cons; ring.
      * rewrite <- B2. apply rmul_ext; [|auto]. intros; rewrite total_info_cons; ring.
    + exists y. split; [exact C|]. intros k Hk.
      transitivity (h k + meas_vector m k + total_vector ms k).
      * etransitivity; [|exact (D k Hk)]. apply rmv_ext; [|auto]. intros; rewrite total_info_cons; ring.
      * rewrite total_vector_cons. ring.
    + intros _. destruct ms as [|m' ms']; [exact Hr|]. apply F. discriminate.
Qed.

Lemma one_information (s : ekf RScalar) (m : meas RScalar) (L W : rmat) :
  pdef 15 (fb_P s) -> linear_meas m -> passes_gate (fb_state s) (fb_P s) m ->
  is_inverse 15 (fb_P s) L -> is_inverse (length (selected m)) (selected_noise m) W ->
  let s' := ekf_correct eig s m in
  let L' := fun i j => L i j + information_of m W i j in
  pdef 15 (fb_P s') /\ is_inverse 15 (fb_P s') L' /\
  exists y, same_up_to_turns y (fb_state s') /\
    veq 15 (rmv 15 L' y) (fun k => rmv 15 L (fb_state s) k +
      at_selected m (rmv (length (selected m)) W (fun a => m_value m (nth a (selected m) 0%nat))) k).
Proof.
  intros HP Hm Hg HL HW s' L'.
  assert (Hc : carries s L (rmv 15 L (fb_state s))).
  { split; [apply (inverse_pdef 15 (fb_P s)); assumption|]. split; [exact HL|].
    exists (fb_state s). split; [|intros k Hk; reflexivity].
    intros k Hk. split; [intros _; exists 0%Z; rewrite Rmult_0_l, Rplus_0_r; reflexivity|reflexivity]. }
  destruct (step_information s m W L _ Hc Hm HW Hg) as [(A & B & C) _].
  split; [|split; [exact B|exact C]].
  apply (inverse_pdef 15 L'); [exact A|apply inverse_swap; exact B].
Qed.

Lemma order_irrelevant (s : ekf RScalar) ms ms' : pdef 15 (fb_P s) -> Forall linear_meas ms -> Permutation ms ms' ->
  all_accepted eig s ms -> all_accepted eig s ms' ->
  meq 15 15 (fb_P (correct_all eig ms s)) (fb_P (correct_all eig ms' s)) /\
  veq 15 (fb_state (correct_all eig ms s)) (fb_state (correct_all eig ms' s)).
Proof.
  intros HP Hl Hperm Ha Ha'.
  destruct (pdef_invertible 15 _ HP) as [L HL].
  assert (Hc : carries s L (rmv 15 L (fb_state s))).
  { split; [apply (inverse_pdef 15 (fb_P s)); assumption|]. split; [exact HL|].
    exists (fb_state s). split; [|intros k Hk; reflexivity].
    intros k Hk. split; [intros _; exists 0%Z; rewrite Rmult_0_l, Rplus_0_r; reflexivity|reflexivity]. }
  assert (Hl' : Forall linear_meas ms') by (eapply Permutation_Forall; eassumption).
  destruct (sequence_information ms s L _ Hc Hl Ha) as [(A & B & y & C & D) F].
  destruct (sequence_information ms' s L _ Hc Hl' Ha') as [(A' & B' & y' & C' & D') F'].
  assert (EL : forall i j, total_info ms i j = total_info ms' i j) by (intros; apply total_perm; exact Hperm).
  assert (Eh : forall k, total_vector ms k = total_vector ms' k) by (intros; apply (total_perm (fun m => meas_vector m k)); exact Hperm).
  assert (B2 : is_inverse 15 (fun i j => L i j + total_info ms i j) (fb_P (correct_all eig ms' s))).
  { apply inverse_swap. intros i j Hi Hj. destruct (B' i j Hi Hj) as [B1 B2]. split.
    - rewrite <- B1. apply rmul_ext; [auto|]. intros; rewrite EL; reflexivity.
    - rewrite <- B2. apply rmul_ext; [|auto]. intros; rewrite EL; reflexivity. }
  assert (EP : meq 15 15 (fb_P (correct_all eig ms s)) (fb_P (correct_all eig ms' s))).
  { apply (inverse_unique 15 _ _ _ B2). intros i j Hi Hj. apply B; assumption. }
  split; [exact EP|].
  assert (Ey : veq 15 y y').
  { intros k Hk.
    rewrite (inverse_solve 15 _ _ y _ (inverse_swap _ _ _ B) D k Hk).
    rewrite (inverse_solve 15 _ _ y' _ (inverse_swap _ _ _ B') D' k Hk).
    apply rmv_ext; [intros; apply EP; assumption|]. intros l Hl0. rewrite Eh. reflexivity. }
  destruct ms as [|m0 ms0].
  { apply Permutation_nil in Hperm. subst. intros k Hk. reflexivity. }
  assert (N' : ms' <> []) by (intros ->; apply Permutation_sym, Permutation_nil in Hperm; discriminate).
  intros k Hk. destruct (C k Hk) as [C1 C2]. destruct (C' k Hk) as [C1' C2'].
  destruct (is_angle k) eqn:Ek.
  - apply is_angle_true in Ek. destruct (C1 Ek) as [z Ez]. destruct (C1' Ek) as [z' Ez'].
    apply (wrapped_unique (y k)).
    + split; [apply F; [discriminate|exact Ek]|]. exists z. rewrite Ez. ring.
    + split; [apply F'; [exact N'|exact Ek]|]. exists z'. rewrite Ez', (Ey k Hk). ring.
  - apply is_angle_false in Ek. rewrite (C2 Ek), (C2' Ek), (Ey k Hk). reflexivity.
Qed.
End Sequence.
