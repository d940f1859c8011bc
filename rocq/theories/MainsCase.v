(** * Running filter nodes from their main programs, and cases (C102) *)

From Coq Require Import Reals ZArith Floats List Bool Lia Lra String Arith.
From Verif Require Import Scalar FloatScalar Mat FilterBase FilterOps Ekf Ukf StrMap Tf Diagnostics RosFilter RosConfig RosPrepare Mains
  SpecConfig SpecNode SpecTf SpecLin SpecFilter SpecPrepare SpecStart SpecMains
  RBridge RLin EigenExist NodeProofs NodeMore UkfProofs MainsFacts MainsFloat ShiftCase PrepareWit
  PropsConfig PropsStart.
Import ListNotations.
Local Open Scope R_scope.

(** ** In exact arithmetic *)
Lemma weights_facts (a k b : R) (e : ukf_ext RScalar) : @weights_from RScalar a k b e -> a * a * (15 + k) <> 0 ->
  rsum 31 (u_sw e) = 1 /\ u_sw e 0%nat = 1 - 15 / (a * a * (15 + k)) /\
  rsum 31 (u_cw e) = 2 - a * a + b.
Proof.
  intros (_ & W0 & C0 & W) Hc. cbv zeta in W0, C0, W. revert W0 C0 W. toR. intros W0 C0 W. change (sc RScalar) with R in *.
  set (l := a * a * (15 + k) - 15) in *. assert (Hl : 15 + l <> 0) by (unfold l; intros Q; apply Hc; lra).
  assert (El : a * a * (15 + k) = 15 + l) by (unfold l; ring). rewrite El. clearbody l. clear El Hc.
  assert (S1 : forall f : nat -> R, (forall i, (0 < i)%nat -> f i = 1 / (2 * (15 + l))) -> rsum 31 f = f 0%nat + 15 / (15 + l)).
  { intros f Hf. assert (Hs : forall i, f (S i) = 1 / (2 * (15 + l))) by (intros i; apply Hf; lia). clear Hf. cbn [rsum]. rewrite !Hs. field. exact Hl. }
  split; [|split].
  - rewrite S1 by (intros i Hi; apply (W i Hi)). rewrite W0. field. exact Hl.
  - rewrite W0. field. exact Hl.
  - rewrite S1 by (intros i Hi; apply (W i Hi)). rewrite C0. field. exact Hl.
Qed.

Lemma main_sums eig (pq : pqueue RScalar) alpha kappa beta p period now later g gs gq gl ang nothing ld n is f m : pq_ok pq ->
  @ukf_main RScalar alpha kappa beta p period now later g gs gq gl ang nothing = Ok (ld, n) ->
  let a := match alpha with Some v => v | None => 1 / 1000 end in
  let k := match kappa with Some v => v | None => 0 end in
  let b := match beta with Some v => v | None => 2 end in
  a * a * (15 + k) <> 0 -> In (OutFused f m) (snd (respond pq (ukf_vtbl eig) (ld_config ld) n is)) ->
  rsum 31 (u_sw (fb_ext f)) = 1 /\ u_sw (fb_ext f) 0%nat = 1 - 15 / (a * a * (15 + k)) /\
  rsum 31 (u_cw (fb_ext f)) = 2 - a * a + b.
Proof.
  intros Hq H a k b Hc Hi. destruct (main_weights eig pq _ _ _ _ _ _ _ _ _ _ _ _ _ _ _ is Hq H) as (_ & F).
  rewrite Forall_forall in F. specialize (F _ Hi). cbn [fusing] in F. exact (weights_facts a k b (fb_ext f) F Hc).
Qed.

Lemma main_default : (1 - 15 / (1 / 1000 * (1 / 1000) * (15 + 0)) = - 999999).
Proof. field. Qed.

Lemma main_ex : exists ld n is f m, @ukf_main RScalar None None None (sh_par false false) 0 0 0 (fun _ => 0) (fun _ _ => 0) mzero 0 ex_ang86 vzero = Ok (ld, n) /\
  In (OutFused f m) (snd (respond (list_pq RScalar) (ukf_vtbl ideal_eigen) (ld_config ld) n is)) /\ m_upd m = flags [0; 1]%nat.
Proof.
  destruct (sh_runs _ (fun _ => 0) (fb_ext sh_ukf) false sh_absolute_ukf) as (ld & n & d & H1 & H2 & H3 & H4 & H5 & H6).
  destruct (H6 sh_p) as (_ & A). 
  assert (Hf : exists f m, In (OutFused f m) (snd (respond (list_pq RScalar) (ukf_vtbl ideal_eigen) (ld_config ld) n (sh_in ld sh_p))) /\ m_upd m = flags [0; 1]%nat).
  { assert (HI : In (false, flags [0; 1]%nat) (fused_flags (snd (respond (list_pq RScalar) (ukf_vtbl ideal_eigen) (ld_config ld) n (sh_in ld sh_p)))))
      by (rewrite A; left; reflexivity).
    unfold fused_flags in HI. apply in_flat_map in HI. destruct HI as (o & Ho & Hx).
    destruct o as [x|x|x|x|x| |x|f m|x y]; try destruct Hx as [].
    - injection H as _ Hm. exists f, m. split; assumption.
    - destruct H. }
  destruct Hf as (f & m & F1 & F2). exists ld, n, (sh_in ld sh_p), f, m. split; [exact H1|]. split; assumption.
Qed.

(** ** In double precision *)
Definition mc_lm : LibM := mkLibM (fun _ => 0%float) (fun _ => 1%float) (fun x => x) (fun y _ => y) (fun x _ => x) round_ofZ (fun _ => 0%Z).
Definition mc_par : params (FScalar mc_lm) :=
  @mkParams (FScalar mc_lm) false 0%float "map" "odom" "base_link" None None None true false true 0%float 0%float 30%float true None
    false false 0%float false 1%float None None None None None false None false [] [] [] [] None None.
Notation mc_start alpha kappa :=
  (@ukf_main (FScalar mc_lm) (Some alpha) (Some kappa) None mc_par 0 0 0 (fun _ => 0%float) (fun _ _ => 0%float) mzero 0%float
    (@mkAng (FScalar mc_lm) v3zero mzero v3zero 0%float) vzero).
Definition mc_eig : Eigen (FScalar mc_lm) := mkEigen (fun _ A => A) (fun _ A => A).
Definition mc_fix : input (K := FScalar mc_lm) (E := ukf_ext (FScalar mc_lm)) :=
  Event (@EvSensor (FScalar mc_lm) _ true "pose" 5 (flags [0; 1]%nat) 5%float (fun _ u v c => mkPrep true u v c no_streams [])).
Definition is_predict {K E} (o : output K E) : bool := match o with OutPredict _ _ => true | _ => false end.
Notation mc_cycle alpha kappa := (cycle_of (ukf_vtbl mc_eig) (list_pq _) [mc_fix] 10 11 (mc_start alpha kappa)).

Lemma mc_predicts : existsb is_predict (mc_cycle 0%float 0%float) = true /\ existsb is_predict (mc_cycle 0x1p-30%float 0%float) = true.
Proof. split; vm_compute; reflexivity. Qed.
Lemma mc_published : existsb (fun o => match o with OutOdom _ => true | _ => false end) (mc_cycle 0x1p-30%float 0%float) = true.
Proof. vm_compute. reflexivity. Qed.

Lemma lost_first lm eig (pq : pqueue (FScalar lm)) (alpha kappa : float) p ang is cur later :
  pq_ok pq -> lm_ofZ lm 15 = 15%float -> (alpha * alpha * (15 + kappa) - 15)%float = (-15)%float ->
  let r := @ukf_main (FScalar lm) (Some alpha) (Some kappa) None p 0 0 0 (fun _ => 0%float) (fun _ _ => 0%float) mzero 0%float ang vzero in
  existsb is_predict (cycle_of (ukf_vtbl eig) pq is cur later r) = true ->
  existsb (fun o => match o with OutOdom _ => true | _ => false end) (cycle_of (ukf_vtbl eig) pq is cur later r) = true ->
  exists m, In (OutOdom m) (cycle_of (ukf_vtbl eig) pq is cur later r) /\ @finite (FScalar lm) (v3x (o_position m)) = false.
Proof.
  intros Hq H15 HL r. assert (Es : @ukf_main (FScalar lm) (Some alpha) (Some kappa) None p 0 0 0 (fun _ => 0%float) (fun _ _ => 0%float) mzero 0%float ang vzero = r) by reflexivity.
  clearbody r. destruct r as [[ld n]|]; cbn [cycle_of]; [|intros HP; discriminate HP]. intros HP HO.
  apply existsb_exists in HO. destruct HO as (o & Ho & Hx). destruct o as [m|x|x|x|x| |x|f m|x y]; try discriminate Hx. clear Hx.
  apply existsb_exists in HP. destruct HP as (o & Hi & Hx). destruct o as [x|x|x|x|x| |x|f x|r d]; try discriminate Hx. clear Hx.
  exists m. split; [exact Ho|].
  pose proof (main_lost lm eig pq alpha kappa None p 0 0 0 _ _ _ _ _ _ ld n is cur later None Hq H15 HL Es (ex_intro _ r (ex_intro _ d Hi))) as (_ & HM).
  specialize (HM m Ho). apply Forall_inv in HM. exact HM.
Qed.

Lemma mc_small : lm_ofZ mc_lm 15 = 15%float /\ (0x1p-30 * 0x1p-30 * (15 + 0) - 15)%float = (-15)%float /\
  PrimFloat.ltb 0 0x1p-30 = true /\ @finite (FScalar mc_lm) 0x1p-30%float = true.
Proof. repeat split; vm_compute; reflexivity. Qed.

Lemma mc_finite : exists lm eig (pq : pqueue (FScalar lm)) (alpha : float) p ang is cur later m,
  PrimFloat.ltb 0 alpha = true /\ @finite (FScalar lm) alpha = true /\ pq_ok pq /\
  In (OutOdom m) (cycle_of (ukf_vtbl eig) pq is cur later
    (@ukf_main (FScalar lm) (Some alpha) (Some 0%float) None p 0 0 0 (fun _ => 0%float) (fun _ _ => 0%float) mzero 0%float ang vzero)) /\
  @finite (FScalar lm) (v3x (o_position m)) = false.
Proof.
  destruct (lost_first mc_lm mc_eig (list_pq _) _ _ mc_par _ [mc_fix] 10 11
    (list_pq_ok _) (proj1 mc_small) (proj1 (proj2 mc_small)) (proj2 mc_predicts) mc_published) as (m & B & C).
  exists mc_lm, mc_eig, (list_pq _), 0x1p-30%float, mc_par, (@mkAng (FScalar mc_lm) v3zero mzero v3zero 0%float), [mc_fix], 10%Z, 11%Z, m.
  split; [exact (proj1 (proj2 (proj2 mc_small)))|]. split; [exact (proj2 (proj2 (proj2 mc_small)))|]. split; [apply list_pq_ok|].
  split; [exact B|exact C].
Qed.
