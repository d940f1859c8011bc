(** * C102: the constants of the UKF in a running node *)

From Coq Require Import Reals ZArith Floats List Bool String.
From Verif Require Import Scalar FloatScalar Mat FilterBase FilterOps Ekf Ukf Tf RosFilter RosConfig RosPrepare Mains
  SpecConfig SpecNode SpecTf SpecLin SpecPrepare SpecMains RLin EigenExist NodeMore MainsFacts MainsFloat MainsCase ShiftCase PropsConfig PropsStart.
Import ListNotations.

(** From the main program on, whatever arrives: the scaling and the weights
    are those of the constants given, or of 0.001, 0 and 2; in every
    arithmetic. *)
Theorem C102_weights : forall (K : Scalar) eig (pq : pqueue K) alpha kappa beta p period now later g gs gq gl ang nothing ld n is, pq_ok pq ->
  ukf_main alpha kappa beta p period now later g gs gq gl ang nothing = Ok (ld, n) ->
  let w := weights_from (match alpha with Some v => v | None => lit 1 3 end)
                        (match kappa with Some v => v | None => s_ofZ 0 end)
                        (match beta with Some v => v | None => s_ofZ 2 end) in
  w (fb_ext (n_filter (fst (respond pq (ukf_vtbl eig) (ld_config ld) n is)))) /\
  Forall (fusing (fun f => w (fb_ext f))) (snd (respond pq (ukf_vtbl eig) (ld_config ld) n is)).
Proof. intros K eig. exact (main_weights eig). Qed.
Print Assumptions C102_weights.

(** In exact arithmetic the state weights of every fusion add up to one, the
    central one is 1 - 15 / (alpha^2 (15 + kappa)), and the covariance
    weights add up to 2 - alpha^2 + beta. *)
Theorem C102_sums : forall eig (pq : pqueue RScalar) (alpha kappa beta : option R) p period now later g gs gq gl ang nothing ld n is f m, pq_ok pq ->
  @ukf_main RScalar alpha kappa beta p period now later g gs gq gl ang nothing = Ok (ld, n) ->
  (let a := match alpha with Some v => v | None => 1 / 1000 end in
  let k := match kappa with Some v => v | None => 0 end in
  let b := match beta with Some v => v | None => 2 end in
  a * a * (15 + k) <> 0 -> In (OutFused f m) (snd (respond pq (ukf_vtbl eig) (ld_config ld) n is)) ->
  rsum 31 (u_sw (fb_ext f)) = 1 /\ u_sw (fb_ext f) 0%nat = 1 - 15 / (a * a * (15 + k)) /\
  rsum 31 (u_cw (fb_ext f)) = 2 - a * a + b)%R.
Proof. exact main_sums. Qed.
Print Assumptions C102_sums.

(** The defaults: the central weight is -999999. *)
Example C102_case : (1 - 15 / (1 / 1000 * (1 / 1000) * (15 + 0)) = - 999999)%R /\
  exists ld n is f m, @ukf_main RScalar None None None (sh_par false false) 0 0 0 (fun _ => 0%R) (fun _ _ => 0%R) mzero 0%R ex_ang86 vzero = Ok (ld, n) /\
  In (OutFused f m) (snd (respond (list_pq RScalar) (ukf_vtbl ideal_eigen) (ld_config ld) n is)) /\ m_upd m = flags [0; 1]%nat.
Proof. split; [exact main_default|exact main_ex]. Qed.

(** In double precision, when alpha^2 (15 + kappa) is lost beside 15: every
    cycle that predicts reports non-finite output, and positions, speeds and
    rates it publishes are not numbers or infinite, whatever the filter was
    told. *)
Theorem C102_vanishing : forall lm eig (pq : pqueue (FScalar lm)) (alpha kappa : float) beta p period now later g gs gq gl ang nothing ld n is cur later' lookup,
  pq_ok pq -> lm_ofZ lm 15 = 15%float -> (alpha * alpha * (15 + kappa) - 15)%float = (-15)%float ->
  @ukf_main (FScalar lm) (Some alpha) (Some kappa) beta p period now later g gs gq gl ang nothing = Ok (ld, n) ->
  let os := snd (node_step pq (ukf_vtbl eig) (ld_config ld) (fst (respond pq (ukf_vtbl eig) (ld_config ld) n is)) (EvCycle cur later' lookup)) in
  predicting os -> In OutNonFinite os /\
  forall m, In (OutOdom m) os ->
    Forall (fun x => @finite (FScalar lm) x = false)
      [v3x (o_position m); v3y (o_position m); v3z (o_position m);
       v3x (o_linear m); v3y (o_linear m); v3z (o_linear m); v3x (o_angular m); v3y (o_angular m); v3z (o_angular m)].
Proof. exact main_lost. Qed.
Print Assumptions C102_vanishing.

(** alpha = 2^-30, about 1e-9, is such a value, and so is zero; the node
    starts, predicts and publishes. *)
Example C102_vanishing_case : lm_ofZ mc_lm 15 = 15%float /\
  (0x1p-30 * 0x1p-30 * (15 + 0) - 15)%float = (-15)%float /\ (0 * 0 * (15 + 0) - 15)%float = (-15)%float /\
  existsb is_predict (mc_cycle 0x1p-30%float 0%float) = true /\ existsb is_predict (mc_cycle 0%float 0%float) = true /\
  existsb (fun o => match o with OutOdom _ => true | _ => false end) (mc_cycle 0x1p-30%float 0%float) = true.
Proof.
  split; [vm_compute; reflexivity|]. split; [vm_compute; reflexivity|]. split; [vm_compute; reflexivity|].
  split; [exact (proj2 mc_predicts)|]. split; [exact (proj1 mc_predicts)|exact mc_published].
Qed.

(** A positive finite alpha is no guarantee of finite output. *)
Theorem C102_finite_refuted : exists lm eig (pq : pqueue (FScalar lm)) (alpha : float) p ang is cur later m,
  PrimFloat.ltb 0 alpha = true /\ @finite (FScalar lm) alpha = true /\ pq_ok pq /\
  In (OutOdom m) (cycle_of (ukf_vtbl eig) pq is cur later
    (@ukf_main (FScalar lm) (Some alpha) (Some 0%float) None p 0 0 0 (fun _ => 0%float) (fun _ _ => 0%float) mzero 0%float ang vzero)) /\
  @finite (FScalar lm) (v3x (o_position m)) = false.
Proof. exact mc_finite. Qed.
Print Assumptions C102_finite_refuted.
