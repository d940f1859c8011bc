(** * Properties of a started node under another choice of the origin (C95, C96) *)

From Coq Require Import Reals ZArith List Bool String Arith.
From Verif Require Import Scalar Mat FilterBase FilterOps Ekf Ukf StrMap Tf RosFilter RosConfig RosPrepare
  SpecConfig SpecNode SpecTf SpecLin SpecFilter SpecPrepare SpecStart SpecShift
  EigenExist NodeMore ShiftNode ShiftCase PropsConfig PropsStart.
Import ListNotations.

(** All absolute positions moved by the same distance: everything published
    moves by that distance and is otherwise the same. *)
Theorem C95_origin : forall eig (pq : pqueue RScalar) (p : params RScalar) period now later g ang nothing ld n d D is is',
  pq_ok pq -> time_blind pq -> start p period now later (fb_init g tt) ang nothing = Ok (ld, n) ->
  Forall2 (moved_input d D (ld_config ld)) is is' ->
  anchored d (snd (respond pq (ekf_vtbl eig) (ld_config ld) n is)) ->
  Forall2 (moved_output d) (snd (respond pq (ekf_vtbl eig) (ld_config ld) n is))
                           (snd (respond pq (ekf_vtbl eig) (ld_config ld) n is')).
Proof. exact started_moved. Qed.
Print Assumptions C95_origin.

(** The raw positions of differentiated and relative topics, and those not
    fused, moved by any distance per topic: the same is published. *)
Theorem C95_unobserved : forall eig (pq : pqueue RScalar) (p : params RScalar) period now later g ang nothing ld n D is is',
  pq_ok pq -> time_blind pq -> start p period now later (fb_init g tt) ang nothing = Ok (ld, n) ->
  Forall2 (moved_input v3zero D (ld_config ld)) is is' ->
  let r := snd (respond pq (ekf_vtbl eig) (ld_config ld) n is) in
  let r' := snd (respond pq (ekf_vtbl eig) (ld_config ld) n is') in
  odoms r' = odoms r /\ accels r' = accels r /\ tfs r' = tfs r.
Proof. exact started_same. Qed.
Print Assumptions C95_unobserved.

(** Before a position has been measured the published position is the initial
    one, wherever the origin is. *)
Theorem C95_unfixed_refuted : exists (p : params RScalar) ld n is d D,
  start p 0 0 0 (@fb_init RScalar unit (fun _ => 0%R) tt) ex_ang86 vzero = Ok (ld, n) /\
  Forall2 (moved_input d D (ld_config ld)) is is /\
  let r := snd (respond (list_pq RScalar) (ekf_vtbl ideal_eigen) (ld_config ld) n is) in
  ~ Forall2 (moved_output d) r r.
Proof. exact unfixed_ex. Qed.
Print Assumptions C95_unfixed_refuted.

(** A position of (1, 2), then of (11, 22): published as 1 and 11. *)
Example C95_case : exists ld n is is', started (sh_par false false) = Some (ld, n) /\
  Forall2 (moved_input sh_d sh_moves (ld_config ld)) is is' /\
  anchored sh_d (snd (respond (list_pq RScalar) (ekf_vtbl ideal_eigen) (ld_config ld) n is)) /\
  (exists m, In (OutOdom m) (snd (respond (list_pq RScalar) (ekf_vtbl ideal_eigen) (ld_config ld) n is)) /\ X (o_position m) = 1%R) /\
  (exists m, In (OutOdom m) (snd (respond (list_pq RScalar) (ekf_vtbl ideal_eigen) (ld_config ld) n is')) /\ X (o_position m) = 11%R).
Proof. exact moved_case. Qed.
(** The list queue looks at times only. *)
Example C95_queue : forall K, time_blind (list_pq K) /\ pq_ok (list_pq K).
Proof. intros K. split; [apply list_pq_blind|apply list_pq_ok]. Qed.
(** A relative topic, with different messages. *)
Example C95_unobserved_case : exists ld n is is', started (sh_par false true) = Some (ld, n) /\ is <> is' /\
  Forall2 (moved_input v3zero sh_moves (ld_config ld)) is is' /\
  exists m, In (OutOdom m) (snd (respond (list_pq RScalar) (ekf_vtbl ideal_eigen) (ld_config ld) n is)).
Proof. exact same_case. Qed.

(** The same for the UKF. *)
Theorem C96_origin : forall eig (pq : pqueue RScalar) (p : params RScalar) period now later g gs gq gl alpha kappa beta ang nothing ld n d D is is',
  pq_ok pq -> time_blind pq -> (alpha * alpha * (15 + kappa) <> 0)%R ->
  start p period now later (setConstants (@ukf_init RScalar g gs gq gl) alpha kappa beta) ang nothing = Ok (ld, n) ->
  Forall2 (moved_input d D (ld_config ld)) is is' ->
  anchored d (snd (respond pq (ukf_vtbl eig) (ld_config ld) n is)) ->
  points_generated (snd (respond pq (ukf_vtbl eig) (ld_config ld) n is)) ->
  Forall2 (moved_output d) (snd (respond pq (ukf_vtbl eig) (ld_config ld) n is))
                           (snd (respond pq (ukf_vtbl eig) (ld_config ld) n is')).
Proof. exact started_moved_ukf. Qed.
Print Assumptions C96_origin.

(** The parameters of ukf_node; the positions of C95_case. *)
Example C96_case : exists ld n is is', start (sh_par false false) 0 0 0 sh_ukf ex_ang86 vzero = Ok (ld, n) /\
  Forall2 (moved_input sh_d sh_moves (ld_config ld)) is is' /\
  anchored sh_d (snd (respond (list_pq RScalar) (ukf_vtbl ideal_eigen) (ld_config ld) n is)) /\
  points_generated (snd (respond (list_pq RScalar) (ukf_vtbl ideal_eigen) (ld_config ld) n is)) /\
  (exists m, In (OutOdom m) (snd (respond (list_pq RScalar) (ukf_vtbl ideal_eigen) (ld_config ld) n is)) /\ X (o_position m) = 1%R) /\
  (exists m, In (OutOdom m) (snd (respond (list_pq RScalar) (ukf_vtbl ideal_eigen) (ld_config ld) n is')) /\ X (o_position m) = 11%R).
Proof. exact moved_ukf_case. Qed.
