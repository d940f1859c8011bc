(** * The choice of the epoch (C99) *)

From Coq Require Import Reals ZArith List Bool Lia String.
From Verif Require Import Scalar Mat FilterBase FilterOps Ekf Ukf StrMap Tf RosFilter RosConfig RosPrepare
  SpecConfig SpecNode SpecTf SpecLin SpecFilter SpecPrepare SpecStart SpecShift SpecEpoch
  EigenExist NodeMore ShiftCase EpochFilter EpochNode EpochCase PropsConfig PropsStart.
Import ListNotations.
Local Open Scope Z_scope.

(** Two filters are constructed alike and see the same history, every time in
    it [T] nanoseconds later for the second.  The second is the first with
    another time: the estimate is the same, for every kind of number. *)
Theorem C99_filter : forall (K : Scalar) eig T lo (g : vec K) ops ops', 0 <= lo -> Forall2 (delayed_op T lo) ops ops' ->
  let f := fb_run (ekf_vtbl eig) (fb_init g tt) ops in
  exists last control, fb_run (ekf_vtbl eig) (fb_init g tt) ops' = retimed f last control /\
    (fb_initialized f = true -> last = fb_last_time f + T).
Proof. intros K eig T lo g ops ops'. apply filter_later. apply ekf_blind. Qed.
Print Assumptions C99_filter.
Theorem C99_ukf_filter : forall (K : Scalar) eig T lo (g : vec K) (e : ukf_ext K) ops ops', 0 <= lo -> Forall2 (delayed_op T lo) ops ops' ->
  let f := fb_run (ukf_vtbl eig) (fb_init g e) ops in
  exists last control, fb_run (ukf_vtbl eig) (fb_init g e) ops' = retimed f last control /\
    (fb_initialized f = true -> last = fb_last_time f + T).
Proof. intros K eig T lo g e ops ops'. apply filter_later. apply ukf_blind. Qed.
Print Assumptions C99_ukf_filter.

(** Two nodes are started with the same parameters and receive the same
    inputs, every time [T] later for the second.  The second publishes what the
    first publishes, [T] later.  Times are compared from [lo] on, which is
    after the clock's zero by at least the diagnostic period and the timeout
    of the control. *)
Theorem C99_epoch : forall eig (pq : pqueue RScalar) (p : params RScalar) period now later g ang nothing ld n T lo is is',
  pq_ok pq -> order_blind pq ->
  start p period now later (fb_init g tt) ang nothing = Ok (ld, n) ->
  0 < lo -> period <= lo -> fb_control_timeout (n_filter n) <= lo ->
  Forall2 (delayed_input T lo (ld_config ld)) is is' ->
  exists ld' n', start p period (now + T) (later + T) (fb_init g tt) (delayed_ang T ang) nothing = Ok (ld', n') /\
    ld_config ld' = ld_config ld /\ ld_subs ld' = ld_subs ld /\
    Forall2 (delayed_output T) (snd (respond pq (ekf_vtbl eig) (ld_config ld) n is))
                               (snd (respond pq (ekf_vtbl eig) (ld_config ld') n' is')).
Proof. exact ekf_later. Qed.
Print Assumptions C99_epoch.
Theorem C99_ukf_epoch : forall eig (pq : pqueue RScalar) (p : params RScalar) period now later g gs gq gl alpha kappa beta ang nothing ld n T lo is is',
  pq_ok pq -> order_blind pq ->
  start p period now later (setConstants (@ukf_init RScalar g gs gq gl) alpha kappa beta) ang nothing = Ok (ld, n) ->
  0 < lo -> period <= lo -> fb_control_timeout (n_filter n) <= lo ->
  Forall2 (delayed_input T lo (ld_config ld)) is is' ->
  exists ld' n', start p period (now + T) (later + T) (setConstants (@ukf_init RScalar g gs gq gl) alpha kappa beta) (delayed_ang T ang) nothing = Ok (ld', n') /\
    ld_config ld' = ld_config ld /\ ld_subs ld' = ld_subs ld /\
    Forall2 (delayed_output T) (snd (respond pq (ukf_vtbl eig) (ld_config ld) n is))
                               (snd (respond pq (ukf_vtbl eig) (ld_config ld') n' is')).
Proof. exact ukf_later. Qed.
Print Assumptions C99_ukf_epoch.

(** It matters that the times are after zero: a message stamped zero is
    refused, as if it were older than the last set pose. *)
Theorem C99_zero_refuted : exists ld n ld' n' is is',
  start ep_par 0 0 0 ex_new ex_ang86 vzero = Ok (ld, n) /\ start ep_par 0 5 5 ex_new (delayed_ang 5 ex_ang86) vzero = Ok (ld', n') /\
  fb_control_timeout (n_filter n) = 0 /\ Forall2 (delayed_input 5 0 (ld_config ld)) is is' /\
  shown_at (snd (respond (list_pq RScalar) (ekf_vtbl ideal_eigen) (ld_config ld) n is)) = [] /\
  shown_at (snd (respond (list_pq RScalar) (ekf_vtbl ideal_eigen) (ld_config ld') n' is')) = [(5, 1%R)].
Proof. exact zero_ex. Qed.
Print Assumptions C99_zero_refuted.

(** The time of the last differentiation is not initialised.  If the value left
    over is the same at another epoch, the first angular acceleration is
    another. *)
Theorem C99_left_over_refuted : exists ld n ld' n' is is',
  start ep_par 0 0 0 ex_new ex_ang86 vzero = Ok (ld, n) /\ start ep_par 0 100 100 ex_new ex_ang86 vzero = Ok (ld', n') /\
  Forall2 (delayed_input 100 1 (ld_config ld)) is is' /\
  shown_turn (snd (respond (list_pq RScalar) (ekf_vtbl ideal_eigen) (ld_config ld) n is)) = [1 / (6 / 1000000000)]%R /\
  shown_turn (snd (respond (list_pq RScalar) (ekf_vtbl ideal_eigen) (ld_config ld') n' is')) = [1 / (106 / 1000000000)]%R.
Proof. exact left_over_ex. Qed.
Print Assumptions C99_left_over_refuted.

(** A position stamped 5 ns, then 105 ns. *)
Example C99_case : exists ld n is is', start ep_par 0 0 0 ex_new ex_ang86 vzero = Ok (ld, n) /\
  fb_control_timeout (n_filter n) = 0 /\ Forall2 (delayed_input 100 1 (ld_config ld)) is is' /\
  shown_at (snd (respond (list_pq RScalar) (ekf_vtbl ideal_eigen) (ld_config ld) n is)) = [(5, 1%R)].
Proof. exact ep_case. Qed.
Example C99_ukf_case : exists ld n is is', start ep_par 0 0 0 sh_ukf ex_ang86 vzero = Ok (ld, n) /\
  fb_control_timeout (n_filter n) = 0 /\ Forall2 (delayed_input 100 1 (ld_config ld)) is is' /\
  shown_at (snd (respond (list_pq RScalar) (ukf_vtbl ideal_eigen) (ld_config ld) n is)) = [(5, 1%R)].
Proof. exact ep_case_ukf. Qed.
(** The list queue compares times only. *)
Example C99_queue : forall K, order_blind (list_pq K) /\ pq_ok (list_pq K).
Proof. intros K. split; [apply list_pq_order|apply list_pq_ok]. Qed.
(** A filter with control of a timeout of 2 ns. *)
Definition ep_meas (t c : Z) : meas RScalar := @mkMeas RScalar "a" t (fun _ => 1%R) meye (flags [0; 1]%nat) 0%R vzero c.
Definition ep_ops (T : Z) : list (fb_op RScalar) :=
  [@OpSetControlParams RScalar (repeat true 6) 2 (repeat 1%R 6) (repeat 1%R 6) (repeat 1%R 6) (repeat 1%R 6);
   OpProcess (ep_meas (5 + T) 0); @OpSetControl RScalar (fun _ => 1%R) (5 + T); OpPredict (9 + T) 4].
Example C99_filter_case : Forall2 (delayed_op 100 2) (ep_ops 0) (ep_ops 100) /\
  let f := fb_run (ekf_vtbl ideal_eigen) ex_new (ep_ops 0) in
  fb_initialized f = true /\ fb_last_time f = 5.
Proof.
  split; [|split; reflexivity]. unfold ep_ops. repeat constructor; try (cbn; lia). exists 0. reflexivity.
Qed.
