(** * Settings stay as set (C105) *)

From Coq Require Import Reals ZArith List Bool String.
From Verif Require Import Scalar Mat FilterBase FilterOps Ekf Ukf Tf RosFilter RosConfig RosPrepare Mains SpecConfig SpecNode SpecTf SpecPrepare SpecMains SpecSettings
  EigenExist NodeMore SettingsFacts MainsCase ShiftCase PropsConfig PropsStart.
Import ListNotations.

(** After any calls, in every arithmetic: each setting is the one of the last
    call that gives it, whatever was predicted and fused since.  Commands and
    how they are followed survive a reset. *)
Theorem C105_ekf : forall (K : Scalar) eig g os,
  let f := fb_run (ekf_vtbl eig) (@fb_init K unit g tt) os in
  fb_initialized f = lastly gives_initialised false os /\ fb_last_time f = clock (rev os) /\
  (fb_use_control f, drive_of f) = lastly gives_drive no_drive os /\ fb_use_dyn f = lastly gives_dynamic false os /\
  fb_sensor_timeout f = lastly gives_timeout 33333333%Z os /\ (fb_control f, fb_control_time f) = lastly gives_command (g, 0%Z) os /\
  forall i j, fb_Q f i j = lastly gives_noise built_in_noise os i j.
Proof. exact (fun K eig g os => history_told _ (ekf_keeps eig) g tt os). Qed.
Print Assumptions C105_ekf.
Theorem C105_ukf : forall (K : Scalar) eig g e os,
  let f := fb_run (ukf_vtbl eig) (@fb_init K (ukf_ext K) g e) os in
  fb_initialized f = lastly gives_initialised false os /\ fb_last_time f = clock (rev os) /\
  (fb_use_control f, drive_of f) = lastly gives_drive no_drive os /\ fb_use_dyn f = lastly gives_dynamic false os /\
  fb_sensor_timeout f = lastly gives_timeout 33333333%Z os /\ (fb_control f, fb_control_time f) = lastly gives_command (g, 0%Z) os /\
  forall i j, fb_Q f i j = lastly gives_noise built_in_noise os i j.
Proof. exact (fun K eig g e os => history_told _ (ukf_keeps eig) g e os). Qed.
Print Assumptions C105_ukf.

(** What is set is read back, and setting anything else leaves the estimate. *)
Theorem C105_estimate : forall (K : Scalar) E (vt : vtbl K E) (f : fb K E),
  (forall x, fb_state (fb_exec vt f (OpSetState x)) = x /\ fb_P (fb_exec vt f (OpSetState x)) = fb_P f) /\
  (forall P, fb_P (fb_exec vt f (OpSetP P)) = P /\ fb_state (fb_exec vt f (OpSetP P)) = fb_state f) /\
  (forall o, leaves_estimate o -> fb_state (fb_exec vt f o) = fb_state f /\ fb_P (fb_exec vt f o) = fb_P f).
Proof.
  exact (fun K E vt f => conj (fun x => conj eq_refl eq_refl) (conj (fun P => conj eq_refl eq_refl) (set_and_read vt f))).
Qed.
Print Assumptions C105_estimate.

(** Commands are to be followed with timeout 5 and limits 1 up and 3 down, gains
    2 and 4; a command at 7; a reset; a measurement at 9 and one at 6. *)
Example C105_filter_case :
  let m t := @mkMeas RScalar "odom" t (fun _ => 1%R) meye (flags [0%nat]) 5%R vzero 0 in
  let os := [@OpSetControlParams RScalar (repeat true 6) 5 (repeat 1%R 6) (repeat 2%R 6) (repeat 3%R 6) (repeat 4%R 6);
    OpSetTimeout 8; @OpSetControl RScalar (fun _ => 1%R) 7; OpReset; OpProcess (m 9%Z); OpProcess (m 6%Z)] in
  lastly gives_initialised false os = true /\ clock (rev os) = 9%Z /\
  lastly gives_drive no_drive os = (true, @mkDrive RScalar 5 (repeat true 6) (repeat 1%R 6) (repeat 2%R 6) (repeat 3%R 6) (repeat 4%R 6)) /\
  lastly gives_timeout 33333333%Z os = 33333333%Z /\ snd (lastly gives_command (vzero, 0%Z) os) = 7%Z.
Proof. repeat split; reflexivity. Qed.

(** A started node, whatever arrives: every measurement is fused by a filter set
    up as at the start; with the same process noise too, if it was configured or
    there was no reset. *)
Theorem C105_node_ekf : forall (K : Scalar) eig (pq : pqueue K) (p : params K) period now later g ang nothing ld n is f, pq_ok pq ->
  start p period now later (fb_init g tt) ang nothing = Ok (ld, n) ->
  let r := respond pq (ekf_vtbl eig) (ld_config ld) n is in
  f = n_filter (fst r) \/ (exists m, In (OutFused f m) (snd r)) ->
  same_settings (n_filter n) f /\ (no_reset is \/ p_Q p <> None -> same_noise (n_filter n) f).
Proof.
  exact (fun K eig pq p period now later g ang nothing ld n is f Hq =>
    started_settings (ekf_vtbl eig) pq p period now later g tt ang nothing ld n is f Hq (ekf_keeps eig)).
Qed.
Print Assumptions C105_node_ekf.
Theorem C105_node_ukf : forall (K : Scalar) eig (pq : pqueue K) (p : params K) period now later g e ang nothing ld n is f, pq_ok pq ->
  start p period now later (fb_init g e) ang nothing = Ok (ld, n) ->
  let r := respond pq (ukf_vtbl eig) (ld_config ld) n is in
  f = n_filter (fst r) \/ (exists m, In (OutFused f m) (snd r)) ->
  same_settings (n_filter n) f /\ (no_reset is \/ p_Q p <> None -> same_noise (n_filter n) f).
Proof.
  exact (fun K eig pq p period now later g e ang nothing ld n is f Hq =>
    started_settings (ukf_vtbl eig) pq p period now later g e ang nothing ld n is f Hq (ukf_keeps eig)).
Qed.
Print Assumptions C105_node_ukf.

(** Commands on two axes and configured noise; a command, a reset and a cycle.
    And a node that fuses. *)
Example C105_node_case :
  (let p := ex_par true true (Some [true; false; false; false; false; true]) (Some []) [] [] [] [] (Some (repeat 1%R 15)) None in
   exists ld n, start p 0 0 0 (@fb_init RScalar unit (fun _ => 0%R) tt) ex_ang86 vzero = Ok (ld, n) /\ p_Q p <> None /\
   fb_use_control (n_filter n) = true /\ fb_acc_gains (n_filter n) = repeat 1%R 6 /\ fb_Q (n_filter n) 2%nat 2%nat = 1%R /\
   ~ no_reset [Event (EvControl "base_link" vzero 1); Event (@EvReset RScalar unit); Event (EvCycle 2 2 None)]) /\
  exists ld n is f m, @ukf_main RScalar None None None (sh_par false false) 0 0 0 (fun _ => 0%R) (fun _ _ => 0%R) mzero 0%R ex_ang86 vzero = Ok (ld, n) /\
  In (OutFused f m) (snd (respond (list_pq RScalar) (ukf_vtbl ideal_eigen) (ld_config ld) n is)) /\ m_upd m = flags [0; 1]%nat.
Proof.
  split; [|exact main_ex]. cbv zeta. eexists. eexists. split; [reflexivity|]. split; [discriminate|].
  split; [reflexivity|]. split; [reflexivity|]. split; [reflexivity|].
  intros H. unfold no_reset in H. rewrite Forall_forall in H. apply (H (Event (@EvReset RScalar unit))); [right; left|]; reflexivity.
Qed.
