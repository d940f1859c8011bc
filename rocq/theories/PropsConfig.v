(** * Properties of configuration loading (C40 second half, C45-C48, C71, C72) *)

From Coq Require Import Reals ZArith List Bool String Ascii Arith Lia.
From Verif Require Import Scalar Mat FilterBase Tf StrMap Diagnostics RosFilter RosConfig SpecConfig
  ConfigProofs ConfigAll ConfigFacts.
Import ListNotations.

(** ** Concrete parameters *)
Definition flags (l : list nat) : list bool := map (fun i => existsb (Nat.eqb i) l) (seq 0 15).
Definition ex_odom (c : option (list bool)) (d : bool) : odom_par RScalar := @mkOdomPar RScalar "/wheel" c d true false 5%R 5%R.
Definition ex_pose (c : option (list bool)) : pose_par RScalar := @mkPosePar RScalar "/gps" c false false 5%R.
Definition ex_twist (c : option (list bool)) : twist_par RScalar := @mkTwistPar RScalar "/twist" c 5%R.
Definition ex_imu (c : option (list bool)) : imu_par RScalar := @mkImuPar RScalar "/imu" c false true 5%R 5%R 5%R true.
Definition ex_par (two_d control : bool) (cc : option (list bool)) (ag : option (list R))
    (os : list (odom_par RScalar)) (ps : list (pose_par RScalar)) (ts : list (twist_par RScalar)) (is : list (imu_par RScalar))
    (Q P : option (list R)) : params RScalar :=
  @mkParams RScalar true 9.81%R "map" "odom" "base_link" None None (Some "robot"%string) true false true 0%R 0%R 30%R false None
    two_d false 0%R control 1%R cc None ag None None false (Some (repeat 1%R 15)) false os ps ts is Q P.
Definition ex_new : fb RScalar unit := @fb_init RScalar unit (fun _ => 0%R) tt.
(** odometry (differential, x y yaw vx vyaw), pose (x y), twist (vx vy), IMU
    (roll, vyaw, ax) and control of vx, vyaw *)
Definition ex_full : params RScalar :=
  ex_par true true (Some [true; false; false; false; false; true]) (Some [])
    [ex_odom (Some (flags [0; 1; 5; 6; 11])) true] [ex_pose (Some (flags [0; 1]))] [ex_twist (Some (flags [6; 7]))]
    [ex_imu (Some (flags [3; 11; 12]))] None None.
Definition opened {A : Type} (o : outcome A) : bool := match o with Ok _ => true | Undefined => false end.
Definition subs_of (p : params RScalar) : list (subscription RScalar) :=
  match loadParams p 0 0 ex_new with Ok ld => ld_subs ld | Undefined => [] end.

(** ** C40: covariances that were not configured *)
Theorem C40_unconfigured_covariance : forall (K : Scalar) E (p : params K) period now later g (e : E) ang nothing ld n,
  start p period now later (fb_init g e) ang nothing = Ok (ld, n) -> p_Q p = None -> p_P p = None ->
  fb_Q (n_filter n) = default_Q /\ fb_P (n_filter n) = mscale (lit 1 9) meye /\
  fb_Q (n_filter (reset (ld_config ld) n)) = mzero /\ fb_P (n_filter (reset (ld_config ld) n)) = mzero.
Proof. exact (@reset_unconfigured). Qed.
Print Assumptions C40_unconfigured_covariance.
Theorem C40_initial_state_lost : forall (K : Scalar) E (p : params K) period now later (f : fb K E) ang nothing ld n v,
  start p period now later f ang nothing = Ok (ld, n) -> p_initial_state p = Some v -> List.length v = 15%nat ->
  (forall i, fb_state (n_filter n) i = nth i v (s_ofZ 0)) /\
  (forall i, fb_state (n_filter (reset (ld_config ld) n)) i = s_ofZ 0).
Proof. exact (@reset_initial_state). Qed.
Print Assumptions C40_initial_state_lost.
Example C40_start_case :
  opened (start ex_full 0 0 0 ex_new (@mkAng RScalar v3zero mzero v3zero 0%R) vzero) = true /\
  p_Q ex_full = None /\ p_P ex_full = None /\
  (exists v, p_initial_state ex_full = Some v /\ List.length v = 15%nat /\ nth 3 v 0%R = 1%R).
Proof. repeat split. exists (repeat 1%R 15). repeat split. Qed.

(** ** C45: masks *)
Theorem C45_masks : forall (K : Scalar) E (p : params K) period now (f : fb K E) ld s,
  loadParams p period now f = Ok ld -> In s (ld_subs ld) ->
  (exists i o, nth_error (p_odoms p) i = Some o /\ odom_sub i o s) \/
  (exists i o, nth_error (p_poses p) i = Some o /\ pose_sub i o s) \/
  (exists i o, nth_error (p_twists p) i = Some o /\ twist_sub i o s) \/
  (exists i o, nth_error (p_imus p) i = Some o /\ imu_sub i o s).
Proof. exact (@subs_from). Qed.
Print Assumptions C45_masks.
Theorem C45_subscribed : forall (K : Scalar) E (p : params K) period now (f : fb K E) ld,
  loadParams p period now f = Ok ld ->
  (forall i o, nth_error (p_odoms p) i = Some o -> useful (op_config o) (fun _ => true) ->
     exists s, In s (ld_subs ld) /\ odom_sub i o s) /\
  (forall i o, nth_error (p_poses p) i = Some o -> useful (pp_config o) (fun k => negb (within 6 15 k)) ->
     exists s, In s (ld_subs ld) /\ pose_sub i o s) /\
  (forall i o, nth_error (p_twists p) i = Some o -> useful (tp_config o) (fun k => negb (within 0 6 k)) ->
     exists s, In s (ld_subs ld) /\ twist_sub i o s) /\
  (forall i o, nth_error (p_imus p) i = Some o -> useful (ip_config o) (fun k => within 3 6 k || Nat.leb 9 k)%bool ->
     exists s, In s (ld_subs ld) /\ imu_sub i o s).
Proof. exact (@subs_all). Qed.
Print Assumptions C45_subscribed.
Example C45_case : List.length (subs_of ex_full) = 4%nat.
Proof. reflexivity. Qed.
(** "An odometry or twist input never updates an acceleration" fails: every
    configured acceleration flag reaches both parts. *)
Theorem C45_acceleration_kept : forall (K : Scalar) E (p : params K) period now (f : fb K E) ld i k,
  loadParams p period now f = Ok ld -> (12 <= k < 15)%nat ->
  (forall o, nth_error (p_odoms p) i = Some o -> configured (op_config o) k = true ->
     exists a b, In (SubOdom (numbered "odom" i) a b) (ld_subs ld) /\ nth k (cd_upd a) false = true /\ nth k (cd_upd b) false = true) /\
  (forall o, nth_error (p_twists p) i = Some o -> configured (tp_config o) k = true ->
     exists a, In (SubTwist a) (ld_subs ld) /\ nth k (cd_upd a) false = true).
Proof. exact (@acceleration_kept). Qed.
Print Assumptions C45_acceleration_kept.
Theorem C45_acceleration_refuted :
  exists (p : params RScalar) ld o d, loadParams p 0 0 ex_new = Ok ld /\
    In (SubOdom "odom0" o d) (ld_subs ld) /\ nth 12 (cd_upd o) false = true /\ nth 12 (cd_upd d) false = true.
Proof.
  exact (acceleration_witness (ex_par false false None None [ex_odom (Some (flags [6; 12])) false] [] [] [] None None)
    0 0 ex_new (ex_odom (Some (flags [6; 12])) false) eq_refl eq_refl eq_refl).
Qed.
Print Assumptions C45_acceleration_refuted.

(** ** C46: sizes *)
Theorem C46_sizes : forall (K : Scalar) E (p : params K) period now (f : fb K E),
  (exists ld, loadParams p period now f = Ok ld) <-> sizes_ok p.
Proof. exact (@loadParams_ok_iff). Qed.
Print Assumptions C46_sizes.
Theorem C46_control_vectors : forall (K : Scalar) E (p : params K) period now g (e : E) ld,
  loadParams p period now (fb_init g e) = Ok ld ->
  (control_access_ok (ld_filter ld) = true <-> c_use_control (ld_config ld) = false \/ p_acc_gains p <> None).
Proof. exact (@control_access_init). Qed.
Print Assumptions C46_control_vectors.
(** Both verdicts occur: missing gains, a covariance of 16 entries, a pose
    configuration of 12 flags, an IMU without control configuration. *)
Example C46_case :
  opened (loadParams ex_full 0 0 ex_new) = true /\
  (match loadParams ex_full 0 0 ex_new with Ok ld => control_access_ok (ld_filter ld) | Undefined => false end) = true /\
  (match loadParams (ex_par true true (p_control_config ex_full) None [] [] [] [] None None) 0 0 ex_new with
   | Ok ld => control_access_ok (ld_filter ld) | Undefined => true end) = false /\
  opened (loadParams (ex_par true false None None [] [] [] [] (Some (repeat 1%R 16)) None) 0 0 ex_new) = false /\
  opened (loadParams (ex_par true false None None [] [ex_pose (Some (repeat true 12))] [] [] None None) 0 0 ex_new) = false /\
  opened (loadParams (ex_par true true None None [] [] [] [ex_imu None] None None) 0 0 ex_new) = false.
Proof. repeat split. Qed.

(** ** C47: start-up report *)
Theorem C47_unmeasured : forall (K : Scalar) E (p : params K) period now (f : fb K E) ld v,
  loadParams p period now f = Ok ld -> (v < 6)%nat -> v <> 1%nat ->
  (says (ld_diag ld) v unmeasured_text <->
     p_print_diag p = true /\ pose_inputs p false v = 0%nat /\ velocity_inputs p v = 0%nat /\
     ~ (p_two_d p = true /\ planar_free v = true)).
Proof.
  exact (fun K E p period now f ld v HL Hv => match Nat.eq_dec v 1 with
    | left e => fun n => False_ind _ (n e)
    | right n => fun _ => eq_rect (Nat.eqb v 1) (fun b => says (ld_diag ld) v unmeasured_text <->
         p_print_diag p = true /\ pose_inputs p false v = 0%nat /\ velocity_inputs_of p v (if b then 0 else v) = 0%nat /\
         ~ (p_two_d p = true /\ planar_free v = true)) (proj2 (report_spec p period now f ld v HL Hv)) false (proj2 (Nat.eqb_neq v 1) n)
    end).
Qed.
Print Assumptions C47_unmeasured.
(** Of the lateral velocity, odometry inputs are asked for the forward one. *)
Theorem C47_unmeasured_y : forall (K : Scalar) E (p : params K) period now (f : fb K E) ld,
  loadParams p period now f = Ok ld ->
  (says (ld_diag ld) 1 unmeasured_text <->
     p_print_diag p = true /\ pose_inputs p false 1 = 0%nat /\ velocity_inputs_of p 1 0 = 0%nat /\
     ~ (p_two_d p = true /\ planar_free 1 = true)).
Proof. exact (fun K E p period now f ld HL => proj2 (report_spec p period now f ld 1 HL (le_n_S 1 5 ltac:(lia)))). Qed.
Print Assumptions C47_unmeasured_y.
Theorem C47_multiple : forall (K : Scalar) E (p : params K) period now (f : fb K E) ld v,
  loadParams p period now f = Ok ld -> (v < 6)%nat ->
  (says (ld_diag ld) v multiple_text <-> p_print_diag p = true /\ (2 <= pose_inputs p false v)%nat).
Proof. exact (fun K E p period now f ld v HL Hv => proj1 (report_spec p period now f ld v HL Hv)). Qed.
Print Assumptions C47_multiple.
Definition report (p : params RScalar) (v : nat) : option string :=
  match loadParams p 0 0 ex_new with Ok ld => sm_find (d_static (ld_diag ld)) (report_key v) | Undefined => None end.
Example C47_case : report (ex_par true false None None [] [ex_pose (Some (flags [0])); ex_pose (Some (flags [0]))] [] [] None None) 0 = Some multiple_text /\
  report (ex_par true false None None [] [] [] [ex_imu (Some (flags [11]))] None None) 5 = None /\
  report (ex_par true false None None [] [] [] [] None None) 5 = Some unmeasured_text /\
  report (ex_par true false None None [] [] [] [] None None) 2 = None /\
  report (ex_par false false None None [] [] [] [] None None) 2 = Some unmeasured_text.
Proof. repeat split. Qed.
(** The report about Y is wrong both ways: an odometry input of vy alone is
    reported as unmeasured, one of vx alone is not. *)
Theorem C47_lateral_refuted :
  (exists (p : params RScalar) ld, loadParams p 0 0 ex_new = Ok ld /\ velocity_inputs p 1 = 1%nat /\
     says (ld_diag ld) 1 unmeasured_text) /\
  (exists (p : params RScalar) ld, loadParams p 0 0 ex_new = Ok ld /\ p_print_diag p = true /\
     pose_inputs p false 1 = 0%nat /\ velocity_inputs p 1 = 0%nat /\ ~ says (ld_diag ld) 1 unmeasured_text).
Proof.
  split.
  - exists (ex_par false false None None [ex_odom (Some (flags [7])) false] [] [] [] None None).
    eexists. split; [reflexivity|]. split; reflexivity.
  - exists (ex_par false false None None [ex_odom (Some (flags [6])) false] [] [] [] None None).
    eexists. split; [reflexivity|]. repeat split. intros H. discriminate H.
Qed.
Print Assumptions C47_lateral_refuted.

(** ** C48: prefixing *)
Theorem C48_prefixed : forall a b a' b', plain_name a -> plain_name b ->
  (a' = a \/ a' = String "/" a) -> (b' = b \/ b' = String "/" b) -> appendPrefix a' b' = (a ++ "/" ++ b)%string.
Proof. exact appendPrefix_plain. Qed.
Print Assumptions C48_prefixed.
Theorem C48_empty : forall f, appendPrefix "" f = f.
Proof. exact appendPrefix_empty. Qed.
Print Assumptions C48_empty.
Example C48_case : plain_name "robot" /\ plain_name "odom" /\ appendPrefix "/robot" "/odom" = "robot/odom"%string.
Proof. repeat split; discriminate. Qed.
(** Leading and doubled separators survive: only one is removed, and none with
    an empty prefix. *)
Theorem C48_separators_refuted :
  appendPrefix "" "/odom" = "/odom"%string /\ appendPrefix "/" "odom" = "/odom"%string /\
  appendPrefix "//robot" "odom" = "/robot/odom"%string /\ appendPrefix "robot/" "odom" = "robot//odom"%string.
Proof. exact (conj eq_refl (conj eq_refl (conj eq_refl eq_refl))). Qed.
Print Assumptions C48_separators_refuted.
(** The configured prefix never reaches the frames. *)
Theorem C48_prefix_unused : forall (K : Scalar) E (p : params K) period now (f : fb K E) ld,
  loadParams p period now f = Ok ld ->
  c_map (ld_config ld) = p_map p /\ c_odom (ld_config ld) = p_odom p /\ c_base (ld_config ld) = p_base p /\
  c_base_out (ld_config ld) = match p_base_out p with Some s => s | None => p_base p end /\
  c_world (ld_config ld) = match p_world p with Some s => s | None => p_odom p end.
Proof. exact (@prefix_unused). Qed.
Print Assumptions C48_prefix_unused.
Example C48_unused_case : p_tf_prefix ex_full = Some "robot"%string /\
  opened (loadParams ex_full 0 0 ex_new) = true /\ p_base ex_full = "base_link"%string.
Proof. repeat split. Qed.

(** ** C71: stream names *)
Theorem C71_streams_distinct : forall (K : Scalar) E (p : params K) period now (f : fb K E) ld,
  loadParams p period now f = Ok ld -> NoDup (List.concat (map stream_names (ld_subs ld))).
Proof. exact (@subs_names). Qed.
Print Assumptions C71_streams_distinct.
Example C71_case : List.concat (map stream_names (subs_of ex_full)) =
  ["odom0_pose"; "odom0_twist"; "pose0"; "twist0"; "imu0_pose"; "imu0_twist"; "imu0_acceleration"]%string.
Proof. reflexivity. Qed.

(** ** C72: control and measured accelerations *)
Theorem C72_control_axes : forall (K : Scalar) E (p : params K) period now (f : fb K E) ld j,
  loadParams p period now f = Ok ld -> c_use_control (ld_config ld) = true -> (j < 6)%nat ->
  nth j (fb_control_upd (ld_filter ld)) false =
  (configured (p_control_config p) j && negb (Nat.ltb j 3 && existsb (fun o => configured (ip_config o) (j + 12)) (p_imus p)))%bool.
Proof. exact (@loaded_control_flags). Qed.
Print Assumptions C72_control_axes.
Theorem C72_control_used : forall (K : Scalar) E (p : params K) period now (f : fb K E) ld,
  loadParams p period now f = Ok ld ->
  (c_use_control (ld_config ld) = true <->
   p_use_control p = true /\
   (exists v, p_control_config p = Some v /\ List.length v = 6%nat) /\
   (forall v, p_acc_limits p = Some v -> List.length v = 6%nat) /\
   (forall v, p_dec_limits p = Some v -> List.length v = 6%nat) /\
   exists j, (j < 6)%nat /\ configured (p_control_config p) j = true /\
     ((j < 3)%nat -> forall o, In o (p_imus p) -> configured (ip_config o) (j + 12) = false)).
Proof. exact (@control_used_iff). Qed.
Print Assumptions C72_control_used.
Definition control_of (p : params RScalar) : option (bool * list bool) :=
  match loadParams p 0 0 ex_new with
  | Ok ld => Some (c_use_control (ld_config ld), fb_control_upd (ld_filter ld))
  | Undefined => None
  end.
Example C72_case : control_of ex_full = Some (true, [false; false; false; false; false; true]).
Proof. reflexivity. Qed.
