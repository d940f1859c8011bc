(** * Runs of a supervised node (cases of C109) *)

From Coq Require Import ZArith Floats List Bool String Arith.
From Verif Require Import Scalar FloatScalar Mat FilterBase FilterOps Ekf StrMap Tf Diagnostics RosFilter RosConfig Supervise
  SpecNode SpecSupervise SuperviseFacts NodeMore PropsConfig PrepareWit.
Import ListNotations.

(** Only the durations 0 and 1 s are converted. *)
Definition sv_lm : LibM :=
  mkLibM (fun _ => 0%float) (fun _ => 1%float) (fun x => x) (fun y _ => y) (fun x _ => x) round_ofZ
    (fun x => if PrimFloat.eqb x 0%float then 0%Z else 1000000000%Z).
Definition sv_eig : Eigen (FScalar sv_lm) := mkEigen (fun _ A => A) (fun _ A => A).
(** 10 Hz, a sensor timeout of 1 s. *)
Definition sv_par (print permit : bool) : params (FScalar sv_lm) :=
  @mkParams (FScalar sv_lm) print 0%float "map" "odom" "base_link" None None None false false permit 0%float 0%float 10%float false (Some 1%float)
    false false 0%float false 0%float None None None None None false None false [] [] [] [] None None.
Definition sv_start (print permit : bool) :=
  @start (FScalar sv_lm) unit (sv_par print permit) 1000000000 0 0 (@fb_init (FScalar sv_lm) unit (fun _ => 0%float) tt)
    (@mkAng (FScalar sv_lm) v3zero mzero v3zero 0%float) vzero.
Definition sv_fix (stamp : Z) : event (FScalar sv_lm) unit :=
  @EvSensor (FScalar sv_lm) _ true "pose" stamp (flags [0; 1]%nat) 5%float (fun _ u v c => mkPrep true u v c no_streams []).
Definition sv_cycle (t : Z) : Z * event (FScalar sv_lm) unit := (t, EvCycle t t None).
(** One measurement at 0.05 s, updates every 0.1 s. *)
Definition sv_once : list (Z * event (FScalar sv_lm) unit) :=
  ((50000000, sv_fix 50000000) :: map (fun k => sv_cycle (k * 100000000)) [1; 2; 3; 4; 5; 6; 7; 8; 9; 10])%Z.
(** The same with a check of the updater after each update. *)
Definition sv_checked : list (Z * event (FScalar sv_lm) unit) :=
  ((50000000, sv_fix 50000000) :: flat_map (fun k => [sv_cycle (k * 100000000); (k * 100000000 + 1, EvDiagnostics)])
    [1; 2; 3; 4; 5; 6; 7; 8; 9; 10])%Z.

Definition sv_result (print permit : bool) (evs : list (Z * event (FScalar sv_lm) unit)) : option (list verdict * Z * nat) :=
  match sv_start print permit with
  | Ok (ld, n) =>
      let w := watch (list_pq _) (ekf_vtbl sv_eig) (ld_config ld) (p_frequency (sv_par print permit)) n (freq_init 0) evs in
      Some (fst w, fq_count (snd w), List.length (odoms (snd (node_run (list_pq _) (ekf_vtbl sv_eig) (ld_config ld) n (map snd evs)))))
  | _ => None
  end.

Lemma some_triple {A B C} (a a' : A) (b b' : B) (d d' : C) : Some (a, b, d) = Some (a', b', d') -> a = a' /\ b = b' /\ d = d'.
Proof. intros [= -> -> ->]. repeat split. Qed.

Lemma sv_suppressed : sv_result true false sv_once = Some ([Met], 10%Z, 1%nat).
Proof. vm_compute. reflexivity. Qed.
Lemma sv_unprinted : sv_result false true (firstn 3 sv_checked) = Some ([NoEvents], 0%Z, 1%nat).
Proof. vm_compute. reflexivity. Qed.
Lemma sv_counted : sv_result true true sv_checked = Some (repeat Met 11, 10%Z, 10%nat).
Proof. vm_compute. reflexivity. Qed.
Definition sv_between : list act :=
  flat_map (fun k => [Tick; Check (k * 100000000 + 1)]) [2; 3; 4; 5; 6; 7; 8; 9]%Z ++ [Tick; Check 1000000000].
Lemma sv_seen : match sv_start true true with
  | Ok (ld, n) => seen (list_pq _) (ekf_vtbl sv_eig) (ld_config ld) n sv_checked =
      [Tick] ++ Check 100000001 :: sv_between ++ [Check 1000000001]
  | _ => False
  end.
Proof. vm_compute. reflexivity. Qed.

Lemma suppressed_ex : exists ld n, sv_start true false = Ok (ld, n) /\
  let w := watch (list_pq _) (ekf_vtbl sv_eig) (ld_config ld) (p_frequency (sv_par true false)) n (freq_init 0) sv_once in
  fst w = [Met] /\ fq_count (snd w) = 10%Z /\
  List.length (odoms (snd (node_run (list_pq _) (ekf_vtbl sv_eig) (ld_config ld) n (map snd sv_once)))) = 1%nat.
Proof.
  pose proof sv_suppressed as H. unfold sv_result in H. destruct (sv_start true false) as [[ld n]|]; [|discriminate H].
  exists ld, n. split; [reflexivity|]. cbv zeta in H |- *. exact (some_triple _ _ _ _ _ _ H).
Qed.
Lemma unprinted_ex : exists ld n evs, sv_start false true = Ok (ld, n) /\
  fst (watch (list_pq _) (ekf_vtbl sv_eig) (ld_config ld) (p_frequency (sv_par false true)) n (freq_init 0) evs) = [NoEvents] /\
  List.length (odoms (snd (node_run (list_pq _) (ekf_vtbl sv_eig) (ld_config ld) n (map snd evs)))) = 1%nat.
Proof.
  pose proof sv_unprinted as H. unfold sv_result in H. destruct (sv_start false true) as [[ld n]|]; [|discriminate H].
  exists ld, n, (firstn 3 sv_checked). split; [reflexivity|]. cbv zeta in H. apply some_triple in H. destruct H as (A & _ & C). split; [exact A|exact C].
Qed.

(** A resting node in exact arithmetic. *)
Definition rest_config : config RScalar :=
  @mkConfig RScalar false false false true false false true 0 0 0 10000000000 mzero mzero "odom" "map" "odom" "base_link" "base_link".
Definition rest_node : node RScalar unit :=
  with_filter (mkNode (@fb_init RScalar unit (fun _ => s_ofZ 0) tt) [] [] [] no_streams [] 0%Z 0%Z vzero 0%Z 0%Z false true
    (@mkAng RScalar v3zero mzero v3zero (s_ofZ 0)) diag_init) (set_initialized (@fb_init RScalar unit (fun _ => s_ofZ 0) tt) true).
Definition rest_times : list Z := map (fun k => k * 100000000)%Z [1; 2; 3; 4; 5; 6; 7; 8; 9; 10; 11]%Z.
Definition rest_between : list act := flat_map (fun k => [Tick; Check (k * 100000000 + 1)])%Z [2; 3; 4; 5; 6; 7; 8; 9; 10]%Z.
Lemma rest_ex (vt : vtbl RScalar unit) : seen (list_pq RScalar) vt rest_config rest_node (rest_events rest_times) =
  [Tick] ++ Check 100000001 :: (rest_between ++ [Tick]) ++ [Check 1100000001].
Proof.
  rewrite (rest_seen (list_pq RScalar) vt rest_config eq_refl).
  - reflexivity.
  - repeat split.
  - unfold rest_times. cbn [map]. repeat (constructor; [cbn; split; reflexivity || discriminate|]). constructor.
Qed.
