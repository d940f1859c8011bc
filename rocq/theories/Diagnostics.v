(** * Diagnostics of RosFilter

    ros_filter.cpp 2473-2547.  The diagnostic_updater package (external) is
    represented by the report it is handed. *)

From Coq Require Import String List ZArith Bool.
From Verif Require Import StrMap.
Import ListNotations.

(** diagnostic_msgs/DiagnosticStatus constants *)
Definition DIAG_OK : Z := 0%Z.
Definition DIAG_WARN : Z := 1%Z.
Definition DIAG_ERROR : Z := 2%Z.
Definition DIAG_STALE : Z := 3%Z.

(** ros_filter.hpp: static_diagnostics_, dynamic_diagnostics_,
    static_diag_error_level_, dynamic_diag_error_level_ *)
Record diag : Type := mkDiag {
  d_static : smap string;
  d_dynamic : smap string;
  d_static_level : Z;
  d_dynamic_level : Z
}.

(** ros_filter.cpp 98-99: constructor *)
Definition diag_init : diag := mkDiag [] [] DIAG_OK DIAG_OK.

(** One call of addDiagnostic *)
Record diag_call : Type := mkCall {
  dc_level : Z;
  dc_key : string;
  dc_text : string;
  dc_static : bool
}.

(** ros_filter.cpp 2473-2487 *)
Definition addDiagnostic (d : diag) (c : diag_call) : diag :=
  if dc_static c then
    mkDiag (sm_set (d_static d) (dc_key c) (dc_text c)) (d_dynamic d)
           (Z.max (d_static_level d) (dc_level c)) (d_dynamic_level d)
  else
    mkDiag (d_static d) (sm_set (d_dynamic d) (dc_key c) (dc_text c))
           (d_static_level d) (Z.max (d_dynamic_level d) (dc_level c)).

(** What the wrapper is filled with: the summary (level and text), if any, and
    the key/value entries in order. *)
Record diag_report : Type := mkReport {
  rp_summary : option (Z * string);
  rp_entries : list (string * string)
}.

(** ros_filter.cpp 2498-2526 *)
Definition diag_summary (level : Z) : option (Z * string) :=
  if Z.eqb level DIAG_ERROR then
    Some (level, "Erroneous data or settings detected for a robot_localization state estimation this->"%string)
  else if Z.eqb level DIAG_WARN then
    Some (level, "Potentially erroneous data or settings detected for a robot_localization state estimation this->"%string)
  else if Z.eqb level DIAG_STALE then
    Some (level, "The state of the robot_localization state estimation node is stale."%string)
  else if Z.eqb level DIAG_OK then
    Some (level, "The robot_localization state estimation node appears to be functioning properly."%string)
  else None.

(** ros_filter.cpp 2489-2547 *)
Definition aggregateDiagnostics (d : diag) : diag_report * diag :=
  let maxErrLevel := Z.max (d_static_level d) (d_dynamic_level d) in
  (mkReport (diag_summary maxErrLevel) (d_static d ++ d_dynamic d),
   mkDiag (d_static d) [] (d_static_level d) DIAG_OK).
