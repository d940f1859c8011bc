(** * The main programs of the filter nodes: src/ekf_node.cpp, src/ukf_node.cpp *)

From Coq Require Import ZArith.
From Verif Require Import Scalar Mat FilterBase RosFilter RosConfig RosPrepare Ekf Ukf.

Section Mains.
Context {K : Scalar}.
Local Open Scope sc_scope.

(** ukf_node.cpp 47-49: [declare_parameter(name, default)] yields the value
    given for the node, or the default when none is given. *)
Definition declare_parameter (given : option K) (default : K) : K :=
  match given with Some v => v | None => default end.

(** ekf_node.cpp 39-47.  [spin] hands messages, requests and timer calls to
    the node one by one (SpecPrepare.respond); init, the node's name and
    shutdown are not modelled. *)
Definition ekf_main (p : params K) (period now later : Z) (garbage : vec K)
    (ang : angular K) (nothing : vec K) : outcome (loaded K unit * node K unit) :=
  start p period now later (fb_init garbage tt) ang nothing.

(** ukf_node.cpp 40-53: the constants are set before [initialize] loads the
    other parameters.  No value of alpha, kappa or beta is refused. *)
Definition ukf_main (alpha kappa beta : option K) (p : params K) (period now later : Z)
    (garbage : vec K) (garbage_sigma : nat -> vec K) (garbage_sqrt : mat K) (garbage_lambda : K)
    (ang : angular K) (nothing : vec K) : outcome (loaded K (ukf_ext K) * node K (ukf_ext K)) :=
  let a := declare_parameter alpha (lit 1 3) in
  let k := declare_parameter kappa 0 in
  let b := declare_parameter beta 2 in
  let f := setConstants (ukf_init garbage garbage_sigma garbage_sqrt garbage_lambda) a k b in
  start p period now later f ang nothing.
End Mains.
