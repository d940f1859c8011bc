(** * Specification vocabulary for UTM-zone requests (C90) *)

From Coq Require Import ZArith List Bool String.
From Verif Require Import Scalar Mat Tf RosFilter RosPrepare Navsat SpecNavsat.
Import ListNotations.

Section Zone.
Context {K : Scalar}.

(** The projection uses the zone it is asked for. *)
Definition honours_zone (g : geolib K) (z : Z) : Prop :=
  forall lat lon z' northp x y gamma, g_forward g lat lon z = Some (z', northp, x, y, gamma) -> z' = z.

(** A usable fix that can be projected into zone [z] (any, in local cartesian mode). *)
Definition fix_in_zone (g : geolib K) (p : nav_params K) (z : Z) (ev : nav_event K) : Prop :=
  exists f, ev = EvGps f /\ usable f /\ (p_local p = true \/ exists r, g_forward g (fx_lat f) (fx_lon f) z = Some r).

(** The datum of the state is the fix, projected into zone [z] (around itself
    in local cartesian mode). *)
Definition datum_from (g : geolib K) (p : nav_params K) (z : Z) (f : fix_msg K) (n : nav K) : Prop :=
  if p_local p then
    let xy := g_local g (fx_lat f) (fx_lon f) (fx_lat f) (fx_lon f) (fx_alt f) in
    t_origin (nv_cart n) = mkV3 (fst xy) (snd xy) (fx_alt f) /\ nv_local n = (fx_lat f, fx_lon f)
  else exists x y gamma,
    g_forward g (fx_lat f) (fx_lon f) z = Some (z, nv_northp n, x, y, gamma) /\ nv_zone n = z /\
    t_origin (nv_cart n) = mkV3 x y (fx_alt f) /\ nv_convergence n = s_mul gamma (s_div s_pi (lit 180 0)).

End Zone.
