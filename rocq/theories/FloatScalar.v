(** * IEEE binary64 instance of [Scalar] *)

From Coq Require Import ZArith Floats.
From Verif Require Import Scalar.

(** Transcendental functions and conversions are supplied from outside: a
    theorem about [FScalar lm] holds for every math library [lm]. *)

Record LibM : Type := mkLibM {
  lm_sin : float -> float; lm_cos : float -> float; lm_asin : float -> float;
  lm_atan2 : float -> float -> float; lm_fmod : float -> float -> float;
  lm_ofZ : Z -> float; lm_trunc : float -> Z }.

Definition FScalar (lm : LibM) : Scalar :=
  {| sc := float;
     s_add := PrimFloat.add; s_sub := PrimFloat.sub; s_mul := PrimFloat.mul;
     s_div := PrimFloat.div; s_opp := PrimFloat.opp; s_abs := PrimFloat.abs;
     s_sqrt := PrimFloat.sqrt; s_sin := lm_sin lm; s_cos := lm_cos lm;
     s_asin := lm_asin lm; s_atan2 := lm_atan2 lm; s_fmod := lm_fmod lm;
     s_ltb := PrimFloat.ltb; s_leb := PrimFloat.leb; s_eqb := PrimFloat.eqb;
     s_isnan := PrimFloat.is_nan; s_isinf := PrimFloat.is_infinity;
     s_ofZ := lm_ofZ lm; s_trunc := lm_trunc lm;
     s_pi := 0x1.921fb54442d18p+1%float;
     s_dblmax := 0x1.fffffffffffffp+1023%float |}.
