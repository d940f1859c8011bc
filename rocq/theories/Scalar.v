(** * The scalar type of the model

    The C++ code computes with [double].  The model is written once over an
    abstract record of operations, so that
    - theorems quantified over every [Scalar] use no law of arithmetic and hold
      for IEEE doubles as well;
    - [RScalar] (exact reals) is used for algebraic theorems;
    - [FScalar] (file FloatScalar.v; IEEE binary64, Coq primitive floats) is used for witnesses that
      need NaN or infinity.

    Simplification: one rounding mode / one evaluation order.  Eigen may
    re-associate sums; theorems over [RScalar] are insensitive to that. *)

From Coq Require Import ZArith Reals Lra Lia Bool List.
Import ListNotations.

Record Scalar : Type := mkScalar {
  sc      :> Type;
  s_add   : sc -> sc -> sc;
  s_sub   : sc -> sc -> sc;
  s_mul   : sc -> sc -> sc;
  s_div   : sc -> sc -> sc;
  s_opp   : sc -> sc;
  s_abs   : sc -> sc;             (* ::fabs *)
  s_sqrt  : sc -> sc;
  s_sin   : sc -> sc;
  s_cos   : sc -> sc;
  s_asin  : sc -> sc;
  s_atan2 : sc -> sc -> sc;
  s_fmod  : sc -> sc -> sc;
  s_ltb   : sc -> sc -> bool;     (* a <  b *)
  s_leb   : sc -> sc -> bool;     (* a <= b *)
  s_eqb   : sc -> sc -> bool;     (* a == b *)
  s_isnan : sc -> bool;           (* std::isnan *)
  s_isinf : sc -> bool;           (* std::isinf *)
  s_ofZ   : Z -> sc;              (* static_cast<double>(integer) *)
  s_trunc : sc -> Z;              (* static_cast<int64_t>(double), value in range *)
  s_pi    : sc;                   (* M_PI *)
  s_dblmax : sc                   (* std::numeric_limits<double>::max() *)
}.

Declare Scope sc_scope.
Delimit Scope sc_scope with sc.

Arguments s_add {_} _ _.
Arguments s_sub {_} _ _.
Arguments s_mul {_} _ _.
Arguments s_div {_} _ _.
Arguments s_opp {_} _.
Arguments s_abs {_} _.
Arguments s_sqrt {_} _.
Arguments s_sin {_} _.
Arguments s_cos {_} _.
Arguments s_asin {_} _.
Arguments s_atan2 {_} _ _.
Arguments s_fmod {_} _ _.
Arguments s_ltb {_} _ _.
Arguments s_leb {_} _ _.
Arguments s_eqb {_} _ _.
Arguments s_isnan {_} _.
Arguments s_isinf {_} _.
Arguments s_ofZ {_} _.
Arguments s_trunc {_} _.
Arguments s_pi {_}.
Arguments s_dblmax {_}.

Notation "a + b" := (s_add a%sc b%sc) : sc_scope.
Notation "a - b" := (s_sub a%sc b%sc) : sc_scope.
Notation "a * b" := (s_mul a%sc b%sc) : sc_scope.
Notation "a / b" := (s_div a%sc b%sc) : sc_scope.
Notation "- a" := (s_opp a%sc) : sc_scope.
Notation "0" := (s_ofZ 0%Z) : sc_scope.
Notation "1" := (s_ofZ 1%Z) : sc_scope.
Notation "2" := (s_ofZ 2%Z) : sc_scope.

(** Decimal literal [m * 10^-k] (e.g. [1e-9] is [lit 1 9]). *)
Definition lit {K : Scalar} (m : Z) (k : Z) : K := (s_ofZ m / s_ofZ (10 ^ k))%sc.

(** [std::max(a,b)] is [(a < b) ? b : a]; [std::min(a,b)] is [(b < a) ? b : a]. *)
Definition s_max {K : Scalar} (a b : K) : K := if s_ltb a b then b else a.
Definition s_min {K : Scalar} (a b : K) : K := if s_ltb b a then b else a.

(** ** Exact reals *)

Definition Rltb (a b : R) : bool := if Rlt_dec a b then true else false.
Definition Rleb (a b : R) : bool := if Rle_dec a b then true else false.
Definition Reqb (a b : R) : bool := if Req_EM_T a b then true else false.

(** Integer part toward zero: [static_cast<int64_t>]. *)
Definition Rtrunc (x : R) : Z :=
  if Rle_dec 0 x then Int_part x else (- Int_part (- x))%Z.

(** C [fmod]: result has the sign of the dividend. *)
Definition Rfmod (x y : R) : R := (x - y * IZR (Rtrunc (x / y)))%R.

(** C [atan2(y, x)] for finite arguments. *)
Definition Ratan2 (y x : R) : R :=
  if Rlt_dec 0 x then atan (y / x)
  else if Rlt_dec x 0 then
    (if Rle_dec 0 y then atan (y / x) + PI else atan (y / x) - PI)%R
  else if Rlt_dec 0 y then (PI / 2)%R
  else if Rlt_dec y 0 then (- (PI / 2))%R
  else 0%R.

(** [DBL_MAX] as a real: (2^53 - 1) * 2^971. *)
Definition R_dblmax : R := IZR ((2 ^ 53 - 1) * 2 ^ 971)%Z.

Definition RScalar : Scalar :=
  {| sc := R;
     s_add := Rplus; s_sub := Rminus; s_mul := Rmult; s_div := Rdiv;
     s_opp := Ropp; s_abs := Rabs; s_sqrt := sqrt; s_sin := sin; s_cos := cos;
     s_asin := asin; s_atan2 := Ratan2; s_fmod := Rfmod;
     s_ltb := Rltb; s_leb := Rleb; s_eqb := Reqb;
     s_isnan := fun _ => false; s_isinf := fun _ => false;
     s_ofZ := IZR; s_trunc := Rtrunc; s_pi := PI; s_dblmax := R_dblmax |}.
