(** * Bridge between the model at [RScalar] and plain real operations *)

From Coq Require Import Reals List Arith Lra Lia ZArith Bool.
From Verif Require Import Scalar Mat SpecLin FilterBase.
Local Open Scope R_scope.

(** Rewrite every generic operation of the [RScalar] instance into its
    plain real counterpart. *)
Ltac toR :=
  cbn [sc s_add s_sub s_mul s_div s_opp s_abs s_sqrt s_sin s_cos s_asin s_atan2 s_fmod
       s_ltb s_leb s_eqb s_isnan s_isinf s_ofZ s_trunc s_pi s_dblmax RScalar] in *;
  change (@sumn RScalar) with rsum in *;
  change (@mmul RScalar) with rmul in *;
  change (@mvmul RScalar) with rmv in *;
  change (@dot RScalar) with rdot in *;
  change (@mT RScalar) with rT in *;
  change (@meye RScalar) with rI in *;
  change (@vec RScalar) with rvec in *;
  change (@mat RScalar) with rmat in *.

Lemma Rltb_true a b : Rltb a b = true <-> a < b.
Proof. unfold Rltb. destruct (Rlt_dec a b); split; intros; auto; discriminate. Qed.
Lemma Rltb_false a b : Rltb a b = false <-> b <= a.
Proof. unfold Rltb. destruct (Rlt_dec a b); split; intros; auto; try discriminate; lra. Qed.
Lemma Rleb_true a b : Rleb a b = true <-> a <= b.
Proof. unfold Rleb. destruct (Rle_dec a b); split; intros; auto; discriminate. Qed.
Lemma Rleb_false a b : Rleb a b = false <-> b < a.
Proof. unfold Rleb. destruct (Rle_dec a b); split; intros; auto; try discriminate; lra. Qed.
Lemma Reqb_true a b : Reqb a b = true <-> a = b.
Proof. unfold Reqb. destruct (Req_EM_T a b); split; intros; auto; discriminate. Qed.
Lemma Reqb_false a b : Reqb a b = false <-> a <> b.
Proof. unfold Reqb. destruct (Req_EM_T a b); split; intros; auto; try discriminate; congruence. Qed.

Lemma lit_R m k : @lit RScalar m k = IZR m / IZR (10 ^ k).
Proof. reflexivity. Qed.
Lemma lit_1_9 : @lit RScalar 1 9 = / 1000000000.
Proof. unfold lit. toR. change (10 ^ 9)%Z with 1000000000%Z. lra. Qed.
Lemma lit_5_1 : @lit RScalar 5 1 = / 2.
Proof. unfold lit. toR. change (10 ^ 1)%Z with 10%Z. lra. Qed.

Lemma toSec_R ns : @toSec RScalar ns = IZR ns / 1000000000.
Proof. unfold toSec, nanosecToSec. rewrite lit_1_9. toR. lra. Qed.
Lemma dur_seconds_R ns : @dur_seconds RScalar ns = IZR ns / 1000000000.
Proof. reflexivity. Qed.

Lemma meye_rI : @meye RScalar = rI.
Proof. reflexivity. Qed.
