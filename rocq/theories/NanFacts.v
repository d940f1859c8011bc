(** * Facts about NaN in IEEE arithmetic (C03, C06) *)

From Coq Require Import ZArith Floats List Bool String.
From Verif Require Import Scalar FloatScalar Mat FilterBase FilterOps Ekf.
Import ListNotations.

Lemma is_nan_leb a b : PrimFloat.is_nan b = true -> PrimFloat.leb a b = false.
Proof.
  intros H. rewrite FloatAxioms.leb_spec. unfold PrimFloat.is_nan in H.
  apply negb_true_iff in H. rewrite FloatAxioms.eqb_spec in H.
  destruct (Prim2SF b) as [s|s| |s m e]; unfold SFeqb, SFleb, SFcompare in *.
  - discriminate.
  - destruct s; discriminate.
  - destruct (Prim2SF a) as [?|?| |? ? ?]; reflexivity.
  - exfalso. destruct s; rewrite Z.compare_refl in H; rewrite Pos.compare_cont_refl in H; discriminate.
Qed.

(** A NaN Mahalanobis distance passes the gate, whatever the threshold. *)
Lemma nan_passes_gate lm n (nu : vec (FScalar lm)) S t :
  PrimFloat.is_nan (dot n nu (mvmul n S nu)) = true ->
  @checkMahalanobisThreshold (FScalar lm) n nu S t = true.
Proof.
  intros H. unfold checkMahalanobisThreshold. cbv zeta.
  change (negb (PrimFloat.leb (t * t)%float (dot n nu (mvmul n S nu))) = true).
  rewrite is_nan_leb by exact H. reflexivity.
Qed.
