(** * std::map with std::string keys

    std::map<std::string, A>: entries ordered by std::less<std::string>
    (lexicographic on unsigned characters). *)

From Coq Require Import String List Bool.
Import ListNotations.

Section StrMap.
Context {A : Type}.

Definition smap : Type := list (string * A).

(** find / count *)
Fixpoint sm_find (m : smap) (k : string) : option A :=
  match m with
  | [] => None
  | (k', a) :: r => if String.eqb k k' then Some a else sm_find r k
  end.
Definition sm_mem (m : smap) (k : string) : bool :=
  match sm_find m k with Some _ => true | None => false end.

(** m[k] = a *)
Fixpoint sm_set (m : smap) (k : string) (a : A) : smap :=
  match m with
  | [] => [(k, a)]
  | (k', a') :: r =>
      if String.eqb k k' then (k, a) :: r
      else if String.ltb k k' then (k, a) :: (k', a') :: r
      else (k', a') :: sm_set r k a
  end.

End StrMap.
Arguments smap A : clear implicits.
