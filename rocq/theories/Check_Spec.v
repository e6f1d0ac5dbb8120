(* What the checks of strtk_tokenizer_test.cpp are about, independent of the model. *)
From Verif Require Import Base.
Local Open Scope nat_scope.

(* an empty text is shown as <> *)
Definition bracketed (x : list ascii) : list ascii := match x with [] => str "<>" | _ => x end.

(* the tokens of c1 D c2 D .. cn for a separator of m delimiters, m > 0: between two characters there are
   m - 1 empty tokens *)
Fixpoint spaced (m : nat) (cs : list ascii) : list (list ascii) :=
  match cs with
  | [] => []
  | [c] => [[c]]
  | c :: cs => [c] :: repeat [] (m - 1) ++ spaced m cs
  end.

(* p occurs in s *)
Definition contains {A} (p s : list A) : Prop := exists a b, s = a ++ p ++ b.
