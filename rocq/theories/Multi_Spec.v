(* Choosing from a list with repeated elements; independent of the code. *)
From Coq Require Import Permutation Sorted.
From Verif Require Import Base Comb_Spec Enum_Spec Num_Spec.
Local Open Scope nat_scope.

(* cs: the ascending lists of k elements of l, each once, in lexicographic order *)
Definition multiset_choices {T} (lt : T -> T -> bool) (k : nat) (l : list T) (cs : list (list T)) : Prop :=
  StronglySorted (lex (less lt)) cs /\
  forall d, In d cs <-> length d = k /\ ascending lt d /\ exists rest, Permutation (d ++ rest) l.

(* a line for each, numbered from i *)
Inductive numbered : nat -> list (list ascii) -> list ascii -> Prop :=
| numbered_nil i : numbered i [] []
| numbered_cons i x c cs out : canonical x (Z.of_nat i) -> numbered (S i) cs out ->
    numbered i (c :: cs) (x ++ [ascii_of_nat 9] ++ c ++ [ascii_of_nat 10] ++ out).
