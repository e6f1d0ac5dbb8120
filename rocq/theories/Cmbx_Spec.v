(* Numbered tables of selections. *)
From Verif Require Import Base Num_Spec Parse_Spec.
Local Open Scope nat_scope.

(* the line of a selection c: its number i, with zeros in front up to four digits, a tab and
   the numbers of the selection, separated by single blanks *)
Definition numbered_line (i : nat) (c : list Z) (l : list ascii) : Prop :=
  exists num ts, canonical num (Z.of_nat i) /\ Forall2 canonical ts c /\
    l = repeat "0"%char (4 - length num) ++ num ++ [ascii_of_nat 9] ++ separated (str " ") ts ++ [ascii_of_nat 10].

(* 0, 1, ..., n - 1 *)
Definition first_numbers (n : nat) : list Z := map Z.of_nat (seq 0 n).
