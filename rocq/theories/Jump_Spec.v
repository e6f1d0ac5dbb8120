(* Stepping, independent of what a step is: a step changes a value and says whether there was a
   next one. *)
From Verif Require Import Base.

(* from a, i steps that all found a next one lead to b *)
Inductive stepped {A} (step : A -> outcome (A * bool)) : nat -> A -> A -> Prop :=
| no_step a : stepped step 0 a a
| one_step i a b c : step a = Ok (b, true) -> stepped step i b c -> stepped step (S i) a c.

(* a sequence without its first i members *)
Definition from {A} (i : nat) (l : list A) : list A := skipn i l.
