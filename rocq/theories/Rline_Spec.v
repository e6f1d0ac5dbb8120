(* How often which line is chosen. *)
From Verif Require Import Base.
Local Open Scope nat_scope.

(* all sequences of n numbers below M *)
Fixpoint sequences (M n : nat) : list (list nat) :=
  match n with
  | 0 => [[]]
  | S n => flat_map (fun d => map (cons d) (sequences M n)) (seq 0 M)
  end.

(* how many of the sequences satisfy P *)
Definition number (P : list nat -> bool) (l : list (list nat)) : nat := length (filter P l).
