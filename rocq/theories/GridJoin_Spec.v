(* What is joined when a predicate chooses. *)
From Verif Require Import Base.
Local Open Scope nat_scope.

(* the texts of column c in those of the rows that have it, the first row being row k; rows the
   predicate refuses count as empty texts *)
Fixpoint picked {A} (text : A -> list ascii) (p : nat -> list A -> bool) (c k : nat) (rows : list (list A)) : list (list ascii) :=
  match rows with
  | [] => []
  | r :: rows =>
      match nth_error r c with
      | Some x => (if p k r then text x else []) :: picked text p c (S k) rows
      | None => picked text p c (S k) rows
      end
  end.
