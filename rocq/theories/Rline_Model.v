(* The random line selector of strtk_random_line.cpp.  The generator returns j/M for one of
   the M numbers j from 0 to M-1; which ones, is an argument.  The comparison with 1.0 /
   line_count_ is made exactly, the rounding of the quotient is not modelled. *)
From Verif Require Import Base Parse_Model IO_Model Stl_Model.
Local Open Scope nat_scope.

(* the selector: line_count_, line_, and the numbers the generator will return *)
Record selector := Selector { line_count : N; line : list ascii; rng : list N }.

(* random_line_selector::operator(), strtk_random_line.cpp 56-61; with line_count_ 0 (after
   2^64 lines) the quotient is infinity *)
Definition select (M : N) (x : outcome selector) (s : list ascii) : outcome selector :=
  x <- x ;;
  match rng x with
  | [] => OutOfFuel
  | j :: rng =>
      let line := if (j * line_count x <? M)%N then s else line x in
      Ok (Selector ((line_count x + 1) mod 2 ^ 64)%N line rng)
  end.

(* main, strtk_random_line.cpp 72-89: the line printed *)
Definition random_line (M : N) (draws : list N) (fs : fsys) (file : nat) : outcome (list ascii) :=
  ' (_, x) <- for_each_line_file (select M) fs file (Ok (Selector 1 [] draws)) ;;
  x <- x ;; Ok (line x).
