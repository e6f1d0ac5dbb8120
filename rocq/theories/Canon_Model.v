(* Programs that call lexicographically_canonicalize (strtk.hpp 4250-4307), for all texts. *)
From Verif Require Import Base Scan_Model Parse_Model Multi_Model.
Local Open Scope nat_scope.

(* the program that calls lexicographically_canonicalize n times on one range *)
Fixpoint canonicalize_times {A} (eqb ltb : A -> A -> bool) (n : nat) (s : list A) : outcome (list A) :=
  match n with
  | 0 => Ok s
  | S n => t <- lexicographically_canonicalize eqb ltb s ;; canonicalize_times eqb ltb n t
  end.

(* lexicographically_canonicalize_example, strtk_examples.cpp 1245-1265: its loop over str_list; what
   std::cout receives and the texts afterwards *)
Fixpoint canonicalize_list (str_list : list (list ascii)) : outcome (list ascii * list (list ascii)) :=
  match str_list with
  | [] => Ok ([], [])
  | s :: str_list =>
      t <- lexicographically_canonicalize Ascii.eqb char_less s ;;
      ' (out, ts) <- canonicalize_list str_list ;;
      Ok (s ++ str " --> " ++ t ++ [newline] ++ out, t :: ts)
  end.
