(* Tables of selections. *)
From Verif Require Import Base Parse_Spec.

(* one line for each selection, the strings separated by tabs *)
Definition table (cs : list (list (list ascii))) : list ascii :=
  concat (map (fun c => separated [ascii_of_nat 9] c ++ [ascii_of_nat 10]) cs).
(* the line that explains the program *)
Definition help_line : list ascii := str "usage: strtk_combination <r> <s_1> <s_2> .... <s_k>" ++ [ascii_of_nat 10].
