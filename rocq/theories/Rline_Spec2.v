(* The outcomes of strtk_random_line. *)
From Verif Require Import Base IO_Model Rline_Model.
Local Open Scope nat_scope.

(* whether the draws ds make the program print l *)
Definition prints (M : nat) (fs : fsys) (file : nat) (l : list ascii) (ds : list nat) : bool :=
  match random_line (N.of_nat M) (map N.of_nat ds) fs file with
  | Ok x => if list_eq_dec ascii_dec x l then true else false
  | _ => false
  end.

