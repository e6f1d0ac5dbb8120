(* Notions of the statements about text that speak of the modes. *)
From Verif Require Import Base Text_Model Text_Spec.

(* the result of the search chosen by the mode *)
Definition first_found {A} (m : find_mode) (p : A -> bool) (s : list A) (n a : nat) (r : nat * nat) : Prop :=
  match m with
  | exactly_n => first_window p s n a r
  | atleast_n => first_run p s n a r
  end.

