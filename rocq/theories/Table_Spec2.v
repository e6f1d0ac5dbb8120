(* Sums of periods in which a value may be unreadable, and texts with a NUL; independent of the code. *)
From Verif Require Import Base Grid_Spec.
Local Open Scope nat_scope.

(* all of the cells as values, if each is one *)
Fixpoint all_values {T} (conv : list ascii -> option T) (cells : list (list ascii)) : option (list T) :=
  match cells with
  | [] => Some []
  | c :: cells => match conv c, all_values conv cells with Some v, Some vs => Some (v :: vs) | _, _ => None end
  end.
(* the sum of the second cells of the rows that have one, if all of them are values *)
Definition group_sum {T} (conv : list ascii -> option T) (add : T -> T -> T) (nought : T) (rows : list (list (list ascii))) : option T :=
  option_map (fun vs => fold_left add vs nought) (all_values conv (column rows 1)).
(* the entries before the first missing one, and whether none is missing *)
Fixpoint up_to_none {T} (l : list (option T)) : bool * list T :=
  match l with
  | [] => (true, [])
  | Some v :: l => (fst (up_to_none l), v :: snd (up_to_none l))
  | None :: _ => (false, [])
  end.
(* r is what is before the first NUL of s *)
Definition before_nul (s r : list ascii) : Prop := ~ In zero r /\ (s = r \/ exists rest, s = r ++ zero :: rest).
