(* Tables of texts, independent of the grid. *)
From Verif Require Import Base Parse_Spec Grid_Spec Num_Spec.
Local Open Scope nat_scope.

Definition newline : ascii := ascii_of_nat 10.
(* the cells of a row with d between them, and a newline after every row *)
Definition table_text (d : ascii) (rows : list (list (list ascii))) : list ascii :=
  concat (map (fun r => separated [d] r ++ [newline]) rows).
(* a cell shows none of the separators *)
Definition plain (d : ascii) (cell : list ascii) : Prop := ~ In d cell /\ ~ In newline cell /\ ~ In (ascii_of_nat 13) cell.
(* tables without empty cells, and tables whose rows are not a single empty cell *)
Definition table (d : ascii) (rows : list (list (list ascii))) : Prop :=
  Forall (fun r => r <> [] /\ Forall (fun c => c <> [] /\ plain d c) r) rows.
Definition loose_table (d : ascii) (rows : list (list (list ascii))) : Prop :=
  Forall (fun r => r <> [] /\ r <> [[]] /\ Forall (plain d) r) rows.
Definition cell (rows : list (list (list ascii))) (i j : nat) : option (list ascii) :=
  match nth_error rows i with Some r => nth_error r j | None => None end.

(* the rows of one symbol (second cell) that have a seventh cell *)
Definition concerns (symbol : list ascii) (r : list (list ascii)) : bool :=
  match nth_error r 1, nth_error r 6 with
  | Some s, Some _ => if list_eq_dec ascii_dec s symbol then true else false
  | _, _ => false
  end.
(* cell c of the row is a number of 64 bits, without sign or with + *)
Definition number_at (c : nat) (bound : Z) (r : list (list ascii)) (v : Z) : Prop :=
  exists t, nth_error r c = Some t /\ unsigned_text t v /\ (v <= bound)%Z.
Definition sum_of (vs : list Z) : Z := fold_right Z.add 0%Z vs.

(* a period begins with the first time at or after [next], and lasts three units *)
Fixpoint period_starts (next : Z) (times : list Z) : list bool :=
  match times with
  | [] => []
  | t :: times => if (next <=? t)%Z then true :: period_starts (t + 3) times else false :: period_starts next times
  end.
(* consecutive parts of three, the last of at most three *)
Inductive threes {A} : list A -> list (list A) -> Prop :=
| threes_none : threes [] []
| threes_last : forall l, 1 <= length l <= 3 -> threes l [l]
| threes_more : forall a b c l parts, l <> [] -> threes l parts -> threes (a :: b :: c :: l) ([a; b; c] :: parts).

(* s is the cell with blanks before and after it *)
Definition padded (before after : nat) (c s : list ascii) : Prop := s = repeat " "%char before ++ c ++ repeat " "%char after.
Definition width_of (rows : list (list (list ascii))) (j : nat) : nat := list_max (map (@length ascii) (column rows j)).
(* rows of texts as printed: each in brackets, with a blank behind *)
Definition bracketed (shown : list (list (list ascii))) : list ascii :=
  concat (map (fun r => concat (map (fun c => "["%char :: c ++ [("]")%char; " "%char]) r) ++ [newline]) shown).
(* t, t+1, t+2, ... *)
Fixpoint counted (t : Z) (n : nat) : list Z := match n with O => [] | S n => t :: counted (t + 1) n end.
(* every time is at least three after the one before *)
Fixpoint spaced (times : list Z) : Prop :=
  match times with [] => True | t :: rest => match rest with [] => True | u :: _ => (t + 3 <= u)%Z end /\ spaced rest end.
