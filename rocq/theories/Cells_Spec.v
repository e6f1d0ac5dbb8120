(* Tables turned, thinned and averaged, independent of the grid. *)
From Verif Require Import Base Parse_Spec Grid_Spec Num_Spec Table_Spec.
Local Open Scope nat_scope.

(* column 0, column 1, ..., column m-1 as rows *)
Definition transposed {A} (rows : list (list A)) (m : nat) : list (list A) := map (column rows) (seq 0 m).
Definition rectangle {A} (m : nat) (rows : list (list A)) : Prop := Forall (fun r => length r = m) rows.

(* a line of words with blanks between them, at least one each time *)
Inductive spread : list (list ascii) -> list ascii -> Prop :=
| spread_one : forall w, spread [w] w
| spread_more : forall w gap ws line, gap <> [] -> Forall (eq " "%char) gap -> spread ws line -> spread (w :: ws) (w ++ gap ++ line).
(* lines, each followed by some newlines, at least one *)
Inductive spread_text : list (list (list ascii)) -> list ascii -> Prop :=
| spread_none : spread_text [] []
| spread_line : forall ws line n rows text, spread ws line -> spread_text rows text ->
    spread_text (ws :: rows) (line ++ newline :: repeat newline n ++ text).

(* the complaint about rows of different length, from the smallest and the greatest *)
Definition complaint (mn mx : nat) (w : list ascii) : Prop :=
  (mn = mx /\ w = []) \/
  (mn <> mx /\ exists a b, canonical a (Z.of_nat mn) /\ canonical b (Z.of_nat mx) /\
     w = str "token_grid_test07 - ERROR!" ++ newline :: str "min column count: " ++ a ++ newline :: str "max column count: " ++ b ++ [newline]).

(* rows a to b-1 without their empty cells, and without what is then an empty row; the other rows
   as they are *)
Definition thinned (rows : list (list (list ascii))) (a b : nat) : list (list (list ascii)) :=
  firstn a rows ++ filter nonempty (map (filter nonempty) (slice rows a b)) ++ skipn b rows.
(* rows a to b-1 without those that satisfy p; the other rows as they are *)
Definition weeded {A} (p : A -> bool) (rows : list A) (a b : nat) : list A :=
  firstn a rows ++ filter (fun r => negb (p r)) (slice rows a b) ++ skipn b rows.
Definition has_six (r : list (list ascii)) : bool := existsb (existsb (Ascii.eqb "6"%char)) r.

(* rows with their position in front, the cells put together in brackets *)
Inductive numbered : nat -> list (list (list ascii)) -> list ascii -> Prop :=
| numbered_none : forall k, numbered k [] []
| numbered_row : forall k r rows n s, canonical n (Z.of_nat k) -> numbered (S k) rows s ->
    numbered k (r :: rows) (n ++ "["%char :: concat r ++ "]"%char :: newline :: s).

(* rows with a tab after every cell *)
Definition tabbed (rows : list (list (list ascii))) : list ascii :=
  concat (map (fun r => concat (map (fun c => c ++ [ascii_of_nat 9]) r) ++ [newline]) rows).

Section Averages.
Context {T : Type}.
Variable mean : T -> T -> T -> T.
Fixpoint means (a b c : list T) : list T :=
  match a, b, c with x :: a, y :: b, z :: c => mean x y z :: means a b c | _, _, _ => [] end.
(* a row, the one below and the one above, cell by cell; none for the first and the last row *)
Definition averaged (vs : list (list T)) (i : nat) : option (list T) :=
  match i with
  | O => None
  | S k => match nth_error vs i, nth_error vs (S i), nth_error vs k with
           | Some a, Some b, Some c => Some (means a b c)
           | _, _, _ => None
           end
  end.
(* no inner row is longer than the rows around it *)
Definition narrow (vs : list (list T)) : Prop :=
  forall i a b c, nth_error vs (S i) = Some a -> nth_error vs (S (S i)) = Some b -> nth_error vs i = Some c ->
    length a <= length b /\ length a <= length c.
End Averages.
