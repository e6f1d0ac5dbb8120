(* Ownership of the text of a token_grid. *)
From Verif Require Import Base Split_Model Grid_Spec Grid_Model Grid_Rep Life_Model.
Local Open Scope nat_scope.

(* the grid can be read, and its cells are the given ones *)
Definition shows (h : heap) (t : tgrid) (cells : list (list (list ascii))) : Prop :=
  row_count (t_grid t) = N.of_nat (length cells) /\
  forall r c, cell h t r c =
    Ok (match nth_error cells (N.to_nat r) with Some row => nth_error row (N.to_nat c) | None => None end).

(* a text and the cells a grid cuts it into *)
Definition cut_into (o : options) (text : list ascii) (cells : list (list (list ascii))) : Prop :=
  support_dquotes o = false /\ small (length (concat cells)) /\
  cells_of (row_delimiters o) (column_delimiters o) (column_split_option o) text cells.

(* what each step of a program should leave in the grid; the user's memory is
   [users], and file loads succeed *)
Definition leaves (users : heap) (u : use) (cells : list (list (list ascii))) : Prop :=
  match u with
  | LoadFile _ content o => exists text, content = Some text /\ text <> [] /\ cut_into o text cells
  | LoadMem a n o => exists b, nth_error users a = Some b /\ b_live b = true /\ n <= length (b_text b) /\
                               cut_into o (firstn n (b_text b)) cells
  | ClearAll => cells = []
  end.

(* memory made by the grid: behind the user's *)
Definition grids_live (users h : heap) : nat := length (filter b_live (skipn (length users) h)).
Definition untouched (users h : heap) : Prop := firstn (length users) h = users.

(* the value of operator! / state after a step: true when something is loaded *)
Definition not_cleared (u : use) : bool := match u with ClearAll => false | _ => true end.
