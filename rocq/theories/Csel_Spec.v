(* What a column selector does to the variables, independent of the model. *)
From Verif Require Import Base Split_Spec Parse_Model KV_Spec.
Local Open Scope nat_scope.

(* the texts of the chosen columns that the line has, each with its variable *)
Definition shown (cols is : list nat) (xs : list (list ascii)) : list (nat * list ascii) :=
  flat_map (fun p => match nth_error xs (fst p) with Some x => [(snd p, x)] | None => [] end) (combine cols is).

(* texts converted into variables, one after the other *)
Inductive converts : list (nat * list ascii) -> list (option target) -> list (option target) -> Prop :=
| cv_nil : forall vars, converts [] vars vars
| cv_one : forall i x ps vars vars' t b v, nth_error vars i = Some (Some t) -> t_conv t x (t_val t) = Ok (b, v) ->
    converts ps (upd vars i (Some (given t v))) vars' -> converts ((i, x) :: ps) vars vars'.

(* the columns of a line *)
Definition line_columns (delims s : list ascii) (xs : list (list ascii)) : Prop :=
  exists toks, tokens_of (fun c => existsb (fun d => Ascii.eqb d c) delims) s (fun f e => f) (fun f e => S f) toks /\
    xs = map (sub s) toks.
