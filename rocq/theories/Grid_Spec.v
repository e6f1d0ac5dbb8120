(* Specification of the token grid, independent of its index structure. *)
From Verif Require Import Base Split_Spec Parse_Spec.
Local Open Scope nat_scope.

Definition nonempty {A} (l : list A) : bool := match l with [] => false | _ => true end.

(* the fields of one line, under the split option of the columns *)
Definition fields_of (delims : list ascii) (opt : N) (line : list ascii) (texts : list (list ascii)) : Prop :=
  exists toks, tokens_of (is_delim delims) line (spec_tok_end opt) (spec_next_start opt) toks /\ texts = map (sub line) toks.

(* the cells of a text: its non-empty lines, runs of line delimiters counting as one, each
   cut into fields *)
Definition cells_of (row_delims col_delims : list ascii) (opt : N) (text : list ascii) (cells : list (list (list ascii))) : Prop :=
  exists lines, compressed_tokens row_delims text lines /\
    Forall2 (fields_of col_delims opt) (filter nonempty lines) cells.

(* least and greatest length of the rows *)
Definition least_length {A} (rs : list (list A)) (n : nat) : Prop :=
  (exists r, In r rs /\ length r = n) /\ forall r, In r rs -> n <= length r.
Definition greatest_length {A} (rs : list (list A)) (n : nat) : Prop :=
  (exists r, In r rs /\ length r = n) /\ forall r, In r rs -> length r <= n.

(* the elements at the given column, of the rows long enough to have one *)
Fixpoint column {A} (rs : list (list A)) (c : nat) : list A :=
  match rs with
  | [] => []
  | r :: rs => match nth_error r c with Some x => x :: column rs c | None => column rs c end
  end.

(* the rows at positions a, a+1, ..., b-1 *)
Definition slice {A} (rs : list A) (a b : nat) : list A := firstn (b - a) (skipn a rs).

(* vs are the values of the elements of xs before the first that does not convert; ok: all
   of them convert *)
Definition taken {A T} (conv : A -> option T) (xs : list A) (ok : bool) (vs : list T) : Prop :=
  exists done rest, xs = done ++ rest /\ map conv done = map Some vs /\
    (if ok then rest = [] else exists x rest', rest = x :: rest' /\ conv x = None).

(* texts put together with a delimiter: empty texts are left out, except that an empty last
   text leaves a delimiter behind *)
Definition joined (d : list ascii) (texts : list (list ascii)) : list ascii :=
  separated d (filter nonempty texts) ++
  (if existsb nonempty texts && negb (nonempty (last texts [])) then d else []).

(* ranges of consecutive positions from s up to b.  A new one begins at a position that
   satisfies p, provided a position that does not lies strictly inside the current one. *)
Inductive groups (p : nat -> bool) (b : nat) : nat -> list (nat * nat) -> Prop :=
| groups_none : groups p b b []
| groups_last : forall s, s < b ->
    (forall i, s < i < b -> p i = true -> forall j, s < j < i -> p j = true) ->
    groups p b s [(s, b)]
| groups_cut : forall s e rest, s < e < b ->
    (forall i, s < i < e -> p i = true -> forall j, s < j < i -> p j = true) ->
    p e = true -> (exists j, s < j < e /\ p j = false) ->
    groups p b e rest -> groups p b s ((s, e) :: rest).

(* a function with state x is called on the elements until it says no *)
Inductive called {A X} (f : X -> A -> X * bool) : list A -> X -> bool -> X -> Prop :=
| called_all : forall x, called f [] x true x
| called_on : forall a l x x1 ok x', f x a = (x1, true) -> called f l x1 ok x' -> called f (a :: l) x ok x'
| called_stop : forall a l x x1, f x a = (x1, false) -> called f (a :: l) x false x1.

(* each character with whether it is a delimiter outside double quotes; q: the text begins
   inside quotes *)
Definition quote : ascii := ascii_of_nat 34.
Fixpoint marked (delims : list ascii) (q : bool) (s : list ascii) : list (ascii * bool) :=
  match s with
  | [] => []
  | c :: s => if Ascii.eqb c quote then (c, false) :: marked delims (negb q) s
              else (c, negb q && is_delim delims c) :: marked delims q s
  end.
Fixpoint quotes_in (s : list ascii) : nat :=
  match s with [] => 0 | c :: s => (if Ascii.eqb c quote then 1 else 0) + quotes_in s end.

(* the fields of a line cut at the delimiters outside quotes *)
Definition quoted_fields_of (delims : list ascii) (opt : N) (q : bool) (line : list ascii) (texts : list (list ascii)) : Prop :=
  exists toks, tokens_of (@snd ascii bool) (marked delims q line) (spec_tok_end opt) (spec_next_start opt) toks /\
    texts = map (sub line) toks.

(* the lines one after the other, a quote left open in one of them staying open *)
Inductive quoted_cells (delims : list ascii) (opt : N) : bool -> list (list ascii) -> list (list (list ascii)) -> Prop :=
| quoted_nil : forall q, quoted_cells delims opt q [] []
| quoted_cons : forall q line texts lines cells, quoted_fields_of delims opt q line texts ->
    quoted_cells delims opt (xorb q (Nat.odd (quotes_in line))) lines cells ->
    quoted_cells delims opt q (line :: lines) (texts :: cells).

(* a text without its enclosing quotes, if it has them *)
Definition unquoted (t : list ascii) : list ascii :=
  match t with
  | c :: rest =>
      match rev rest with
      | d :: inner => if Ascii.eqb c quote && Ascii.eqb d quote then rev inner else t
      | [] => t
      end
  | [] => []
  end.
