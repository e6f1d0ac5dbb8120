(* Specification of tokenisation, independent of the model.
   The input is cut at delimiters.  A token starts at offset a; its field runs up
   to the first delimiter at f; that delimiter belongs to the maximal delimiter
   run [f,e).  An option decides where the token ends (tok_end f e) and where the
   next token starts (next_start f e).  The last token ends the input. *)
From Verif Require Import Base.

Section Spec.
  Context {A : Type}.
  Variable p : A -> bool.
  Variable s : list A.

  (* every element at an offset in [a,b) satisfies q *)
  Definition all_in (q : A -> bool) (a b : nat) : Prop :=
    forall i x, a <= i < b -> nth_error s i = Some x -> q x = true.

  Inductive cuts (tok_end next_start : nat -> nat -> nat) : nat -> list (nat * nat) -> Prop :=
  | cut_last a :
      a <= length s ->
      all_in (fun x => negb (p x)) a (length s) ->
      cuts tok_end next_start a [(a, length s)]
  | cut_more a f e toks :
      a <= f -> f < e -> e <= length s ->
      all_in (fun x => negb (p x)) a f ->
      all_in p f e ->
      (e = length s \/ exists x, nth_error s e = Some x /\ p x = false) ->
      cuts tok_end next_start (next_start f e) toks ->
      cuts tok_end next_start a ((a, tok_end f e) :: toks).

  (* an empty input has no tokens at all *)
  Definition tokens_of (tok_end next_start : nat -> nat -> nat) (toks : list (nat * nat)) : Prop :=
    (s = [] /\ toks = []) \/ (s <> [] /\ cuts tok_end next_start 0 toks).
End Spec.

(* The three option bits: compress = 1, include_1st = 2, include_all = 4;
   include_1st wins over include_all. *)
Definition has_bit (o : N) (k : N) : bool := N.testbit o k.

Definition spec_tok_end (o : N) (f e : nat) : nat :=
  if has_bit o 1 then S f else if has_bit o 2 then e else f.

Definition spec_next_start (o : N) (f e : nat) : nat :=
  if has_bit o 1 then (if has_bit o 0 then e else S f)
  else if has_bit o 2 then e
  else if has_bit o 0 then e else S f.

(* Put a separator list between the members of a list of fields:
   weave [f0;f1;f2] [d1;d2] = f0 ++ d1 ++ f1 ++ d2 ++ f2. *)
Fixpoint weave {A} (fields seps : list (list A)) : list A :=
  match fields, seps with
  | f :: fs, d :: ds => f ++ d ++ weave fs ds
  | f :: _, [] => f
  | [], _ => []
  end.

(* Number of delimiters. *)
Definition count_delims {A} (p : A -> bool) (s : list A) : nat := length (filter p s).
