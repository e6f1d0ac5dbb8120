(* Specification of parsing and joining, independent of the model. *)
From Verif Require Import Base Split_Spec.

(* the delimiters are exactly these characters *)
Definition is_delim (delims : list ascii) (c : ascii) : bool := existsb (fun d => Ascii.eqb d c) delims.

(* The texts of the tokens of s when every run of delimiters counts as one separator. *)
Definition compressed_tokens (delims s : list ascii) (texts : list (list ascii)) : Prop :=
  exists toks, tokens_of (is_delim delims) s (fun f e => f) (fun f e => e) toks /\ texts = map (sub s) toks.

(* texts separated by d *)
Fixpoint separated (d : list ascii) (texts : list (list ascii)) : list ascii :=
  match texts with
  | [] => []
  | [t] => t
  | t :: ts => t ++ d ++ separated d ts
  end.

(* the values v of those texts that convert *)
Inductive converted {T} (ok : list ascii -> option T) : list (list ascii) -> list T -> Prop :=
| conv_none : converted ok [] []
| conv_take : forall x v xs vs, ok x = Some v -> converted ok xs vs -> converted ok (x :: xs) (v :: vs)
| conv_skip : forall x xs vs, ok x = None -> converted ok xs vs -> converted ok (x :: xs) vs.

(* the text of the first line (without its newline) and the rest *)
Definition first_line (s line rest : list ascii) : Prop :=
  Forall (fun c => c <> ascii_of_nat 10) line /\
  (s = line ++ ascii_of_nat 10 :: rest \/ (s = line /\ rest = [])).

(* v after every block of k elements *)
Inductive interleaved {T} (k : nat) (v : T) : list T -> list T -> Prop :=
| il_end : forall xs, length xs < k -> interleaved k v xs xs
| il_block : forall b xs ys, length b = k -> interleaved k v xs ys -> interleaved k v (b ++ xs) (b ++ v :: ys).
(* n copies *)
Definition copies (n : nat) (s : list ascii) : list ascii := concat (repeat s n).
(* the last pair whose first member is c decides; other characters stay *)
Fixpoint lookup_last (pairs : list (ascii * ascii)) (c : ascii) : ascii :=
  match pairs with
  | [] => c
  | (a, b) :: ps => if existsb (fun q => Ascii.eqb (fst q) c) ps then lookup_last ps c
                    else if Ascii.eqb a c then b else c
  end.
