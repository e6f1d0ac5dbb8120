(* Tokenizer objects: strtk.hpp 2432-2502 and 2513-2585.  Construction and operator++
   are in Split_Model. *)
From Verif Require Import Base Split_Model.
Local Open Scope nat_scope.

Section Tokenizer.
Context {A : Type}.

(* An iterator of a tokenizer, 2493-2501: the text it walks, its option flags, the predicate
   its member predicate_ refers to, and the state of Split_Model.  A text is given by its
   elements; iterators into different texts are never compared. *)
Record itr := Itr { i_text : list A; i_opt : N; i_pred : A -> bool; i_at : tok_iter }.
(* 2580-2585 *)
Record tokenizer := Tkz { z_opt : N; z_pred : A -> bool; z_text : list A; z_begin : itr; z_end : itr }.

(* iterator(b,end,predicate,options), 2353-2371 *)
Definition make_itr (p : A -> bool) (s : list A) (opt : N) (b : nat) : outcome itr :=
  x <- tok_make p s opt b ;; Ok (Itr s opt p x).
(* 2513-2534 *)
Definition make (p : A -> bool) (s : list A) (opt : N) : outcome tokenizer :=
  b <- make_itr p s opt 0 ;;
  e <- make_itr p s opt (length s) ;;
  Ok (Tkz opt p s b e).
(* tokenizer_iterator::operator=, 2469-2484: predicate_ is a reference and stays *)
Definition set_itr (a b : itr) : itr := Itr (i_text b) (i_opt b) (i_pred a) (i_at b).
(* tokenizer::operator=, 2536-2548 *)
Definition set (a b : tokenizer) : tokenizer :=
  Tkz (z_opt b) (z_pred a) (z_text b) (set_itr (z_begin a) (z_begin b)) (set_itr (z_end a) (z_end b)).
(* assign(begin,end), 2560-2566, and assign(string), 2555-2558.  The const version 2550-2553
   does not compile when it is called. *)
Definition assign (z : tokenizer) (s : list A) : outcome tokenizer :=
  b <- make_itr (z_pred z) s (z_opt z) 0 ;;
  e <- make_itr (z_pred z) s (z_opt z) (length s) ;;
  Ok (Tkz (z_opt z) (z_pred z) s (set_itr (z_begin z) b) (set_itr (z_end z) e)).

(* operator++, 2373-2430, of an iterator *)
Definition next (i : itr) : outcome itr :=
  x <- tok_incr (i_pred i) (i_text i) (i_opt i) (i_at i) ;; Ok (Itr (i_text i) (i_opt i) (i_pred i) x).
(* operator+=, 2439-2447; inc is an int *)
Definition advance (i : itr) (inc : Z) : outcome itr :=
  if (0 <? inc)%Z then for_up 0 (Z.to_nat inc) (fun _ i => next i) i else Ok i.
(* operator*, 2449-2452; as_string, 2454-2457; remaining, 2486-2489 *)
Definition deref (i : itr) : nat * nat := current_token (i_at i).
Definition as_string (i : itr) : list A := sub (i_text i) (deref i).
Definition remaining (i : itr) : list A := skipn (fst (deref i)) (i_text i).
(* operator==, 2459-2462 *)
Definition same (a b : itr) : bool := tok_eq (i_at a) (i_at b).

(* for (itr = tok.begin(); itr != tok.end(); ++itr) out( *itr), with 2568-2576 *)
Definition walk (z : tokenizer) : outcome (list (nat * nat)) :=
  loop (length (z_text z) + 3)
    (fun '(i, out) =>
       if same i (z_end z) then Ok (inr out)
       else i' <- next i ;; Ok (inl (i', out ++ [deref i])))
    (z_begin z, []).

(* a tokenizer obtained by constructing, assigning texts and assigning tokenizers *)
Inductive build :=
| New (p : A -> bool) (s : list A) (opt : N)
| Assign (b : build) (s : list A)
| Set_ (a b : build).
Fixpoint eval (b : build) : outcome tokenizer :=
  match b with
  | New p s opt => make p s opt
  | Assign b s => z <- eval b ;; assign z s
  | Set_ a b => x <- eval a ;; y <- eval b ;; Ok (set x y)
  end.
End Tokenizer.
Arguments itr : clear implicits.
Arguments tokenizer : clear implicits.
Arguments build : clear implicits.
