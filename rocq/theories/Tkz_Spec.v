(* What a tokenizer object should enumerate. *)
From Verif Require Import Base Tkz_Model.

(* the text it is about, its options *)
Fixpoint text_of {A} (b : build A) : list A :=
  match b with New _ s _ => s | Assign _ s => s | Set_ _ b => text_of b end.
Fixpoint opt_of {A} (b : build A) : N :=
  match b with New _ _ o => o | Assign b _ => opt_of b | Set_ _ b => opt_of b end.
(* every tokenizer constructed on the way uses the predicate p *)
Fixpoint only_pred {A} (p : A -> bool) (b : build A) : Prop :=
  match b with New q _ _ => q = p | Assign b _ => only_pred p b | Set_ a b => only_pred p a /\ only_pred p b end.
