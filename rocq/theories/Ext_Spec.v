(* What the operations of ext_string should do. *)
From Verif Require Import Base Codec_Spec Edit_Spec Parse_Spec Ext_Model.
Local Open Scope nat_scope.

Definition one_of (set : list ascii) (c : ascii) : bool := existsb (fun d => Ascii.eqb d c) set.

(* the pattern's leftmost non-overlapping occurrences replaced by r *)
Definition with_replaced (p r s t : list ascii) : Prop :=
  (p = [] /\ t = s) \/ (p <> [] /\ exists ks, leftmost_occs Ascii.eqb p s 0 ks /\ t = splice s (length p) r 0 ks).

(* one operation that does not throw *)
Definition effect (o : es_op) (s t : list ascii) : Prop :=
  match o with
  | Lower => t = map lower s
  | Upper => t = map upper s
  | RemoveLeading set => trimmed_left (one_of set) s t
  | RemoveTrailing set =>
      match s with
      | x :: s' => if forallb (one_of set) s then t = [x] else trimmed_right (one_of set) s t
      | [] => t = []
      end
  | Replace p r => with_replaced p r s t
  | Minus p => with_replaced p [] s t
  | Times n => t = copies (n + 1) s
  | Append text => exists x, text = Some x /\ t = s ++ x
  end.

Inductive chain : list ascii -> list es_op -> list ascii -> Prop :=
| chain_nil s : chain s [] s
| chain_cons s o t os u : effect o s t -> chain t os u -> chain s (o :: os) u.
