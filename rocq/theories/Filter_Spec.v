(* What token filters, size predicates and inserters should do, independent of the code. *)
From Verif Require Import Base Codec_Spec.
From Coq Require Import Sorted.

(* p is what memory holds from offset a on *)
Definition starts_at (p mem : list ascii) (a : nat) : Prop := exists t, skipn a mem = p ++ t.

(* a token equals one of the patterns up to letter case *)
Definition one_of_ignoring_case (pats : list (list ascii)) (tok : list ascii) : Prop :=
  exists p, In p pats /\ map upper p = map upper tok.

(* the values of the convertible tokens in order *)
Fixpoint converted {T} (conv : list ascii -> option T) (toks : list (list ascii)) : list T :=
  match toks with
  | [] => []
  | t :: toks => match conv t with Some v => v :: converted conv toks | None => converted conv toks end
  end.

(* l' is a rearrangement of l in nondescending order: what std::sort promises *)
Definition sorts {T} (lt : T -> T -> bool) (sort : list T -> list T) : Prop :=
  forall l, StronglySorted (fun x y => lt y x = false) (sort l) /\
            forall x, In x (sort l) <-> In x l.

(* kept lists, in order, the members of l with property P *)
Inductive selects {R} (P : R -> Prop) : list R -> list R -> Prop :=
| sel_nil : selects P [] []
| sel_yes r l kept : P r -> selects P l kept -> selects P (r :: l) (r :: kept)
| sel_no r l kept : ~ P r -> selects P l kept -> selects P (r :: l) kept.

(* allow_through_on_match: what the filter is to let through, P being "matches" *)
Definition allowed (allow : bool) (P : Prop) : Prop := if allow then P else ~ P.
