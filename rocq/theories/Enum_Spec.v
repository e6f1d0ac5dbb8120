(* Visiting a list of things in order, independent of the code. *)
From Verif Require Import Base Comb_Spec.
From Coq Require Import Permutation Sorted.

(* calling f on each of xs in turn *)
Definition visit_all {X St} (f : X -> St -> St) (xs : list X) (st : St) : St :=
  fold_left (fun st x => f x st) xs st.

(* the same until f says no; Some x: x is where it stopped *)
Fixpoint visit_until {X St} (f : X -> St -> St * bool) (xs : list X) (st : St) : St * option X :=
  match xs with
  | [] => (st, None)
  | x :: r => let '(st', b) := f x st in if b then visit_until f r st' else (st', Some x)
  end.

(* operator< of the elements is a strict total order *)
Definition total_order {T} (lt : T -> T -> bool) : Prop :=
  (forall x, lt x x = false) /\
  (forall x y z, lt x y = true -> lt y z = true -> lt x z = true) /\
  (forall x y, lt x y = false -> lt y x = false -> x = y).

Definition less {T} (lt : T -> T -> bool) (x y : T) : Prop := lt x y = true.
(* no element is less than an earlier one *)
Definition ascending {T} (lt : T -> T -> bool) (l : list T) : Prop :=
  StronglySorted (fun x y => lt y x = false) l.

(* ps: the permutations of s that are not lexicographically below s, each once, in order *)
Definition permutations_from {T} (lt : T -> T -> bool) (s : list T) (ps : list (list T)) : Prop :=
  StronglySorted (lex (less lt)) ps /\
  forall p, In p ps <-> Permutation p s /\ (p = s \/ lex (less lt) s p).
