(* What the standard containers hold after a number of insertions; independent of the code. *)
From Coq Require Import Sorting.Permutation Sorting.Sorted.
From Verif Require Import Base.
Local Open Scope nat_scope.

(* what the standard asks of a comparator *)
Definition strict_weak {T} (lt : T -> T -> bool) : Prop :=
  (forall x, lt x x = false) /\ (forall x y z, lt x y = true -> lt y z = true -> lt x z = true) /\
  (forall x y z, lt x y = false -> lt y x = false -> lt y z = false -> lt z y = false -> lt x z = false /\ lt z x = false).

Definition equivalent {T} (lt : T -> T -> bool) (x y : T) : bool := negb (lt x y) && negb (lt y x).

(* the elements of a set from begin() to end(), and of a multiset *)
Definition ascending {T} (lt : T -> T -> bool) (c : list T) : Prop := StronglySorted (fun a b => lt a b = true) c.
Definition in_order {T} (lt : T -> T -> bool) (c : list T) : Prop := StronglySorted (fun a b => lt b a = false) c.

(* x occurs in l, with nothing equivalent to it before *)
Definition first_of_its_kind {T} (lt : T -> T -> bool) (l : list T) (x : T) : Prop :=
  exists a b, l = a ++ x :: b /\ Forall (fun y => equivalent lt x y = false) a.

(* c' is the set c with the values vs inserted one after the other *)
Definition set_with {T} (lt : T -> T -> bool) (c vs c' : list T) : Prop :=
  ascending lt c' /\ forall x, In x c' <-> first_of_its_kind lt (c ++ vs) x.
(* c' is the multiset c with the values vs inserted: everything is there, in order, and
   equivalent elements stand in the order of their insertion *)
Definition multiset_with {T} (lt : T -> T -> bool) (c vs c' : list T) : Prop :=
  in_order lt c' /\ Permutation c' (c ++ vs) /\
  forall x, filter (equivalent lt x) c' = filter (equivalent lt x) (c ++ vs).

(* out: the elements of a priority queue in an order in which top() and pop() may deliver
   them; top() is an element that no other is greater than *)
Inductive drains {T} (lt : T -> T -> bool) : list T -> list T -> Prop :=
| drain_nil : drains lt [] []
| drain_pop : forall bag x others out, Permutation bag (x :: others) -> (forall y, In y others -> lt x y = false) ->
    drains lt others out -> drains lt bag (x :: out).
