(* What deleting owned objects and listing keys should do, independent of the code. *)
From Verif Require Import Base.
From Coq Require Import Sorted.

(* the addresses among a list of pointers, null pointers left out *)
Fixpoint addresses (ps : list (option nat)) : list nat :=
  match ps with
  | [] => []
  | None :: r => addresses r
  | Some a :: r => a :: addresses r
  end.

(* each pointer is null or the address of a living object, and no two are the same address *)
Definition owns {V} (h : nat -> option V) (ps : list (option nat)) : Prop :=
  NoDup (addresses ps) /\ forall a, In a (addresses ps) -> h a <> None.

(* h' is h without the objects at the addresses gone *)
Definition without {V} (h : nat -> option V) (gone : list nat) (h' : nat -> option V) : Prop :=
  forall a, (In a gone -> h' a = None) /\ (~ In a gone -> h' a = h a).

(* the object a pointer points to *)
Definition pointee {V} (h : nat -> option V) (p : option nat) : option V :=
  match p with None => None | Some a => h a end.

(* a comparator as the standard asks for *)
Definition strict_weak {K} (lt : K -> K -> bool) : Prop :=
  (forall x, lt x x = false) /\
  (forall x y z, lt x y = true -> lt y z = true -> lt x z = true) /\
  (forall x y z, lt x y = false -> lt y z = false -> lt x z = false).

Definition rising {K} (lt : K -> K -> bool) (l : list K) : Prop := StronglySorted (fun x y => lt x y = true) l.
Definition level_or_rising {K} (lt : K -> K -> bool) (l : list K) : Prop := StronglySorted (fun x y => lt y x = false) l.
