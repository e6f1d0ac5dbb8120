(* Specification of offset splitting and of the range scans. *)
From Verif Require Import Base.
Local Open Scope nat_scope.

(* the k-th requested length: 0 after the last one unless the list is repeated *)
Definition offset_at (l : list Z) (rotating : bool) (k : nat) : Z :=
  nth (if rotating then k mod length l else k) l 0%Z.

(* cuts: consecutive slices of [0,n) with the requested lengths, the last one cut off at n;
   they stop at n or at the first request that is not positive *)
Definition sliced (request : nat -> Z) (n : nat) (cuts : list (nat * nat)) : Prop :=
  let last k := match k with 0 => 0 | S k => snd (nth k cuts (0, 0)) end in
  (forall k a b, nth_error cuts k = Some (a, b) ->
     a = last k /\ a < n /\ (0 < request k)%Z /\
     Z.of_nat b = Z.min (Z.of_nat n) (Z.of_nat a + request k)) /\
  (last (length cuts) = n \/ (request (length cuts) <= 0)%Z).

(* number of positions whose element equals its predecessor *)
Fixpoint adjacent_equal {A} (eqb : A -> A -> bool) (s : list A) : nat :=
  match s with
  | x :: ((y :: _) as s') => (if eqb x y then 1 else 0) + adjacent_equal eqb s'
  | _ => 0
  end.

(* m is a smallest (largest) element *)
Definition smallest {A} (lt : A -> A -> bool) (s : list A) (m : A) : Prop :=
  In m s /\ forall x, In x s -> lt x m = false.
Definition largest {A} (lt : A -> A -> bool) (s : list A) (m : A) : Prop :=
  In m s /\ forall x, In x s -> lt m x = false.

(* strict total order *)
Definition strict_order {A} (lt : A -> A -> bool) : Prop :=
  (forall x, lt x x = false) /\ (forall x y z, lt x y = true -> lt y z = true -> lt x z = true) /\
  (forall x y, lt x y = false -> lt y x = false -> x = y).

(* the suffix of s at p is smaller than the one at j, the end of the text counting as larger
   than every element *)
Definition precedes {A} (lt : A -> A -> bool) (s : list A) (p j : nat) : Prop :=
  exists m x, nth_error s (p + m) = Some x /\ (forall i, i < m -> nth_error s (p + i) = nth_error s (j + i)) /\
    (j + m = length s \/ exists y, nth_error s (j + m) = Some y /\ lt x y = true).

(* lexicographic order of lists of the same length *)
Fixpoint lex_le {A} (lt : A -> A -> bool) (a b : list A) : Prop :=
  match a, b with
  | x :: a, y :: b => lt x y = true \/ (x = y /\ lex_le lt a b)
  | [], _ => True
  | _, [] => False
  end.
Definition rotation {A} (s : list A) (p : nat) : list A := skipn p s ++ firstn p s.

(* the character at i occurs nowhere else *)
Definition occurs_once (s : list ascii) (i : nat) : Prop :=
  exists c, nth_error s i = Some c /\ forall j, nth_error s j = Some c -> j = i.
