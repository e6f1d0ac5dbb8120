(* Specification of text alignment and of searches for consecutive values. *)
From Verif Require Import Base.

(* element j exists and satisfies p *)
Definition sat {A} (p : A -> bool) (s : list A) (j : nat) : Prop :=
  exists x, nth_error s j = Some x /\ p x = true.

(* n consecutive elements satisfying p start at i *)
Definition window {A} (p : A -> bool) (s : list A) (n i : nat) : Prop :=
  forall j, i <= j < i + n -> sat p s j.

(* (i,j) is the leftmost window of n elements at or after a *)
Definition first_window {A} (p : A -> bool) (s : list A) (n a : nat) (r : nat * nat) : Prop :=
  a <= fst r /\ snd r = fst r + n /\ window p s n (fst r) /\ (forall k, a <= k < fst r -> ~ window p s n k).

(* [i,j) is a maximal run of elements satisfying p, looking only at positions from a on *)
Definition run {A} (p : A -> bool) (s : list A) (a i j : nat) : Prop :=
  a <= i /\ i < j /\ window p s (j - i) i /\ (i = a \/ ~ sat p s (i - 1)) /\ ~ sat p s j.

(* the leftmost maximal run of at least n elements at or after a *)
Definition first_run {A} (p : A -> bool) (s : list A) (n a : nat) (r : nat * nat) : Prop :=
  run p s a (fst r) (snd r) /\ n <= snd r - fst r /\
  (forall i j, run p s a i j -> n <= j - i -> fst r <= i).

(* results of searching again and again, each time from the end of the last result *)
Inductive successive (found : nat -> nat * nat -> Prop) : nat -> list (nat * nat) -> Prop :=
| succ_none : forall a, (forall r, ~ found a r) -> successive found a []
| succ_more : forall a r l, found a r -> successive found (snd r) l -> successive found a (r :: l).

(* the classes of characters by enumeration *)
Definition lower_letters : list ascii := str "abcdefghijklmnopqrstuvwxyz".
Definition upper_letters : list ascii := str "ABCDEFGHIJKLMNOPQRSTUVWXYZ".
Definition decimal_digits : list ascii := str "0123456789".
