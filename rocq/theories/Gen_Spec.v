(* Specifications of the filling functions. *)
From Coq Require Import List Arith NArith ZArith Ascii.
From Verif Require Import Gen_Model.
Import ListNotations.

(* the i-th value counting up from v in an integer type, cyclically *)
Definition counted (ty : int_type) (v : Z) (i : nat) : Z :=
  (lo ty + (v - lo ty + Z.of_nat i) mod (hi ty - lo ty + 1))%Z.
(* the first n of them *)
Definition iota_vals ty v n := map (counted ty v) (seq 0 n).
(* counting n times from v stays in the type, or the type wraps *)
Definition countable (ty : int_type) (v : Z) (n : nat) : Prop :=
  (lo ty <= v <= hi ty)%Z /\ (overflows ty = false \/ (v + Z.of_nat n <= hi ty)%Z).

(* the k-th element is the first one no other element is smaller than *)
Definition first_least {T} (lt : T -> T -> bool) (s : list T) (k : nat) (x : T) : Prop :=
  nth_error s k = Some x /\ (forall y, In y s -> lt y x = false) /\
  (forall j y, j < k -> nth_error s j = Some y -> lt x y = true).

(* n numbers of four bytes each, one after another *)
Definition words (enc : N -> list ascii) (rnd : nat -> N) (from n : nat) : list ascii :=
  flat_map (fun k => enc (rnd k)) (seq from n).

(* what n calls of a generator give, one after another *)
Fixpoint drawn {G T} (draw : G -> T * G) (n : nat) (g : G) : list T :=
  match n with O => [] | S n' => fst (draw g) :: drawn draw n' (snd (draw g)) end.
