(* A byte string as a sequence of bits, least significant bit of each byte first. *)
From Verif Require Import Base.

Definition bits_of_byte (c : ascii) : list bool :=
  map (fun k => N.testbit (N_of_ascii c) (N.of_nat k)) (seq 0 8).
Definition bits_of (s : list ascii) : list bool := concat (map bits_of_byte s).

Definition ones_in (l : list bool) : nat := length (filter (fun b => b) l).

Definition differing (a b : list bool) : nat :=
  length (filter (fun p => xorb (fst p) (snd p)) (combine a b)).

(* the bits of a and b alternating, a first *)
Fixpoint alternate (a b : list bool) : list bool :=
  match a, b with
  | x :: a', y :: b' => x :: y :: alternate a' b'
  | _, _ => []
  end.

(* the first n bits of a number *)
Definition low_bits (n : nat) (v : N) : list bool := map (fun k => N.testbit v (N.of_nat k)) (seq 0 n).
