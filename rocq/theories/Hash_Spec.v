(* Which positions a hash of n elements looks at, in which order. *)
From Verif Require Import Base.

Definition bit_block (n b : nat) : list nat := if Nat.testbit n b then seq 0 (2 ^ b) else [].

(* all whole blocks of 64, then for every further power of two in n a block
   taken from the beginning again; a last odd element is not looked at *)
Definition positions (n : nat) : list nat :=
  seq 0 (64 * (n / 64)) ++ bit_block n 5 ++ bit_block n 4 ++ bit_block n 3 ++ bit_block n 2 ++ bit_block n 1.

(* the elements at given positions *)
Definition pick {T} (s : list T) (ps : list nat) : list T :=
  flat_map (fun i => match nth_error s i with Some x => [x] | None => [] end) ps.

(* left-to-right combination of elements with a mixing step *)
Definition mix_all {T} (mix : T -> N -> N) (xs : list T) (seed : N) : N :=
  fold_left (fun h x => mix x h) xs seed.

(* The mixing of one int, on integers: the bytes of its two's complement from the
   lowest, in pairs; all sums, products and shifts modulo 2^32. *)
Definition byte_of (x : Z) (i : Z) : Z := ((x / 256 ^ i) mod 256)%Z.
Definition step1 (b h : Z) : Z := Z.lxor h (Z.lxor ((h * 128) mod 2 ^ 32) ((b * (h / 8)) mod 2 ^ 32)).
Definition step2 (b h : Z) : Z :=
  Z.lxor h (2 ^ 32 - 1 - ((h * 2048) mod 2 ^ 32 + Z.lxor b (h / 32)) mod 2 ^ 32)%Z.
Definition mix_int (x h : Z) : Z :=
  step2 (byte_of x 3) (step1 (byte_of x 2) (step2 (byte_of x 1) (step1 (byte_of x 0) h))).

(* the value of a char, which is signed *)
Definition signed_char (c : ascii) : Z :=
  let n := Z.of_nat (nat_of_ascii c) in if (n <? 128)%Z then n else (n - 256)%Z.

Definition mix_string (xs : list ascii) (seed : Z) : Z := fold_left (fun h c => mix_int (signed_char c) h) xs seed.
