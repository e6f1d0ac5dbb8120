(* What the Bloom filter example inserts and looks up. *)
From Verif Require Import Base Comb_Spec Codec_Spec Bloom_Spec.
Local Open Scope nat_scope.

(* every combination of k of the letters, as it is and in capitals *)
Definition keys (k : nat) (letters : list ascii) : list key :=
  flat_map (fun c => [c; map upper c]) (choices k letters).

(* the first and second half of each of them *)
Definition halves (k : nat) (letters : list ascii) : list key :=
  flat_map (fun s => [firstn (k / 2) s; skipn (k / 2) s]) (keys k letters).

(* inserting keys in order *)
Definition inserting (ks : list key) : prog := fold_left Insert ks New.
