(* The strings the trie example works on. *)
From Verif Require Import Base.
Local Open Scope nat_scope.

(* s turned left by j places *)
Definition turned (j : nat) (s : list ascii) : list ascii := skipn j s ++ firstn j s.

(* its pieces of i characters, without the last one *)
Definition pieces (s : list ascii) (i : nat) : list (list ascii) :=
  map (fun k => firstn i (skipn k s)) (seq 0 (length s - i)).

Definition all_pieces (s : list ascii) : list (list ascii) :=
  flat_map (fun j => flat_map (pieces (turned j s)) (seq 1 (length s))) (seq 0 (length s)).
