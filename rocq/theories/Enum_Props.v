(* C76, C77: enumeration of combinations and permutations. *)
From Verif Require Import Base Comb_Model Comb_Spec Enum_Model Enum_Spec Enum_Proofs Enum_Proofs2 Enum_Proofs3.
From Coq Require Import Permutation Sorted.

(* a function that writes down what it sees, and one that stops at a given value *)
Definition note (l : list nat) (st : list (list nat)) : list (list nat) := st ++ [l].
Definition note_until (stop l : list nat) (st : list (list nat)) : list (list nat) * bool :=
  (st ++ [l], negb (if list_eq_dec Nat.eq_dec l stop then true else false)).

(* C76: the function sees every selection of [size] elements exactly once, in the order of the
   positions, and afterwards the range is as it was. *)
Theorem C76_combinations : forall (T St : Type) (f : list T -> St -> St) size s st,
  N.to_nat size <= length s -> (N.of_nat (length s) < 2 ^ 63)%N ->
  for_each_combination f size s st = Ok (s, visit_all f (choices (N.to_nat size) s) st).
Proof. exact @each_ok. Qed.
Print Assumptions C76_combinations.
Example C76_combinations_ex :
  for_each_combination note 2 [1; 2; 3; 4] [] =
    Ok ([1; 2; 3; 4], [[1; 2]; [1; 3]; [1; 4]; [2; 3]; [2; 4]; [3; 4]]) /\
  for_each_combination note 3 [1; 2; 3; 4] [] =
    Ok ([1; 2; 3; 4], [[1; 2; 3]; [1; 2; 4]; [1; 3; 4]; [2; 3; 4]]) /\
  for_each_combination note 0 [1; 2] [] = Ok ([1; 2], [[]]).
Proof. repeat split; vm_compute; reflexivity. Qed.

Theorem C76_too_many : forall (T St : Type) (f : list T -> St -> St) size s st,
  (N.of_nat (length s) < size)%N -> (size < 2 ^ 63)%N -> for_each_combination f size s st = Ok (s, st).
Proof. exact @too_many. Qed.
Print Assumptions C76_too_many.
Example C76_too_many_ex : for_each_combination note 3 [1; 2] [] = Ok ([1; 2], []).
Proof. vm_compute. reflexivity. Qed.

(* The conditional form stops at the first selection the function rejects. *)
Theorem C76_conditional : forall (T St : Type) (f : list T -> St -> St * bool) size s st,
  N.to_nat size <= length s -> (N.of_nat (length s) < 2 ^ 63)%N ->
  exists s' st', for_each_combination_conditional f size s st = Ok (s', st') /\
    match visit_until f (choices (N.to_nat size) s) st with
    | (st2, None) => st' = st2 /\ s' = s
    | (st2, Some c) => st' = st2 /\ Permutation s' s /\ firstn (N.to_nat size) s' = c
    end.
Proof. exact @conditional_ok. Qed.
Print Assumptions C76_conditional.
Example C76_conditional_ex :
  for_each_combination_conditional (note_until [2; 3]) 2 [1; 2; 3; 4] [] =
    Ok ([2; 3; 1; 4], [[1; 2]; [1; 3]; [1; 4]; [2; 3]]) /\
  for_each_combination_conditional (note_until []) 2 [1; 2; 3] [] = Ok ([1; 2; 3], [[1; 2]; [1; 3]; [2; 3]]).
Proof. split; vm_compute; reflexivity. Qed.

Theorem C76_conditional_too_many : forall (T St : Type) (f : list T -> St -> St * bool) size s st,
  (N.of_nat (length s) < size)%N -> (size < 2 ^ 63)%N -> for_each_combination_conditional f size s st = Ok (s, st).
Proof. exact @too_many_conditional. Qed.
Print Assumptions C76_conditional_too_many.
Example C76_conditional_too_many_ex : for_each_combination_conditional (note_until []) 3 [1; 2] [] = Ok ([1; 2], []).
Proof. vm_compute. reflexivity. Qed.

(* stopped early, the range stays rearranged *)
Theorem C76_restored_refuted : exists (f : list nat -> list (list nat) -> list (list nat) * bool) s s' st',
  for_each_combination_conditional f 2 s [] = Ok (s', st') /\ s' <> s.
Proof.
  exists (note_until [2; 3]), [1; 2; 3; 4], [2; 3; 1; 4], [[1; 2]; [1; 3]; [1; 4]; [2; 3]].
  split; [vm_compute; reflexivity|discriminate].
Qed.
Print Assumptions C76_restored_refuted.

(* a size above the largest difference_type passes the check as a negative number *)
Theorem C76_huge_size_refuted : forall (T St : Type) (f : list T -> St -> St) s st, (N.of_nat (length s) < 2 ^ 63)%N ->
  for_each_combination f (2 ^ 64 - 1) s st = UB.
Proof. exact @huge_size. Qed.
Print Assumptions C76_huge_size_refuted.
Example C76_huge_size_ex : for_each_combination note (2 ^ 64 - 1) [1; 2] [] = UB.
Proof. vm_compute. reflexivity. Qed.

(* C77: the function sees the permutations from the given one upwards, each once and in
   lexicographic order, and the range ends sorted. *)
Theorem C77_permutations : forall (T : Type) (lt : T -> T -> bool), total_order lt ->
  forall (St : Type) (f : list T -> St -> St) fuel s st, fact (length s) < fuel ->
  exists ps, permutations_from lt s ps /\ exists s', ascending lt s' /\ Permutation s' s /\
    for_each_permutation fuel lt f s st = Ok (s', visit_all f ps st).
Proof. exact @all_perms. Qed.
Print Assumptions C77_permutations.

Example C77_from_ex : for_each_permutation 7 Nat.ltb note [2; 3; 1] [] = Ok ([1; 2; 3], [[2; 3; 1]; [3; 1; 2]; [3; 2; 1]]).
Proof. reflexivity. Qed.
Lemma nat_order : total_order Nat.ltb.
Proof.
  split; [apply Nat.ltb_irrefl|]. split.
  - intros x y z. rewrite !Nat.ltb_lt. lia.
  - intros x y. rewrite !Nat.ltb_ge. lia.
Qed.
Example C77_permutations_ex :
  for_each_permutation 7 Nat.ltb note [1; 2; 3] [] =
    Ok ([1; 2; 3], [[1; 2; 3]; [1; 3; 2]; [2; 1; 3]; [2; 3; 1]; [3; 1; 2]; [3; 2; 1]]) /\
  for_each_permutation 7 Nat.ltb note [2; 1; 3] [] =
    Ok ([1; 2; 3], [[2; 1; 3]; [2; 3; 1]; [3; 1; 2]; [3; 2; 1]]) /\
  for_each_permutation 7 Nat.ltb note [1; 2; 2] [] = Ok ([1; 2; 2], [[1; 2; 2]; [2; 1; 2]; [2; 2; 1]]).
Proof. repeat split; vm_compute; reflexivity. Qed.

(* starting from a sorted range these are all permutations, each once *)
Theorem C77_all : forall (T : Type) (lt : T -> T -> bool), total_order lt ->
  forall (St : Type) (f : list T -> St -> St) fuel s st, fact (length s) < fuel -> ascending lt s ->
  exists ps, NoDup ps /\ (forall p, In p ps <-> Permutation p s) /\
    for_each_permutation fuel lt f s st = Ok (s, visit_all f ps st).
Proof.
  intros T lt Ho St f fuel s st Hf As. destruct (all_perms lt Ho f fuel s st Hf) as (ps & Hp & s' & As' & Ps & E).
  exists ps. split; [exact (from_nodup lt Ho s ps Hp)|]. split; [exact (from_ascending lt Ho s ps As Hp)|].
  replace s with s' at 2; [exact E|].
  destruct (ascending_min lt Ho s As s' Ps) as [->|L1]; [reflexivity|].
  destruct (ascending_min lt Ho s' As' s (Permutation_sym Ps)) as [->|L2]; [reflexivity|].
  exfalso. exact (lex_neq lt Ho _ _ (lex_trans lt Ho _ _ _ L1 L2) eq_refl).
Qed.
Print Assumptions C77_all.
Example C77_all_ex : ascending Nat.ltb [1; 1; 2] /\ total_order Nat.ltb /\
  for_each_permutation 7 Nat.ltb note [1; 1; 2] [] = Ok ([1; 1; 2], [[1; 1; 2]; [1; 2; 1]; [2; 1; 1]]).
Proof. split; [repeat constructor|split; [exact nat_order|vm_compute; reflexivity]]. Qed.

Theorem C77_conditional : forall (T : Type) (lt : T -> T -> bool), total_order lt ->
  forall (St : Type) (f : list T -> St -> St * bool) fuel s st, fact (length s) < fuel ->
  exists ps, permutations_from lt s ps /\ exists s', ascending lt s' /\ Permutation s' s /\
    for_each_permutation_conditional fuel lt f s st =
    Ok (match visit_until f ps st with (st', None) => (s', st', true) | (st', Some p) => (p, st', false) end).
Proof.
  intros T lt Ho St f fuel s st Hf.
  apply (conditional_perms lt Ho f fuel s st []); [constructor|intros p []|simpl; lia].
Qed.
Print Assumptions C77_conditional.
Example C77_conditional_ex :
  for_each_permutation_conditional 7 Nat.ltb (note_until [2; 1; 3]) [1; 2; 3] [] =
    Ok ([2; 1; 3], [[1; 2; 3]; [1; 3; 2]; [2; 1; 3]], false) /\
  for_each_permutation_conditional 7 Nat.ltb (note_until []) [3; 1; 2] [] =
    Ok ([1; 2; 3], [[3; 1; 2]; [3; 2; 1]], true).
Proof. split; vm_compute; reflexivity. Qed.

(* an unsorted range does not give all its permutations *)
Theorem C77_unsorted_refuted : exists s p st',
  for_each_permutation 7 Nat.ltb note s [] = Ok st' /\ Permutation p s /\ ~ In p (snd st').
Proof.
  exists [2; 1; 3], [1; 2; 3], ([1; 2; 3], [[2; 1; 3]; [2; 3; 1]; [3; 1; 2]; [3; 2; 1]]).
  split; [vm_compute; reflexivity|]. split; [apply perm_swap|].
  cbn. intros [H|[H|[H|[H|[]]]]]; discriminate H.
Qed.
Print Assumptions C77_unsorted_refuted.
