(* C123: jumping to the n-th combination or permutation is stepping to it. *)
From Verif Require Import Base Comb_Model Comb_Spec Comb_Proofs Comb_Proofs2 Comb_Proofs3 Comb_Proofs6 Comb_Props Enum_Model Enum_Spec Enum_Proofs3 Enum_Props Jump_Spec Jump_Proofs.
From Coq Require Import Permutation Sorted.

(* What nth_combination_sequence delivers for a sorted range of distinct elements (selection,
   then the rest) is what i calls of next_combination make of the range, each of which found
   a next combination. *)
Theorem C123_jump : forall (T : Type) (lt : T -> T -> bool) fuel st i k (l : list T),
  (forall a b, lt a b = true -> lt b a = false) -> StronglySorted (fun a b => lt a b = true) l ->
  after_calls st -> 2 <= k -> k <= length l -> length l + 1 < fuel -> (N.of_nat (length l) < 2 ^ 32)%N ->
  (N.of_nat (length (choices k l)) < 2 ^ 64)%N -> i < length (choices k l) ->
  exists st' s, nth_combination_range fuel st (N.of_nat i) (N.of_nat k) l true = Ok (st', s) /\
    stepped (next_combination lt k) i l s /\ nth_error (choices k l) i = Some (firstn k s).
Proof.
  intros T lt fuel st i k l Ha Hs Hst Hk Hkl Hf Hl Hb Hi.
  assert (Hlen : length (choices k l) = length (sel k l)) by (rewrite <- sel_choices; apply map_length).
  destruct (nth_error (sel k l) i) as [[c r]|] eqn:E; [|apply nth_error_None in E; lia].
  destruct (range_sel fuel st i k l c r (after_calls_ok _ Hst) Hk Hkl Hf Hl Hb E) as (st' & R & _).
  exists st', (c ++ r). split; [exact R|]. split.
  - rewrite <- (firstn_skipn k l) at 1. apply (sel_steps lt Ha l k Hs i 0); [apply (sel_first lt Ha l k Hkl)|exact E].
  - assert (length c = k) as Hc by (apply nth_error_In in E; apply (sel_in lt) in E; tauto).
    rewrite <- Hc at 2. rewrite firstn_app_len, <- sel_choices, nth_error_map, E. reflexivity.
Qed.
Print Assumptions C123_jump.

Example C123_jump_ex :
  (' (_, s) <- nth_combination_range 20 initial_statics 4 2 [2; 3; 5; 7] true ;; Ok s) = Ok [3; 7; 2; 5] /\
  stepped (next_combination Nat.ltb 2) 4 [2; 3; 5; 7] [3; 7; 2; 5].
Proof. split; [vm_compute; reflexivity|]. repeat (eapply one_step; [vm_compute; reflexivity|]). apply no_step. Qed.

(* Going on with next_combination from the combination jumped to shows that one and all
   later ones, and ends with the sorted range. *)
Theorem C123_resume : forall (T : Type) (lt : T -> T -> bool) fuel fuel' st st' i k (l s : list T),
  (forall a b, lt a b = true -> lt b a = false) -> StronglySorted (fun a b => lt a b = true) l ->
  after_calls st -> 2 <= k -> k <= length l -> length l + 1 < fuel -> (N.of_nat (length l) < 2 ^ 32)%N ->
  (N.of_nat (length (choices k l)) < 2 ^ 64)%N -> i < length (choices k l) -> length (choices k l) < fuel' ->
  nth_combination_range fuel st (N.of_nat i) (N.of_nat k) l true = Ok (st', s) ->
  visit_combinations fuel' lt k s = Ok (from i (choices k l), l).
Proof.
  intros T lt fuel fuel' st st' i k l s Ha Hs Hst Hk Hkl Hf Hl Hb Hi Hf' E0.
  assert (Hlen : length (choices k l) = length (sel k l)) by (rewrite <- sel_choices; apply map_length).
  destruct (nth_error (sel k l) i) as [[c r]|] eqn:E; [|apply nth_error_None in E; lia].
  destruct (range_sel fuel st i k l c r (after_calls_ok _ Hst) Hk Hkl Hf Hl Hb E) as (st2 & R & _).
  assert (s = c ++ r) as -> by congruence. unfold from. apply (visit_from lt Ha l k fuel' i c r); auto.
  rewrite <- choices_length. exact Hf'.
Qed.
Print Assumptions C123_resume.

Example C123_resume_ex :
  visit_combinations 10 Nat.ltb 2 [3; 7; 2; 5] = Ok ([[3; 7]; [5; 7]], [2; 3; 5; 7]) /\
  from 4 (choices 2 [2; 3; 5; 7]) = [[3; 7]; [5; 7]].
Proof. split; reflexivity. Qed.

(* The n-th permutation of a string of increasing characters is what n calls of
   next_permutation make of it. *)
Theorem C123_permutation : forall (lt : ascii -> ascii -> bool) (s : list ascii) n, total_order lt -> StronglySorted (less lt) s ->
  1 <= length s <= 21 -> n < fact (length s) ->
  exists p, nth_permutation_string (N.of_nat n) s = Ok p /\ stepped (next_permutation lt) n s p.
Proof.
  intros lt s n Ho Hs Hl Hn. rewrite <- (arr_length (length s) s eq_refl) in Hn.
  destruct (nth_error (arrangements (length s) s) n) as [p|] eqn:E; [|apply nth_error_None in E; lia].
  exists p. split; [exact (C30_nth_string n s p Hl E)|exact (perm_steps lt s Ho Hs n p E)].
Qed.
Print Assumptions C123_permutation.

Definition by_code (a b : ascii) : bool := (N_of_ascii a <? N_of_ascii b)%N.
Example C123_permutation_ex : nth_permutation_string 3 (str "abc") = Ok (str "bca") /\
  stepped (next_permutation by_code) 3 (str "abc") (str "bca").
Proof. split; [vm_compute; reflexivity|]. repeat (eapply one_step; [vm_compute; reflexivity|]). apply no_step. Qed.

(* for_each_permutation numbers the permutations in the same way. *)
Theorem C123_visits : forall (St : Type) (lt : ascii -> ascii -> bool) (f : list ascii -> St -> St) fuel s st,
  total_order lt -> StronglySorted (less lt) s -> 1 <= length s <= 21 -> fact (length s) < fuel ->
  exists ps s', for_each_permutation fuel lt f s st = Ok (s', visit_all f ps st) /\ length ps = fact (length s) /\
    forall n p, nth_error ps n = Some p -> nth_permutation_string (N.of_nat n) s = Ok p.
Proof.
  intros St lt f fuel s st Ho Hs Hl Hf. destruct (C77_permutations _ lt Ho St f fuel s st Hf) as (ps & Hp & s' & _ & _ & E).
  pose proof (permutations_are lt s ps Ho Hs Hp) as ->. exists (arrangements (length s) s), s'. split; [exact E|]. split; [apply arr_length; reflexivity|].
  intros n p. apply C30_nth_string. exact Hl.
Qed.
Print Assumptions C123_visits.

Example C123_visits_ex :
  for_each_permutation 7 by_code (fun p st => st ++ [p]) (str "abc") [] =
    Ok (str "abc", [str "abc"; str "acb"; str "bac"; str "bca"; str "cab"; str "cba"]) /\
  map (fun n => nth_permutation_string n (str "abc")) [0; 1; 2; 3; 4; 5]%N =
    map (@Ok _) [str "abc"; str "acb"; str "bac"; str "bca"; str "cab"; str "cba"].
Proof. split; vm_compute; reflexivity. Qed.

(* The range has to be sorted: stepping goes by the elements, jumping by their positions. From
   3, 1, 2 the second step finds no next pair although there is a third one. *)
Theorem C123_unsorted_refuted :
  (' (_, s) <- nth_combination_range 20 initial_statics 1 2 [3; 1; 2] true ;; Ok s) = Ok [3; 2; 1] /\
  next_combination Nat.ltb 2 [3; 1; 2] = Ok ([3; 2; 1], true) /\
  (' (_, s) <- nth_combination_range 20 initial_statics 2 2 [3; 1; 2] true ;; Ok s) = Ok [1; 2; 3] /\
  next_combination Nat.ltb 2 [3; 2; 1] = Ok ([1; 3; 2], false).
Proof. repeat split; vm_compute; reflexivity. Qed.
Print Assumptions C123_unsorted_refuted.
