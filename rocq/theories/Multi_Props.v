(* C167: Combinations of a range with repeated elements. *)
From Coq Require Import Permutation Sorted.
From Verif Require Import Base Comb_Model Comb_Spec Comb_Proofs Comb_Proofs2 Comb_Proofs3 Enum_Spec Num_Spec Parse_Model Parse_Spec Parse_Props Tour_Model Multi_Model Multi_Spec Multi_Proofs Multi_Proofs2.
Local Open Scope nat_scope.

(* next_combination until it returns false, from any ascending range *)
Theorem C167_next : forall (T : Type) (lt : T -> T -> bool) l k fuel, total_order lt -> ascending lt l -> k <= length l -> length (choices k l) < fuel ->
  exists cs, visit_combinations fuel lt k l = Ok (cs, l) /\ multiset_choices lt k l cs.
Proof. exact @multi_ok. Qed.
Print Assumptions C167_next.

Example C167_next_example : visit_combinations 11 Nat.ltb 3 [1; 1; 2; 2; 2] = Ok ([[1; 1; 2]; [1; 2; 2]; [2; 2; 2]], [1; 1; 2; 2; 2]) /\
  length (choices 3 [1; 1; 2; 2; 2]) = 10.
Proof. split; reflexivity. Qed.

(* what is seen is determined *)
Theorem C167_unique : forall (T : Type) (lt : T -> T -> bool) k l cs cs', total_order lt ->
  multiset_choices lt k l cs -> multiset_choices lt k l cs' -> cs = cs'.
Proof.
  intros T lt k l cs cs' (A & B & C) (S & M) (S' & M').
  assert (H : forall d, In d cs <-> In d cs') by (intros d; rewrite M, M'; reflexivity). clear M M'.
  revert cs' S' H. induction cs as [|x cs IH]; intros [|y cs'] S' H; [reflexivity|destruct (proj2 (H y) (or_introl eq_refl))|destruct (proj1 (H x) (or_introl eq_refl))|].
  inversion S as [|? ? S1 F1]; subst. inversion S' as [|? ? S2 F2]; subst. rewrite Forall_forall in F1, F2.
  assert (Hi : forall d, ~ lex (less lt) d d) by apply (lexR_irrefl lt A).
  assert (E : x = y).
  { destruct (proj1 (H x) (or_introl eq_refl)) as [E|Hx]; [auto|]. destruct (proj2 (H y) (or_introl eq_refl)) as [E|Hy]; [auto|].
    exfalso. apply (Hi x). exact (lexR_trans lt B _ _ _ (F1 y Hy) (F2 x Hx)). }
  subst y. f_equal. apply IH; auto. intros d. split; intros Hd.
  - destruct (proj1 (H d) (or_intror Hd)) as [<-|Hd']; [|exact Hd']. exfalso. exact (Hi x (F1 x Hd)).
  - destruct (proj2 (H d) (or_intror Hd)) as [<-|Hd']; [|exact Hd']. exfalso. exact (Hi x (F2 x Hd)).
Qed.
Print Assumptions C167_unique.

Example C167_unique_example : multiset_choices Nat.ltb 1 [4; 4] [[4]].
Proof.
  split; [repeat constructor|]. intros d. split.
  - intros [<-|[]]. split; [reflexivity|]. split; [repeat constructor|]. exists [4]. reflexivity.
  - intros (L & _ & rest & P). destruct d as [|x [|y d]]; try discriminate. left. assert (H : In x [4; 4]) by (eapply Permutation_in; [exact P|now left]). destruct H as [<-|[<-|[]]]; reflexivity.
Qed.

(* a combination_iterator that is told that the range is not sorted serves every range *)
Theorem C167_iterator : forall (T : Type) (lt : T -> T -> bool) (sort : list T -> list T) l k fuel sorted, total_order lt ->
  (forall l, ascending lt (sort l) /\ Permutation (sort l) l) -> (sorted = true -> ascending lt l) -> l <> [] -> k <= length l -> S (length (choices k (sort l))) < fuel ->
  exists cs, iterate_combinations sort fuel lt k l sorted = Ok (cs, sort l) /\ multiset_choices lt k l cs.
Proof.
  intros T lt sort l k fuel sorted Ho Hs Hl Hn Hk Hf. destruct (Hs l) as (As & P).
  assert (E : (if sorted then l else sort l) = sort l).
  { destruct sorted; [|reflexivity]. destruct Ho as (A & B & C). apply (sorted_unique lt C); [now apply Hl|exact As|now apply Permutation_sym]. }
  unfold iterate_combinations. rewrite E. destruct (iterator_multi lt (sort l) k fuel Ho As) as (cs & V & S & M); auto.
  - intros E0. rewrite E0 in P. apply Permutation_nil in P. auto.
  - rewrite (Permutation_length P). exact Hk.
  - exists cs. split; [exact V|]. split; [exact S|]. intros d. rewrite M. split; intros (A & B & rest & Q); (split; [exact A|]; split; [exact B|]; exists rest); [now rewrite <- P|now rewrite P].
Qed.
Print Assumptions C167_iterator.

Example C167_iterator_example : iterate_combinations (fun l => match l with [2; 1; 2] => [1; 2; 2] | _ => l end) 9 Nat.ltb 2 [2; 1; 2] false = Ok ([[1; 2]; [2; 2]], [1; 2; 2]).
Proof. reflexivity. Qed.

(* from a range that is not ascending some combinations are left out *)
Theorem C167_unsorted_refuted : forall (T : Type) (lt : T -> T -> bool) a b, lt a b = true -> lt b a = false ->
  visit_combinations 2 lt 1 [b; a] = Ok ([[b]], [a; b]).
Proof. intros T lt a b H G. unfold visit_combinations. cbn. rewrite G. reflexivity. Qed.
Print Assumptions C167_unsorted_refuted.

Example C167_unsorted_example : visit_combinations 5 Nat.ltb 2 [2; 3; 1] = Ok ([[2; 3]], [1; 2; 3]).
Proof. reflexivity. Qed.

(* the programs *)
Theorem C167_program : forall s k fuel, ascending char_less s -> k <= length s -> length (choices k s) < fuel -> (Z.of_nat (length (choices k s)) <= 10 ^ 20)%Z ->
  exists cs out, combination_example01 fuel k s = Ok (out, s) /\ multiset_choices char_less k s cs /\ numbered 0 cs out.
Proof.
  intros s k fuel Hs Hk Hf Hn. destruct (multi_ok char_less s k fuel char_order Hs Hk Hf) as (cs & E & M). exists cs.
  assert (Hlen : length cs <= length (choices k s)).
  { destruct char_order as (A & B & C). destruct M as (S & M). apply NoDup_incl_length; [exact (sorted_nodup char_less A cs S)|].
    intros d Hd. apply M in Hd. exact (valid_choices char_less A B C s k d Hs Hd). }
  destruct (numbered_loop k fuel s 0 [] cs s [] Hk E) as (o & N & L); [lia|]. exists o. split; [exact L|]. auto.
Qed.
Print Assumptions C167_program.

Example C167_program_example : combination_example01 9 2 (str "aab") =
  Ok (str "0" ++ [ascii_of_nat 9] ++ str "aa" ++ [ascii_of_nat 10] ++ str "1" ++ [ascii_of_nat 9] ++ str "ab" ++ [ascii_of_nat 10], str "aab").
Proof. vm_compute. reflexivity. Qed.

Theorem C167_block : forall (T : Type) (text : list T -> list ascii) (lt : T -> T -> bool) l k fuel, total_order lt -> ascending lt l -> l <> [] -> k <= length l -> S (length (choices k l)) < fuel ->
  exists cs, multiset_choices lt k l cs /\ combination_block text fuel lt k l = Ok (concat (map (fun c => text c ++ [ascii_of_nat 10]) cs)).
Proof.
  intros T text lt l k fuel Ho Hl Hn Hk Hf. destruct (iterator_multi lt l k fuel Ho Hl Hn Hk Hf) as (cs & E & M). exists cs. split; [exact M|].
  unfold combination_block. rewrite E. reflexivity.
Qed.
Print Assumptions C167_block.

Example C167_block_example : combination_block (fun c => c) 9 char_less 2 (str "aab") = Ok (str "aa" ++ [ascii_of_nat 10] ++ str "ab" ++ [ascii_of_nat 10]).
Proof. vm_compute. reflexivity. Qed.
