(* C167: Advancing a combination_iterator. *)
From Coq Require Import Permutation Sorted.
From Verif Require Import Base Comb_Model Cmbx_Model Comb_Spec Enum_Spec Multi_Model Multi_Spec Multi_Model2 Multi_Proofs2 Multi_Proofs3.
From Verif Require Cmbx_Proofs.
Local Open Scope nat_scope.

(* it += n goes to the n-th combination, or to the end with the range as it was *)
Theorem C167_advance : forall (T : Type) (lt : T -> T -> bool) l k cs, total_order lt -> ascending lt l -> l <> [] -> k <= length l -> multiset_choices lt k l cs ->
  (forall n c, nth_error cs n = Some c -> exists r, ci_advance lt (Z.of_nat n) (ci_start k) l = Ok (ci_start k, c ++ r) /\ Permutation (c ++ r) l) /\
  (forall n, length cs <= n -> ci_advance lt (Z.of_nat n) (ci_start k) l = Ok (ci_end l, l)) /\
  (forall inc, (inc <= 0)%Z -> ci_advance lt inc (ci_start k) l = Ok (ci_start k, l)).
Proof.
  intros T lt l k cs Ho Hl Hn Hk Hcs.
  assert (H : forall n, exists x, ci_advance lt (Z.of_nat n) (ci_start k) l = Ok x /\ at_choice lt l k cs n x).
  { intros n. unfold ci_advance. destruct (Z.ltb_spec 0 (Z.of_nat n)) as [L|L].
    - rewrite Nat2Z.id. pose proof (advance lt Ho l k cs Hl Hn Hk Hcs n) as A. destruct (for_up _ _ _ _) as [x| |]; try destruct A. exists x. auto.
    - assert (n = 0) as -> by lia. eexists. split; [reflexivity|]. now apply at_start. }
  split; [|split].
  - intros n c E. destruct (H n) as ([it s] & -> & A). unfold at_choice in A. assert (L : n < length cs) by (apply nth_error_Some; congruence).
    apply Nat.ltb_lt in L. rewrite L in A. cbn [fst snd] in A. destruct A as (-> & c' & r & -> & E' & _ & P). rewrite E in E'. injection E' as <-. eauto.
  - intros n L. destruct (H n) as ([it s] & -> & A). unfold at_choice in A. apply Nat.ltb_ge in L. rewrite L in A. cbn [fst snd] in A. destruct A as (-> & ->). reflexivity.
  - intros inc L. unfold ci_advance. apply Z.ltb_ge in L. now rewrite L.
Qed.
Print Assumptions C167_advance.

Example C167_advance_example : ci_advance Nat.ltb 1 (ci_start 2) [1; 1; 2; 2] = Ok (ci_start 2, [1; 2; 1; 2]) /\
  ci_advance Nat.ltb 2 (ci_start 2) [1; 1; 2; 2] = Ok (ci_start 2, [2; 2; 1; 1]) /\ ci_advance Nat.ltb 7 (ci_start 2) [1; 1; 2; 2] = Ok (ci_end [1; 1; 2; 2], [1; 1; 2; 2]).
Proof. repeat split; reflexivity. Qed.

(* the iterator returned by it++ is the one before, but as the elements themselves are moved
   its range shows the combination after the increment *)
Theorem C167_post_refuted : forall (T : Type) (lt : T -> T -> bool) l k cs c, total_order lt -> ascending lt l -> l <> [] -> k <= length l -> multiset_choices lt k l cs ->
  nth_error cs 1 = Some c -> exists s, ci_post lt (ci_start k) l = Ok (ci_start k, (ci_start k, s)) /\ sub s (0, k) = c /\ nth_error cs 0 <> Some c.
Proof.
  intros T lt l k cs c Ho Hl Hn Hk Hcs E. pose proof (at_next lt Ho l k cs Hl Hn Hk Hcs 0 _ (at_start lt Ho l k cs Hl Hk Hcs)) as A. cbv iota beta in A.
  unfold ci_post. destruct (ci_next lt (ci_start k) l) as [[it s]| |]; try destruct A. cbn [holds] in A. unfold at_choice in A.
  assert (L : 1 < length cs) by (apply nth_error_Some; congruence). apply Nat.ltb_lt in L. rewrite L in A. cbn [fst snd] in A. destruct A as (-> & c' & r & -> & E' & _ & P).
  rewrite E in E'. injection E' as <-. exists (c ++ r). cbn [bind]. split; [reflexivity|]. split.
  - destruct Hcs as (_ & Hi). destruct (proj1 (Hi c) (nth_error_In _ _ E)) as (<- & _). unfold sub. cbn [fst snd skipn]. rewrite Nat.sub_0_r, firstn_app, Nat.sub_diag, firstn_O, app_nil_r, firstn_all. reflexivity.
  - destruct Hcs as (Hs & _). destruct cs as [|c0 [|c1 cs']]; try discriminate. cbn [nth_error] in *. injection E as ->. intros E0. injection E0 as ->.
    apply StronglySorted_inv in Hs as (_ & F). apply Forall_inv in F. destruct Ho as (A & _). exact (Multi_Proofs.lexR_irrefl lt A c F).
Qed.
Print Assumptions C167_post_refuted.

Example C167_post_example : ci_post Nat.ltb (ci_start 1) [1; 2] = Ok (ci_start 1, (ci_start 1, [2; 1])) /\ sub [2; 1] (0, 1) = [2].
Proof. split; reflexivity. Qed.

(* the constructor of the code: told that the range is not sorted it sorts it in place, whatever is repeated in it *)
Lemma insert_le {T} (lt : T -> T -> bool) (x : T) : total_order lt -> forall s, ascending lt s -> ascending lt (sort_insert lt x s).
Proof.
  intros (A & B & C). induction s as [|y s IH]; intros H; cbn [sort_insert]; [repeat constructor|].
  inversion H as [|? ? Hs Hf]; subst. destruct (lt y x) eqn:E.
  - constructor; [now apply IH|]. apply Forall_forall. intros z Hz. eapply Permutation_in in Hz; [|apply Permutation_sym, Cmbx_Proofs.insert_perm].
    destruct Hz as [<-|Hz]; [|rewrite Forall_forall in Hf; now apply Hf].
    destruct (lt x y) eqn:G; [|reflexivity]. pose proof (B _ _ _ E G) as K. rewrite (A y) in K. discriminate.
  - constructor; [exact H|]. constructor; [exact E|]. rewrite Forall_forall in Hf |- *. intros z Hz. specialize (Hf z Hz). cbv beta in Hf |- *.
    exact (Multi_Proofs.le_trans lt B C x y z E Hf).
Qed.
Lemma std_sort_le {T} (lt : T -> T -> bool) : total_order lt -> forall s, ascending lt (std_sort lt s).
Proof. intros Ho. induction s as [|x s IH]; cbn [std_sort fold_right]; [constructor|]. now apply insert_le. Qed.

Lemma choices_count {A} : forall (l l' : list A) k, length l = length l' -> length (choices k l) = length (choices k l').
Proof.
  induction l as [|x l IH]; intros [|y l'] k E; try discriminate; [reflexivity|]. injection E as E. destruct k as [|k]; [reflexivity|].
  cbn [choices]. rewrite !app_length, !map_length. now rewrite (IH l' k E), (IH l' (S k) E).
Qed.

Theorem C167_construct : forall (T : Type) (lt : T -> T -> bool) l k fuel sorted, total_order lt -> (sorted = true -> ascending lt l) -> l <> [] ->
  (length l < k -> ci_construct lt k l sorted = UB) /\
  (k <= length l -> S (length (choices k l)) < fuel ->
   exists s cs, ci_construct lt k l sorted = Ok (ci_start k, s) /\ ascending lt s /\ Permutation s l /\ ci_visit fuel lt k s = Ok (cs, s) /\ multiset_choices lt k l cs).
Proof.
  intros T lt l k fuel sorted Ho Hs Hn. unfold ci_construct. split; [intros H; apply Nat.ltb_lt in H; now rewrite H|]. intros Hk Hf.
  replace (length l <? k) with false by (symmetry; apply Nat.ltb_ge; exact Hk).
  assert (P : Permutation (if sorted then l else std_sort lt l) l) by (destruct sorted; [reflexivity|apply Permutation_sym, Cmbx_Proofs.sort_perm]).
  assert (As : ascending lt (if sorted then l else std_sort lt l)) by (destruct sorted; [now apply Hs|now apply std_sort_le]).
  revert P As. generalize (if sorted then l else std_sort lt l) as s. intros s P As.
  destruct (iterator_multi lt s k fuel Ho As) as (cs & V & S & M).
  - intros ->. apply Permutation_nil in P. auto.
  - now rewrite (Permutation_length P).
  - now rewrite (choices_count s l k (Permutation_length P)).
  - exists s, cs. split; [reflexivity|]. split; [exact As|]. split; [exact P|]. split; [exact V|]. split; [exact S|]. intros d. rewrite M.
    split; intros (A & B & rest & Q); (split; [exact A|]; split; [exact B|]; exists rest); [now rewrite <- P|now rewrite P].
Qed.
Print Assumptions C167_construct.

Example C167_construct_example : ci_construct Nat.ltb 2 [2; 1; 2] false = Ok (ci_start 2, [1; 2; 2]) /\ ci_visit 9 Nat.ltb 2 [1; 2; 2] = Ok ([[1; 2]; [2; 2]], [1; 2; 2]) /\
  ci_construct Nat.ltb 4 [2; 1; 2] false = UB.
Proof. repeat split; reflexivity. Qed.

(* after the last combination it++ still returns the iterator before, and the iterator itself is at the end *)
Theorem C167_post_last : forall (T : Type) (lt : T -> T -> bool) l k cs, total_order lt -> ascending lt l -> l <> [] -> k <= length l -> multiset_choices lt k l cs ->
  length cs = 1 -> ci_post lt (ci_start k) l = Ok (ci_start k, (ci_end l, l)) /\ ci_equal (ci_start k) (ci_end l) = false.
Proof.
  intros T lt l k cs Ho Hl Hn Hk Hcs L. pose proof (at_next lt Ho l k cs Hl Hn Hk Hcs 0 _ (at_start lt Ho l k cs Hl Hk Hcs)) as A. cbv iota beta in A.
  unfold ci_post. destruct (ci_next lt (ci_start k) l) as [[it s]| |]; try destruct A. cbn [holds] in A. unfold at_choice in A. rewrite L in A.
  cbn [Nat.ltb Nat.leb fst snd] in A. destruct A as (-> & ->). split; [reflexivity|]. unfold ci_equal, ci_start, ci_end. cbn.
  destruct l as [|x l]; [congruence|]. reflexivity.
Qed.
Print Assumptions C167_post_last.

Example C167_post_last_example : ci_post Nat.ltb (ci_start 2) [3; 3] = Ok (ci_start 2, (ci_end [3; 3], [3; 3])) /\ ci_equal (ci_start 2) (ci_end [3; 3]) = false.
Proof. split; reflexivity. Qed.
