(* The programs that enumerate combinations. *)
From Coq Require Import Permutation Sorted.
From Verif Require Import Base Comb_Model Comb_Spec Comb_Proofs Comb_Proofs2 Comb_Proofs3 Enum_Spec Num_Spec Parse_Model Tour_Model Tour_Proofs Multi_Model Multi_Spec Multi_Proofs.
Local Open Scope nat_scope.

Lemma multi_ok {T} (lt : T -> T -> bool) l k fuel : total_order lt -> ascending lt l -> k <= length l -> length (choices k l) < fuel ->
  exists cs, visit_combinations fuel lt k l = Ok (cs, l) /\ multiset_choices lt k l cs.
Proof.
  intros (A & B & C) Hl Hk Hf. destruct (visit_multi lt A B C l k fuel Hl Hk Hf) as (cs & E & S & V). exists cs. split; [exact E|]. split; [exact S|]. exact V.
Qed.

(* a loop over the iterator sees the same *)
Lemma iterator_same {T} (lt : T -> T -> bool) k cs s' : forall fuel (s : list T) acc, s <> [] -> k <= length s ->
  loop fuel (fun '(s, acc) => let acc := acc ++ [sub s (0, k)] in ' (s, b) <- next_combination lt k s ;; if b : bool then Ok (inl (s, acc)) else Ok (inr (acc, s))) (s, acc) = Ok (cs, s') ->
  loop (S fuel) (fun '(it, s, acc) => if ci_equal it (ci_end s) then Ok (inr (acc, s))
       else let acc := acc ++ [sub s (0, k)] in ' (it, s) <- ci_next lt it s ;; Ok (inl (it, s, acc))) (ci_start k, s, acc) = Ok (cs, s').
Proof.
  induction fuel as [|fuel IH]; intros s acc Hs Hk H; [discriminate|].
  assert (Hl : 0 =? length s = false) by (destruct s; [congruence|reflexivity]).
  destruct (next_permutes lt k s Hk) as (s1 & b & E & P).
  assert (Hs1 : s1 <> []) by (intros ->; apply Permutation_nil in P; congruence).
  assert (Hk1 : k <= length s1) by (rewrite (Permutation_length P); exact Hk).
  cbn [loop] in H. cbv zeta in H. rewrite E in H. cbn [bind] in H.
  cbn [loop]. unfold ci_equal at 1. unfold ci_start at 1 2. unfold ci_end at 1 2. cbn [ci_begin ci_middle]. rewrite Hl. cbn [andb]. cbv zeta.
  unfold ci_next at 1. unfold ci_start at 1 2 3. cbn [ci_begin ci_middle]. rewrite Hl. cbn [negb]. rewrite E. cbn [bind]. destruct b; cbn [negb bind] in *.
  - apply IH; auto.
  - unfold ci_equal. rewrite !Nat.eqb_refl. cbn [andb bind]. exact H.
Qed.
Lemma iterator_multi {T} (lt : T -> T -> bool) l k fuel : total_order lt -> ascending lt l -> l <> [] -> k <= length l -> S (length (choices k l)) < fuel ->
  exists cs, ci_visit fuel lt k l = Ok (cs, l) /\ multiset_choices lt k l cs.
Proof.
  intros Ho Hl Hn Hk Hf. destruct fuel as [|fuel]; [lia|]. destruct (multi_ok lt l k fuel Ho Hl Hk ltac:(lia)) as (cs & E & M). exists cs. split; [|exact M].
  unfold ci_visit. now apply iterator_same.
Qed.

Lemma numbered_loop k : forall fuel (s : list ascii) i acc cs s' out, k <= length s ->
  loop fuel (fun '(s, acc) => let acc := acc ++ [sub s (0, k)] in ' (s, b) <- next_combination char_less k s ;; if b : bool then Ok (inl (s, acc)) else Ok (inr (acc, s))) (s, acc) = Ok (acc ++ cs, s') ->
  (Z.of_nat (i + length cs) <= 10 ^ 20)%Z ->
  exists o, numbered i cs o /\
  loop fuel (fun '(s, combination_index, out) => t <- size_text combination_index ;; let out := out ++ t ++ [tab] ++ firstn k s ++ [newline] in
       ' (s, b) <- next_combination char_less k s ;; if b : bool then Ok (inl (s, S combination_index, out)) else Ok (inr (out, s))) (s, i, out) = Ok (out ++ o, s').
Proof.
  induction fuel as [|fuel IH]; intros s i acc cs s' out Hk H Hn; [discriminate|].
  destruct (next_permutes char_less k s Hk) as (s1 & b & E & P).
  assert (Hk1 : k <= length s1) by (rewrite (Permutation_length P); exact Hk).
  cbn [loop] in H. cbv zeta in H. rewrite E in H. cbn [bind] in H.
  assert (Hc : exists cs', cs = sub s (0, k) :: cs' /\ (b = false -> cs' = [] /\ s1 = s') /\
     (b = true -> loop fuel (fun '(s, acc) => let acc := acc ++ [sub s (0, k)] in ' (s, b) <- next_combination char_less k s ;; if b : bool then Ok (inl (s, acc)) else Ok (inr (acc, s))) (s1, acc ++ [sub s (0, k)]) = Ok ((acc ++ [sub s (0, k)]) ++ cs', s'))).
  { destruct b; cbn [bind] in H.
    - assert (G : exists cs', acc ++ cs = (acc ++ [sub s (0, k)]) ++ cs').
      { clear - H. revert H. generalize (acc ++ [sub s (0, k)]) as a. generalize (acc ++ cs) as r. clear. intros r a. revert s1 a.
        induction fuel as [|fuel IH]; intros s1 a H; [discriminate|]. cbn [loop] in H. cbv zeta in H. destruct (next_combination char_less k s1) as [[s2 b]| |]; cbn [bind] in H; try discriminate.
        destruct b; cbn [bind] in H.
        - destruct (IH _ _ H) as (cs' & ->). exists ([sub s1 (0, k)] ++ cs'). now rewrite <- app_assoc.
        - injection H as <- _. now exists [sub s1 (0, k)]. }
      destruct G as (cs' & G). pose proof G as G'. rewrite <- app_assoc in G'. apply app_inv_head in G'. exists cs'. split; [exact G'|]. split; [discriminate|]. intros _. rewrite <- G. exact H.
    - injection H as H1 H2. apply app_inv_head in H1. exists []. split; [now symmetry|]. split; [auto|discriminate]. }
  destruct Hc as (cs' & -> & Hf & Ht). cbn [length] in Hn.
  destruct (size_text_ok i) as (x & Ex & Cx); [lia|].
  cbn [loop]. rewrite Ex. cbn [bind]. cbv zeta. rewrite E. cbn [bind]. assert (Es : sub s (0, k) = firstn k s) by (unfold sub; cbn [fst snd skipn]; now rewrite Nat.sub_0_r). rewrite Es in *.
  destruct b; cbn [bind].
  - destruct (IH s1 (S i) _ cs' s' (out ++ x ++ [tab] ++ firstn k s ++ [newline]) Hk1 (Ht eq_refl)) as (o & N & L); [lia|].
    exists (x ++ [ascii_of_nat 9] ++ firstn k s ++ [ascii_of_nat 10] ++ o). split; [now constructor|]. etransitivity; [exact L|]. rewrite <- !app_assoc. reflexivity.
  - destruct (Hf eq_refl) as (-> & ->). exists (x ++ [ascii_of_nat 9] ++ firstn k s ++ [ascii_of_nat 10] ++ []). split; [constructor; [exact Cx|constructor]|]. reflexivity.
Qed.

Lemma char_order : total_order char_less.
Proof.
  unfold char_less. split; [intros; apply Z.ltb_irrefl|]. split; [intros x y z; rewrite !Z.ltb_lt; lia|].
  intros x y H G. apply Z.ltb_ge in H, G. assert (E : signed_char x = signed_char y) by lia. clear H G. unfold signed_char in E.
  pose proof (nat_ascii_bounded x). pose proof (nat_ascii_bounded y). rewrite <- (ascii_nat_embedding x), <- (ascii_nat_embedding y). f_equal.
  destruct (Z.ltb_spec (Z.of_nat (nat_of_ascii x)) 128), (Z.ltb_spec (Z.of_nat (nat_of_ascii y)) 128); lia.
Qed.
