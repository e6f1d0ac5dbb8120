(* C118: the combinations of strtk_combinations.cpp *)
From Verif Require Import Base Num_Spec Num_Model Num_Props Parse_Model Parse_Spec Parse_Props IO_Model Comb_Spec Comb_Proofs Comb_Proofs3 Comb_Props Enum_Model Enum_Spec Enum_Props Wordfreq_Model Wordfreq_Spec Wordfreq_Proofs Glober_Model Glober_Spec Glober_Proofs Choose_Model Choose_Spec.
From Coq Require Import Sorting.Sorted Sorting.Permutation.
Local Open Scope nat_scope.

Lemma visit_table cs : forall out, visit_all print_choice cs out = out ++ table cs.
Proof.
  unfold visit_all, table. induction cs as [|c cs IH]; intros out; cbn [fold_left map concat]; [now rewrite app_nil_r|].
  rewrite IH. unfold print_choice at 1. rewrite C35_join, map_id, <- !app_assoc. reflexivity.
Qed.
Lemma combinations_step a xs : xs <> [] ->
  combinations (a :: xs) = (' (ok, r) <- conv_unsigned t_ulong n_ulong a 0%Z ;;
    if negb ok then Ok (usage (str "Invalid 'r' value."), 1)
    else if (0 =? r)%Z then Ok ([], 0)
    else if (Z.of_nat (length xs) <? r)%Z then Ok (usage (str "r > k"), 1)
      else ' (_, out) <- for_each_combination print_choice (Z.to_N r) (sort_strings xs) [] ;; Ok (out, 0)).
Proof.
  intros H. unfold combinations. replace (length (a :: xs) <? 2) with false by (symmetry; apply Nat.ltb_ge; destruct xs; [congruence|cbn [length]; lia]).
  change (rd (a :: xs) 0) with (Ok a). cbn [bind skipn]. destruct (conv_unsigned t_ulong n_ulong a 0%Z) as [[ok r]| |]; cbn [bind]; auto.
  destruct (negb ok); auto. destruct (0 =? r)%Z; auto. rewrite args_ok. cbn [bind app]. destruct (sort_strings_ok xs) as (P & _).
  rewrite <- (Permutation_length P). reflexivity.
Qed.

(* For a number r from 1 to k, at most 4294967295, all selections of r of the k strings are
   written, as lines in the order of the positions in the sorted list *)
Theorem C118_output : forall a r xs, unsigned_text a r -> (1 <= r <= Z.of_nat (length xs))%Z -> (r <= 4294967295)%Z -> (N.of_nat (length xs) < 2 ^ 63)%N ->
  exists l, sorted_list xs l /\ combinations (a :: xs) = Ok (table (choices (Z.to_nat r) l), 0).
Proof.
  intros a r xs Ha Hr Hb Hl. exists (sort_strings xs). split; [apply sort_strings_ok|].
  rewrite combinations_step by (destruct xs; [cbn in Hr; lia|discriminate]).
  assert (E : parse_unsigned t_ulong n_ulong a = Ok (Some r)) by (apply (proj2 (C18_unsigned_long a)); auto).
  unfold conv_unsigned. rewrite E. cbn [bind negb]. replace (0 =? r)%Z with false by (symmetry; apply Z.eqb_neq; lia).
  replace (Z.of_nat (length xs) <? r)%Z with false by (symmetry; apply Z.ltb_ge; lia).
  destruct (sort_strings_ok xs) as (P & _). apply Permutation_length in P.
  rewrite C76_combinations by lia. cbn [bind]. rewrite visit_table. cbn [app]. do 4 f_equal. lia.
Qed.
Print Assumptions C118_output.
Definition tab1 : list ascii := [ascii_of_nat 9].
Definition end1 : list ascii := [ascii_of_nat 10].
Example C118_output_example : combinations [str "3"; str "abc"; str "123"; str "def"; str "456"] =
  Ok (str "123" ++ tab1 ++ str "456" ++ tab1 ++ str "abc" ++ end1 ++ str "123" ++ tab1 ++ str "456" ++ tab1 ++ str "def" ++ end1 ++
      str "123" ++ tab1 ++ str "abc" ++ tab1 ++ str "def" ++ end1 ++ str "456" ++ tab1 ++ str "abc" ++ tab1 ++ str "def" ++ end1, 0).
Proof. vm_compute. reflexivity. Qed.

(* these are k! / (r! (k-r)!) lines, one for each way to take r strings from the sorted list *)
Theorem C118_count : forall k (l : list (list ascii)), k <= length l ->
  length (choices k l) * (fact k * fact (length l - k)) = fact (length l) /\
  forall c, In c (choices k l) <-> length c = k /\ subseq c l.
Proof. intros k l H. split; [rewrite choices_length; now apply binom_fact|]. intros c. apply C31_choices. Qed.
Print Assumptions C118_count.
Example C118_count_example : length (choices 2 [str "a"; str "b"; str "c"; str "d"]) = 6 /\ 6 * (fact 2 * fact 2) = fact 4.
Proof. auto. Qed.

(* if the strings are different, so are the lines' selections, in ascending order *)
Theorem C118_ascending : forall xs l k, NoDup xs -> sorted_list xs l -> StronglySorted (lex before) (choices k l).
Proof.
  intros xs l k Hn (P & S1). assert (Hn' : NoDup l) by (eapply Permutation_NoDup; eauto). clear xs Hn P.
  assert (S2 : StronglySorted before l).
  { induction S1 as [|x l S1 IH F]; [constructor|]. inversion Hn' as [|? ? Hx Hl]; subst. constructor; auto.
    apply Forall_forall. rewrite Forall_forall in F. intros y Hy. destruct (F y Hy) as [->|]; [contradiction|auto]. }
  clear S1 Hn'. revert k. induction S2 as [|x l S2 IH F]; intros [|k]; cbn [choices]; try (repeat constructor; fail).
  assert (G : forall cs ds : list (list (list ascii)), StronglySorted (lex before) cs -> StronglySorted (lex before) ds ->
     (forall c d, In c cs -> In d ds -> lex before c d) -> StronglySorted (lex before) (cs ++ ds)).
  { clear. induction 1 as [|c cs H IH F]; intros Hd H2; cbn [app]; [auto|]. constructor.
    - apply IH; auto. intros c' d Hc Hd'. apply H2; [now right|auto].
    - apply Forall_app. split; [auto|]. apply Forall_forall. intros d Hd'. apply H2; [now left|auto]. }
  apply G.
  - specialize (IH k). clear -IH. induction IH as [|c cs H IH F]; cbn [map]; constructor; auto.
    apply Forall_forall. intros d Hd. apply in_map_iff in Hd. destruct Hd as (e & <- & He). apply lex_eq. rewrite Forall_forall in F. auto.
  - apply IH.
  - intros c d Hc Hd. apply in_map_iff in Hc. destruct Hc as (e & <- & _). apply C31_choices in Hd. destruct Hd as (Hl & Hd).
    destruct d as [|y d]; [discriminate|]. apply lex_lt. rewrite Forall_forall in F. apply F.
    remember (y :: d) as yd eqn:E. clear -Hd E. revert y d E. induction Hd as [|z c l H IH|z c l H IH]; intros y d E; [discriminate| |].
    + left. congruence.
    + right. eauto.
Qed.
Print Assumptions C118_ascending.
Example C118_ascending_example : choices 2 [str "a"; str "ab"; str "b"] = [[str "a"; str "ab"]; [str "a"; str "b"]; [str "ab"; str "b"]] /\
  lex before [str "a"; str "b"] [str "ab"; str "b"].
Proof. split; [reflexivity|]. apply lex_lt. exists (str "a"). left. exists "b"%char, []. auto. Qed.
(* not true with equal strings: lines are repeated and not in order *)
Theorem C118_repeated_refuted : sorted_list [str "a"; str "a"; str "b"; str "c"] [str "a"; str "a"; str "b"; str "c"] /\
  choices 2 [str "a"; str "a"; str "b"; str "c"] =
    [[str "a"; str "a"]; [str "a"; str "b"]; [str "a"; str "c"]; [str "a"; str "b"]; [str "a"; str "c"]; [str "b"; str "c"]].
Proof.
  split; [|reflexivity]. exact (sort_strings_ok [str "a"; str "a"; str "b"; str "c"]).
Qed.
Print Assumptions C118_repeated_refuted.

(* in all other cases there is a message, except that 0 is taken without one *)
Theorem C118_refused : forall a xs, xs <> [] ->
  ((forall r, ~ (unsigned_text a r /\ (r <= 4294967295)%Z)) -> combinations (a :: xs) = Ok (help_line ++ str "error message: Invalid 'r' value." ++ end1, 1)) /\
  (unsigned_text a 0 -> combinations (a :: xs) = Ok ([], 0)) /\
  (forall r, unsigned_text a r -> (Z.of_nat (length xs) < r <= 4294967295)%Z -> combinations (a :: xs) = Ok (help_line ++ str "error message: r > k" ++ end1, 1)) /\
  combinations [a] = Ok (help_line, 1) /\ combinations [] = Ok (help_line, 1).
Proof.
  intros a xs Hne. rewrite combinations_step by auto. unfold conv_unsigned. destruct (C18_unsigned_long a) as ((o & E) & H). split; [|split; [|split; [|split; reflexivity]]].
  - intros N. rewrite E. cbn [bind]. destruct o as [v|]; [|reflexivity]. exfalso. apply (N v). now apply H.
  - intros H0. replace (parse_unsigned t_ulong n_ulong a) with (Ok (Some 0%Z)) by (symmetry; apply H; split; [auto|lia]). reflexivity.
  - intros r Hr Hb. replace (parse_unsigned t_ulong n_ulong a) with (Ok (Some r)) by (symmetry; apply H; split; [auto|lia]). cbn [bind negb].
    replace (0 =? r)%Z with false by (symmetry; apply Z.eqb_neq; lia). replace (Z.of_nat (length xs) <? r)%Z with true by (symmetry; apply Z.ltb_lt; lia). reflexivity.
Qed.
Print Assumptions C118_refused.
Example C118_refused_example : combinations [str "+0"; str "x"] = Ok ([], 0) /\ combinations [str "-1"; str "x"] = Ok (help_line ++ (str "error message: Invalid 'r' value.") ++ end1, 1) /\
  combinations [str "2"; str "x"] = Ok (str "usage: strtk_combination <r> <s_1> <s_2> .... <s_k>" ++ end1 ++ str "error message: r > k" ++ end1, 1).
Proof. vm_compute. auto. Qed.
