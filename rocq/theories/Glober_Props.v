(* C117: the line filter of strtk_glober.cpp *)
From Verif Require Import Base Match_Model Match_Spec Match_Props IO_Spec IO_Proofs Parse_Model Wordfreq_Spec Glober_Model Glober_Spec Glober_Proofs.
From Coq Require Import Sorting.Sorted Sorting.Permutation.
Local Open Scope nat_scope.

(* If matching is defined and means what [matches] says, for each line of the input and each
   pattern that it matches, in the order of the dictionary, a line is written *)
Theorem C117_output : forall (matches : list ascii -> list ascii -> Prop) args input ls, args <> [] -> lines_of input ls ->
  (forall p s, In p args -> In s ls -> exists b, match_str p s = Ok b /\ (b = true <-> matches p s)) ->
  exists ps out, sorted_list args ps /\ report matches ps ls out /\ glober args input = Ok (out, 0).
Proof. exact glober_ok. Qed.
Print Assumptions C117_output.
Definition nl1 : list ascii := [ascii_of_nat 10].
Example C117_output_example : glober [str "b?"; str "a*"; str "a?"] (str "ab" ++ nl1 ++ str "b" ++ nl1 ++ str "c") =
  Ok (str "a* matched ab" ++ nl1 ++ str "a? matched ab" ++ nl1 ++ str "b? matched b" ++ nl1, 0) /\
  glober [] (str "ab") = Ok (str "strtk_glober <pattern_0> <pattern_1> .... <pattern_n>" ++ nl1, 1).
Proof. vm_compute. auto. Qed.

(* without patterns it shows its usage and fails, whatever the input *)
Theorem C117_no_patterns : forall input,
  glober [] input = Ok (str "strtk_glober <pattern_0> <pattern_1> .... <pattern_n>" ++ [ascii_of_nat 10], 1).
Proof. reflexivity. Qed.
Print Assumptions C117_no_patterns.
Example C117_no_patterns_example : glober [] (str "ab") = glober [] [] /\ glober [str "b"] (str "ab") = Ok ([], 0).
Proof. vm_compute. auto. Qed.

(* the order of the arguments does not matter *)
Theorem C117_order : forall args args' input, Permutation args args' -> glober args input = glober args' input.
Proof.
  intros args args' input P. unfold glober. rewrite (Permutation_length P), !line_glober_ok.
  replace (sort_strings args') with (sort_strings args); [reflexivity|].
  apply (sorted_unique args); [apply sort_strings_ok|]. destruct (sort_strings_ok args') as (P' & S'). split; [|exact S'].
  exact (perm_trans P P').
Qed.
Print Assumptions C117_order.
Example C117_order_example : glober [str "x"; str "*"] (str "x") = glober [str "*"; str "x"] (str "x") /\
  glober [str "x"; str "*"] (str "x") = Ok (str "* matched x" ++ nl1 ++ str "x matched x" ++ nl1, 0).
Proof. vm_compute. auto. Qed.

(* for patterns without wildcards, or with a star at the end only, this is globbing *)
Theorem C117_globs : forall args input ls, args <> [] -> lines_of input ls ->
  (forall p, In p args -> literal p \/ exists l, literal l /\ p = l ++ ["*"%char]) ->
  exists ps out, sorted_list args ps /\ report (glob Ascii.eqb "*"%char "?"%char) ps ls out /\ glober args input = Ok (out, 0).
Proof.
  intros args input ls Hne Hl H. apply glober_ok; auto. intros p s Hp _. destruct (H p Hp) as [Hp'|(l & Hp' & ->)].
  - destruct (C12_literal p s Hp') as (b & E & Hb). exists b. split; [exact E|]. rewrite Hb, glob_literal by auto. split; congruence.
  - destruct (C12_prefix_star l s Hp') as (b & E & Hb). exists b. split; [exact E|]. now rewrite Hb, glob_prefix by auto.
Qed.
Print Assumptions C117_globs.
Example C117_globs_example : glober [str "a.txt"; str "a*"] (str "a.txt" ++ nl1 ++ str "ab" ++ nl1) =
  Ok (str "a* matched a.txt" ++ nl1 ++ str "a.txt matched a.txt" ++ nl1 ++ str "a* matched ab" ++ nl1, 0).
Proof. vm_compute. reflexivity. Qed.

(* a star before a literal c l2 takes the characters up to the first c: the match succeeds only
   if l2 follows it and the text ends; if there is no c, it runs over the end of the text *)
Theorem C117_star : forall l1 c l2 s, literal l1 -> literal (c :: l2) ->
  (match_str (l1 ++ "*"%char :: c :: l2) s = Ok true <-> exists a, s = l1 ++ a ++ c :: l2 /\ ~ In c a) /\
  (match_str (l1 ++ "*"%char :: c :: l2) s = UB <-> l2 <> [] /\ exists a, a <> [] /\ s = l1 ++ a /\ ~ In c a) /\
  match_str (l1 ++ "*"%char :: c :: l2) s <> OutOfFuel.
Proof.
  intros l1 c l2 s H1 H2. split; [|split; [|apply match_fuelled]]; rewrite match_star by auto.
  - split.
    + intros E. destruct (strip l1 s) as [[|x t]|] eqn:Es; try discriminate. apply strip_some in Es. subst s.
      pose proof (upto_ok c (x :: t)) as Hu. destruct (upto c (x :: t)) as [a [r|]]; cbn [snd] in E.
      * destruct Hu as (Hn & ->). destruct (list_eq_dec ascii_dec r l2) as [->|]; [|discriminate]. eauto.
      * destruct l2; discriminate.
    + intros (a & -> & Hn). assert (Es : strip l1 (l1 ++ a ++ c :: l2) = Some (a ++ c :: l2)) by now apply strip_some.
      rewrite Es. destruct (a ++ c :: l2) as [|x t] eqn:Ea; [destruct a; discriminate|]. rewrite <- Ea, upto_some by auto. cbn [snd].
      destruct (list_eq_dec ascii_dec l2 l2); [reflexivity|congruence].
  - split.
    + intros E. destruct (strip l1 s) as [[|x t]|] eqn:Es; try discriminate. apply strip_some in Es. subst s.
      pose proof (upto_ok c (x :: t)) as Hu. destruct (upto c (x :: t)) as [a [r|]]; cbn [snd] in E; [discriminate|].
      destruct Hu as (Hn & Ha). split; [destruct l2; [discriminate|congruence]|]. exists (x :: t). rewrite Ha. repeat split; auto. rewrite <- Ha. discriminate.
    + intros (Hl & a & Ha & -> & Hn). assert (Es : strip l1 (l1 ++ a) = Some a) by now apply strip_some. rewrite Es.
      destruct a as [|x t]; [congruence|]. rewrite upto_none by auto. cbn [snd]. destruct l2; congruence.
Qed.
Print Assumptions C117_star.
Example C117_star_example : match_str (str "M*file") (str "Makefile") = Ok true /\ match_str (str "M*file") (str "Make") = UB /\
  match_str (str "M*file") (str "M") = Ok false /\ match_str (str "*.hpp") (str "strtk.hpp") = Ok true.
Proof. vm_compute. auto. Qed.

(* not true: the program can be used as described, with *.hpp on a directory listing.  A name
   without a dot makes it read beyond the end of the name *)
Theorem C117_usage_refuted : forall args input ls s, lines_of input ls -> In (str "*.hpp") args -> In s ls -> s <> [] -> ~ In "."%char s ->
  glober args input = UB.
Proof.
  intros args input ls s Hl Hp Hs Hne Hd. apply (glober_ub (str "*.hpp") s args input ls); auto.
  refine (proj2 (proj1 (proj2 (C117_star [] "."%char (str "hpp") s _ _))) _); [constructor|repeat constructor; discriminate|].
  split; [discriminate|]. exists s. auto.
Qed.
Print Assumptions C117_usage_refuted.
Example C117_usage_example : glober [str "*.hpp"; str "*.cpp"; str "*.txt"; str "M?kef*le"] (str "Makefile" ++ nl1) = UB /\
  glober [str "*.hpp"] (str "strtk.hpp" ++ nl1) = Ok (str "*.hpp matched strtk.hpp" ++ nl1, 0).
Proof. vm_compute. auto. Qed.
(* not true: *.hpp matches every name that ends with .hpp.  There must be no other dot *)
Theorem C117_dots_refuted : forall a b, ~ In "."%char a -> b <> [] ->
  match_str (str "*.hpp") (a ++ str "." ++ b ++ str ".hpp") = Ok false.
Proof.
  intros a b Ha Hb. change (str "*.hpp") with ([] ++ "*"%char :: "."%char :: str "hpp"). rewrite match_star; [|constructor|repeat constructor; discriminate].
  cbn [strip]. destruct (a ++ str "." ++ b ++ str ".hpp") as [|x t] eqn:E; [destruct a; discriminate|]. rewrite <- E. clear E.
  change (str "." ++ b ++ str ".hpp") with ("."%char :: b ++ str ".hpp"). rewrite upto_some by auto. cbn [snd].
  destruct (list_eq_dec ascii_dec (b ++ str ".hpp") (str "hpp")) as [E|_]; [|reflexivity].
  apply (f_equal (@length _)) in E. rewrite app_length in E. cbn in E. lia.
Qed.
Print Assumptions C117_dots_refuted.
Example C117_dots_example : match_str (str "*.hpp") (str "strtk.old.hpp") = Ok false.
Proof. vm_compute. reflexivity. Qed.
