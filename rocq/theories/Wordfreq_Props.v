(* C114: the word counter of strtk_wordfreq.cpp. *)
From Verif Require Import Base Split_Model Codec_Spec Gen_Model Ext_Model Parse_Model IO_Model IO_Spec IO_Proofs Stl_Model Wordfreq_Model Wordfreq_Spec Wordfreq_Proofs.
From Verif Require Export Wordfreq_Spec2.
From Coq Require Import Sorting.Sorted Sorting.Permutation.
Local Open Scope nat_scope.

(* The words of the input stream are counted, each under its lower-case form. *)
Theorem C114_frequencies : forall c s, a_char c -> exists ws m,
  words s ws /\ frequencies (map (map lower) ws) m /\
  word_frequencies c (Stream s true) = Ok ((N.of_nat (length ws) mod 2 ^ 64)%N, m).
Proof.
  intros c s Hc. destruct (lines_exist s) as (ls & Hl). destruct (delimiters_ok c Hc) as (ds & E & P).
  unfold word_frequencies. rewrite E. cbn [bind]. cbn zeta. rewrite (for_each_line_ok _ _ _ Hl). cbn [bind].
  destruct (parse_lines_ok _ P s ls Hl [] _ counted_nil) as (ws & (n & m) & W & Ef & (Hn & Hm)). cbn [app fst snd] in *.
  exists ws, m. split; [exact W|]. split; [exact Hm|]. rewrite map_length in Hn. subst n. exact Ef.
Qed.
Print Assumptions C114_frequencies.
Example C114_frequencies_case :
  word_frequencies (IntType (-128) 127 false) (Stream (str "The cat, the Dog" ++ ["010"%char] ++ str "and THE end's") true) =
  Ok (8%N, [(str "and", 1%N); (str "cat", 1%N); (str "dog", 1%N); (str "end", 1%N); (str "s", 1%N); (str "the", 3%N)]).
Proof. vm_compute. reflexivity. Qed.

(* Words are determined by the text and the table by the words. *)
Theorem C114_unique : (forall s ws ws', words s ws -> words s ws' -> ws = ws') /\
  (forall ws m m', frequencies ws m -> frequencies ws m' -> m = m').
Proof.
  split; [intros s ws ws' H H'; now apply (words_fun s)|].
  intros ws m m' (S & H) (S' & H').
  assert (I : forall e, In e m <-> In e m') by (intros (k & v); now rewrite H, H').
  clear H H'. revert m' S' I. induction m as [|e m IH]; intros [|e' m'] S' I.
  - reflexivity.
  - exfalso. apply (proj2 (I e')). now left.
  - exfalso. apply (proj1 (I e)). now left.
  - inversion S as [|? ? S1 F]; subst. inversion S' as [|? ? S1' F']; subst. rewrite Forall_forall in F, F'.
    assert (A : forall a b : list ascii * N, before (fst a) (fst b) -> before (fst b) (fst a) -> False).
    { intros a b H1 H2. apply (before_irrefl (fst a)). eapply before_trans; eauto. }
    assert (e = e') as <-.
    { destruct (proj1 (I e) (or_introl eq_refl)) as [E|E]; [congruence|].
      destruct (proj2 (I e') (or_introl eq_refl)) as [E'|E']; [congruence|].
      exfalso. apply (A e e'); [exact (F _ E')|exact (F' _ E)]. }
    f_equal. apply IH; [exact S1|exact S1'|]. intros x. split; intros Hx.
    + destruct (proj1 (I x) (or_intror Hx)) as [E|E]; [|exact E]. subst x. exfalso. apply (before_irrefl (fst e)). exact (F _ Hx).
    + destruct (proj2 (I x) (or_intror Hx)) as [E|E]; [|exact E]. subst x. exfalso. apply (before_irrefl (fst e)). exact (F' _ Hx).
Qed.
Print Assumptions C114_unique.
Example C114_unique_case : words (str "a bc") [str "a"; str "bc"].
Proof.
  apply (w_word [_] (str " bc")); [discriminate|repeat constructor|intros c r E; injection E as <- _; reflexivity|].
  apply w_other; [reflexivity|]. apply (w_word (str "bc") []); [discriminate|repeat constructor|discriminate|constructor].
Qed.

(* The counts add up to the number of words. *)
Theorem C114_total : forall c s n m, a_char c -> word_frequencies c (Stream s true) = Ok (n, m) ->
  (fold_right N.add 0 (map snd m) mod 2 ^ 32 = n mod 2 ^ 32)%N.
Proof.
  intros c s n m Hc E. destruct (C114_frequencies c s Hc) as (ws & m' & _ & Hm & E'). rewrite E in E'. injection E' as -> <-.
  clear E. rewrite <- (map_length (map lower) ws). remember (map (map lower) ws) as vs eqn:Ev. clear Ev.
  assert (M : forall x, ((x mod 2 ^ 64) mod 2 ^ 32 = x mod 2 ^ 32)%N).
  { intros x. rewrite (N.div_mod x (2 ^ 64)) at 2 by lia. replace (2 ^ 64 * (x / 2 ^ 64) + x mod 2 ^ 64)%N with (x mod 2 ^ 64 + 2 ^ 32 * (x / 2 ^ 64) * 2 ^ 32)%N by lia.
    now rewrite N.mod_add by lia. }
  rewrite M. 
  assert (K : forall m vs, frequencies vs m -> (fold_right N.add 0 (map snd m) mod 2 ^ 32 = N.of_nat (length vs) mod 2 ^ 32)%N).
  { clear. induction m as [|(k & v) m IH]; intros vs (S & H).
    - destruct vs as [|k vs]; [reflexivity|]. exfalso. apply (proj2 (H k (N.of_nat (times k (k :: vs)) mod 2 ^ 32)%N)). split; [now left|reflexivity].
    - inversion S as [|? ? S' F]; subst. rewrite Forall_forall in F.
      set (us := filter (fun w => if list_eq_dec ascii_dec w k then false else true) vs).
      assert (Hus : frequencies us m).
      { split; [exact S'|]. intros x u. destruct (list_eq_dec ascii_dec x k) as [->|N].
        - split.
          + intros Hx. exfalso. apply (before_irrefl k). exact (F _ Hx).
          + intros (Hi & _). apply filter_In in Hi. destruct Hi as (_ & Hi). destruct (list_eq_dec ascii_dec k k); [discriminate|contradiction].
        - assert (T : times x us = times x vs).
          { unfold us, times. clear - N. induction vs as [|y vs IH]; [reflexivity|]. cbn [filter count_occ].
            destruct (list_eq_dec ascii_dec y k) as [->|Ny]; cbn [count_occ]; [destruct (list_eq_dec ascii_dec k x); [congruence|exact IH]|].
            destruct (list_eq_dec ascii_dec y x); [f_equal|]; exact IH. }
          assert (Q : In x us <-> In x vs).
          { unfold us. rewrite filter_In. destruct (list_eq_dec ascii_dec x k); [contradiction|]. tauto. }
          rewrite T, Q, <- H. cbn [In]. split; [auto|]. intros [E|E]; [congruence|exact E]. }
      specialize (IH us Hus). cbn [map fold_right snd]. destruct (proj1 (H k v) (or_introl eq_refl)) as (_ & ->).
      rewrite <- N.add_mod_idemp_r, IH, N.add_mod_idemp_r, N.add_mod_idemp_l by lia. f_equal.
      rewrite <- Nat2N.inj_add. f_equal. unfold us, times. clear. induction vs as [|y vs IH]; [reflexivity|]. cbn [filter count_occ length].
      destruct (list_eq_dec ascii_dec y k); cbn [length]; lia. }
  exact (K m vs Hm).
Qed.
Print Assumptions C114_total.
Example C114_total_case : exists m, word_frequencies (IntType 0 255 false) (Stream (str "a b a c; B") true) = Ok (5%N, m) /\ map snd m = [2; 2; 1]%N.
Proof. eexists. split; vm_compute; reflexivity. Qed.

(* A file is counted like a stream of its contents; one that does not open has no words. *)
Theorem C114_file : forall c fs file, a_char c ->
  word_frequencies_file c fs file =
  if can_open fs file then word_frequencies c (Stream (contents fs file) true) else Ok (0%N, []).
Proof.
  intros c fs file Hc. unfold word_frequencies_file, word_frequencies, for_each_line_file, ifstream.
  destruct (delimiters_ok c Hc) as (ds & -> & _). cbn [bind].
  destruct (can_open fs file); [|reflexivity]. cbn [good].
  destruct (lines_exist (contents fs file)) as (ls & Hl). rewrite (for_each_line_ok _ _ _ Hl). reflexivity.
Qed.
Print Assumptions C114_file.
Example C114_file_case :
  let fs := FSys (fun n => if n =? 0 then Some (str "x y x") else None) (fun _ => true) (fun _ => true) in
  word_frequencies_file (IntType 0 255 false) fs 0 = Ok (3%N, [(str "x", 2%N); (str "y", 1%N)]) /\
  word_frequencies_file (IntType 0 255 false) fs 1 = Ok (0%N, []).
Proof. split; vm_compute; reflexivity. Qed.

(* The order of the lines does not matter: texts whose words are the same up to order
   have the same counts. *)
Theorem C114_order : forall c s s' ws ws', a_char c -> words s ws -> words s' ws' -> Permutation ws ws' ->
  word_frequencies c (Stream s true) = word_frequencies c (Stream s' true).
Proof.
  intros c s s' ws ws' Hc W W' P. destruct (C114_frequencies c s Hc) as (vs & m & V & Hm & ->).
  destruct (C114_frequencies c s' Hc) as (vs' & m' & V' & Hm' & ->).
  rewrite (proj1 C114_unique _ _ _ V W) in *. rewrite (proj1 C114_unique _ _ _ V' W') in *.
  rewrite (Permutation_length P). f_equal. f_equal. apply (proj2 C114_unique (map (map lower) ws')); [|exact Hm'].
  apply (Permutation_map (map lower)) in P. destruct Hm as (S & H). split; [exact S|]. intros k v. rewrite H.
  assert (T : times k (map (map lower) ws) = times k (map (map lower) ws')) by (apply Permutation_count_occ; exact P).
  rewrite T. assert (In k (map (map lower) ws) <-> In k (map (map lower) ws')) as ->; [|reflexivity].
  split; apply Permutation_in; [exact P|now symmetry].
Qed.
Print Assumptions C114_order.
Example C114_order_case :
  word_frequencies (IntType 0 255 false) (Stream (str "one two two") true) =
  word_frequencies (IntType 0 255 false) (Stream (str "two ONE" ++ "010"%char :: str "Two") true).
Proof. vm_compute. reflexivity. Qed.
