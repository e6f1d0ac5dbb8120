(* Further programs of strtk_examples.cpp for all texts: C157 to C162, and C68. *)
From Coq Require Import Sorting.Sorted.
From Verif Require Import Base Edit_Model Edit_Spec Edit_Proofs2 Edit_Props Codec_Spec Match_Model Match_Proofs Match_Props Num_Model Num_Spec Parse_Model Parse_Spec Parse_Proofs2 Parse_Props
  Sink_Model Scan_Spec Scan_Model Wordfreq_Spec Fields_Spec Tour_Model Tour_Proofs2 Walk_Model Walk_Spec Walk_Proofs Walk_Proofs2.
Local Open Scope nat_scope.
Definition eol : list ascii := [ascii_of_nat 10].

(* ---- C157 ---- *)
Theorem C157_output : forall intab outtab s, length intab = length outtab ->
  Forall (fun c => nat_of_ascii c < 128) intab -> Forall (fun c => nat_of_ascii c < 128) s ->
  translation_block intab outtab s = Ok (Some (str "Before: " ++ s ++ [ascii_of_nat 10] ++
    str "After: " ++ map (lookup_last (combine intab outtab)) s ++ [ascii_of_nat 10])).
Proof.
  intros intab outtab s Hl Hi Hs. destruct (C57_translate intab outtab Hl Hi) as (t & E & _ & Ht). unfold translation_block. rewrite E. cbn [bind].
  rewrite (Ht s Hs). reflexivity.
Qed.
Print Assumptions C157_output.
Example C157_output_example : translation_block (str "aeiou") (str "12345") (str "simple sample") =
  Ok (Some (str "Before: simple sample" ++ eol ++ str "After: s3mpl2 s1mpl2" ++ eol)).
Proof. reflexivity. Qed.

(* tables of different sizes: the constructor throws before anything is shown *)
Theorem C157_refused : forall intab outtab s, length intab <> length outtab -> translation_block intab outtab s = Ok None.
Proof. intros intab outtab s H. unfold translation_block. rewrite (C57_translate_size_mismatch _ _ H). reflexivity. Qed.
Print Assumptions C157_refused.
Example C157_refused_example : translation_block (str "aeiou") (str "1234") (str "simple sample") = Ok None.
Proof. reflexivity. Qed.

(* with the tables exchanged the text comes back if and only if none of its characters is one of the
   second table alone *)
Theorem C157_undone : forall intab outtab s, length intab = length outtab -> NoDup intab -> NoDup outtab ->
  Forall (fun c => nat_of_ascii c < 128) intab -> Forall (fun c => nat_of_ascii c < 128) outtab -> Forall (fun c => nat_of_ascii c < 128) s ->
  exists t u s' s'', translation_table intab outtab = Ok (Some t) /\ translation_table outtab intab = Ok (Some u) /\
    translate t s = Ok s' /\ translate u s' = Ok s'' /\ (s'' = s <-> forall c, In c s -> In c intab \/ ~ In c outtab).
Proof.
  intros intab outtab s Hl Ni No Hi Ho Hs. destruct (C57_translate intab outtab Hl Hi) as (t & E1 & _ & Ht). destruct (C57_translate outtab intab (eq_sym Hl) Ho) as (u & E2 & _ & Hu).
  exists t, u. eexists _, _. split; [exact E1|]. split; [exact E2|]. split; [exact (Ht s Hs)|]. split.
  - apply Hu. apply Forall_forall. intros c Hc. apply in_map_iff in Hc as (d & <- & Hd). rewrite Forall_forall in Hs. apply lookup_low; [exact (Hs d Hd)|].
    apply Forall_forall. intros [x y] Hq. apply in_combine_r in Hq. rewrite Forall_forall in Ho. exact (Ho y Hq).
  - rewrite map_map, map_same_iff. split; intros H c Hc; specialize (H c Hc); now apply (undo_iff intab outtab Hl Ni No).
Qed.
Print Assumptions C157_undone.
Example C157_undone_example : translation_block (str "aeiou") (str "12345") (str "a fine day") = Ok (Some (str "Before: a fine day" ++ eol ++ str "After: 1 f3n2 d1y" ++ eol)) /\
  translation_block (str "12345") (str "aeiou") (str "1 f3n2 d1y") = Ok (Some (str "Before: 1 f3n2 d1y" ++ eol ++ str "After: a fine day" ++ eol)).
Proof. split; reflexivity. Qed.
(* a character of the second table that the text had before is taken for a translated one *)
Theorem C157_undone_refuted : exists s s' s'',
  (t <- translation_table (str "aeiou") (str "12345") ;; match t with Some t => translate t s | None => UB end) = Ok s' /\
  (t <- translation_table (str "12345") (str "aeiou") ;; match t with Some t => translate t s' | None => UB end) = Ok s'' /\ s'' <> s.
Proof. exists (str "day 1"), (str "d1y 1"), (str "day a"). split; [reflexivity|]. split; [reflexivity|discriminate]. Qed.
Print Assumptions C157_undone_refuted.
(* and no table undoes one that maps two characters to the same *)
Theorem C157_merged_refuted : forall intab outtab t i j x y, length intab = length outtab -> NoDup intab ->
  Forall (fun c => nat_of_ascii c < 128) intab -> translation_table intab outtab = Ok (Some t) ->
  i <> j -> nth_error intab i = Some x -> nth_error intab j = Some y -> nth_error outtab i = nth_error outtab j ->
  [x] <> [y] /\ translate t [x] = translate t [y].
Proof.
  intros intab outtab t i j x y Hl Ni Hi E Hij Hx Hy Ho. split.
  - intros D. injection D as <-. apply Hij. apply (proj1 (NoDup_nth_error intab) Ni); [eapply nth_error_some_lt; eauto|congruence].
  - destruct (C57_translate intab outtab Hl Hi) as (t' & E' & _ & Ht). rewrite E in E'. injection E' as <-. rewrite Forall_forall in Hi.
    rewrite (Ht [x]), (Ht [y]); [|constructor; [apply Hi; eapply nth_error_In; eauto|constructor]..]. cbn [map].
    assert (G : forall k z, nth_error intab k = Some z -> exists w, nth_error outtab k = Some w /\ lookup_last (combine intab outtab) z = w).
    { intros k z Hz. pose proof (nth_error_some_lt _ _ _ Hz). destruct (nth_error outtab k) as [w|] eqn:Ew; [|apply nth_error_None in Ew; lia].
      exists w. split; [reflexivity|]. apply lookup_some; [now rewrite combine_fst|]. clear -Hz Ew. revert outtab k Hz Ew. induction intab as [|a l IH]; intros [|b m] [|k] Hz Ew; cbn in *; try discriminate.
      - injection Hz as ->. injection Ew as ->. now left.
      - right. eapply IH; eauto. }
    destruct (G _ _ Hx) as (w & W1 & ->). destruct (G _ _ Hy) as (w' & W2 & ->). rewrite W1, W2 in Ho. injection Ho as ->. reflexivity.
Qed.
Print Assumptions C157_merged_refuted.
Example C157_merged_example : (t <- translation_table (str "ab") (str "xx") ;; match t with Some t => translate t (str "abba") | None => UB end) = Ok (str "xxxx").
Proof. reflexivity. Qed.

(* ---- C158 ---- *)
Theorem C158_output : forall pattern data, pattern <> [] -> Forall (fun c => nat_of_ascii c < 128) pattern -> Forall (fun c => nat_of_ascii c < 128) data ->
  exists ks ks', leftmost_occs Ascii.eqb pattern data 0 ks /\ leftmost_occs ieq pattern data 0 ks' /\
    let exact := concat (repeat (match_text pattern) (length ks)) ++ [ascii_of_nat 10] in
    let texts := map (fun k => sub data (k, k + length pattern)) ks' in
    let folded := concat (map match_text texts) ++ [ascii_of_nat 10] in
    find_example pattern data = Ok (exact ++ folded ++ exact ++ folded) /\ Forall (fun t => map upper t = map upper pattern) texts.
Proof.
  intros pattern data Hp H1 H2. destruct (C13_find_all ascii Ascii.eqb pattern data Hp) as (ks & Hk & E). destruct (C52_ifind_all pattern data H1 H2 Hp) as (ks' & Hk' & E').
  exists ks, ks'. split; [exact Hk|]. split; [exact Hk'|]. cbn zeta. split.
  - unfold find_example. rewrite E, E'. cbn [bind]. rewrite !match_line_ok, !map_map.
    replace (map (fun x => match_text (sub data (x, x + length pattern))) ks) with (repeat (match_text pattern) (length ks)); [reflexivity|].
    apply leftmost_in in Hk. clear -Hk. induction Hk as [|k ks Ho F IH]; cbn [length repeat map]; [reflexivity|]. rewrite IH. f_equal. f_equal.
    pose proof (proj2 (sub_exact pattern data k (proj1 Ho)) Ho) as T. unfold text_eqb in T. now destruct (list_eq_dec ascii_dec (sub data (k, k + length pattern)) pattern).
  - apply leftmost_in in Hk'. apply Forall_forall. intros t Ht. apply in_map_iff in Ht as (k & <- & Hk2). rewrite Forall_forall in Hk'. specialize (Hk' k Hk2).
    apply C52_occurrence_meaning in Hk' as (a & m & b & -> & <- & Hm). rewrite <- Hm. assert (length m = length pattern) as <-.
    { rewrite <- (map_length upper m), Hm. apply map_length. }
    unfold sub. cbn [fst snd]. replace (length a + length m - length a) with (length m) by lia. rewrite skipn_app, skipn_all, Nat.sub_diag. cbn [skipn app].
    now rewrite firstn_app, firstn_all, Nat.sub_diag, app_nil_r.
Qed.
Print Assumptions C158_output.
Definition tab : list ascii := [ascii_of_nat 9].
Example C158_output_example : find_example (str "ab") (str "abcAB") =
  Ok (str "(ab)" ++ tab ++ eol ++ str "(ab)" ++ tab ++ str "(AB)" ++ tab ++ eol ++ str "(ab)" ++ tab ++ eol ++ str "(ab)" ++ tab ++ str "(AB)" ++ tab ++ eol).
Proof. reflexivity. Qed.

(* without regard to case there are never fewer matches *)
Theorem C158_count : forall pattern data ks ks', leftmost_occs Ascii.eqb pattern data 0 ks -> leftmost_occs ieq pattern data 0 ks' -> length ks <= length ks'.
Proof. intros pattern data ks ks' H H'. exact (leftmost_count pattern data 0 ks H 0 ks' (Nat.le_refl 0) H'). Qed.
Print Assumptions C158_count.
Example C158_count_example : find_all Ascii.eqb (str "aA") (str "AaAaA") = Ok ([(1, 3); (3, 5)], 2) /\ ifind_all (str "aA") (str "AaAaA") = Ok ([(0, 2); (2, 4)], 2).
Proof. split; reflexivity. Qed.

(* the matches of the exact search are the exact ones among the others, if the pattern cannot overlap itself *)
Theorem C158_among : forall pattern data, pattern <> [] -> never_overlaps pattern ->
  Forall (fun c => nat_of_ascii c < 128) pattern -> Forall (fun c => nat_of_ascii c < 128) data ->
  exists ks, ifind_all pattern data = Ok (map (fun k => (k, k + length pattern)) ks, length ks) /\
    let exact := filter (fun k => if list_eq_dec ascii_dec (sub data (k, k + length pattern)) pattern then true else false) ks in
    find_all Ascii.eqb pattern data = Ok (map (fun k => (k, k + length pattern)) exact, length exact).
Proof.
  intros pattern data Hp Hn H1 H2. destruct (C13_find_all ascii Ascii.eqb pattern data Hp) as (ks & Hk & E). destruct (C52_ifind_all pattern data H1 H2 Hp) as (ks' & Hk' & E').
  exists ks'. split; [exact E'|]. cbn zeta. rewrite E. pose proof (leftmost_unique Ascii.eqb pattern data ks 0 Hk _ (leftmost_exact pattern data Hp Hn 0 ks' Hk')) as ->. reflexivity.
Qed.
Print Assumptions C158_among.
Example C158_among_example : never_overlaps (str "abc") /\ find_all Ascii.eqb (str "abc") (str "abcABCxabc") = Ok ([(0, 3); (7, 10)], 2) /\
  ifind_all (str "abc") (str "abcABCxabc") = Ok ([(0, 3); (3, 6); (7, 10)], 3).
Proof.
  split; [|split; reflexivity]. intros k Hk. cbn [length str] in Hk. exists 0, "a"%char.
  destruct k as [|[|[|k]]]; cbn in *; [lia| | |lia]; eexists; (split; [reflexivity|]; split; [reflexivity|vm_compute; discriminate]).
Qed.
Theorem C158_overlap_refuted : find_all Ascii.eqb (str "aA") (str "AaA") = Ok ([(1, 3)], 1) /\ ifind_all (str "aA") (str "AaA") = Ok ([(0, 2)], 1).
Proof. split; reflexivity. Qed.
Print Assumptions C158_overlap_refuted.

(* ---- C159 ---- *)
Theorem C159_output : forall data ps, (Z.of_nat (length data) < 18446744073709551615)%Z -> Forall (fun p => p <> []) ps ->
  exists ls, index_lines data ps = Ok (concat ls) /\
    Forall2 (fun p l => exists n t, first_index data p n /\ canonical t n /\ l = str "Index of pattern[" ++ p ++ str "]: " ++ t ++ [ascii_of_nat 10]) ps ls.
Proof.
  intros data ps Hd. induction 1 as [|p ps Hp F (ls & E & G)]; [exists []; split; [reflexivity|constructor]|].
  destruct (index_line_ok data p Hp Hd) as (n & t & H1 & H2 & H3). cbn [index_lines]. rewrite H3. cbn [bind]. rewrite E. cbn [bind].
  eexists (_ :: ls). split; [reflexivity|]. constructor; [|exact G]. exists n, t. auto.
Qed.
Print Assumptions C159_output.
Example C159_output_example : index_lines (str "0123456789ABC") [str "3456789ABC"; str "xyz"] =
  Ok (str "Index of pattern[3456789ABC]: 3" ++ eol ++ str "Index of pattern[xyz]: 18446744073709551615" ++ eol).
Proof. vm_compute. reflexivity. Qed.

(* a text of different characters: every part that is not empty has the number where it begins *)
Theorem C159_distinct : forall data p a b, NoDup data -> p <> [] -> data = a ++ p ++ b -> index_of Ascii.eqb p data = Some (length a).
Proof.
  intros data p a b Hn Hp Hd. destruct (C50_begins_ends_index ascii Ascii.eqb Ascii.eqb_eq p data) as (_ & _ & H). apply (H Hp). split; [eauto|].
  intros a' b' Hd'. enough (length a' = length a) by lia. destruct p as [|c p]; [congruence|]. apply (proj1 (NoDup_nth_error data) Hn).
  - rewrite Hd', app_length. cbn [length app]. lia.
  - transitivity (Some c); [rewrite Hd'|rewrite Hd]; rewrite nth_error_app2, Nat.sub_diag by lia; reflexivity.
Qed.
Print Assumptions C159_distinct.
Example C159_distinct_example : index_of Ascii.eqb (str "56789ABC") (str "0123456789ABC") = Some 5.
Proof. reflexivity. Qed.
(* the empty text, which is at the beginning of every text, is not found *)
Theorem C159_empty_refuted : forall data, first_index data [] 0 /\ index_of Ascii.eqb [] data = None.
Proof. intros data. split; [|reflexivity]. left. exists [], data. split; [reflexivity|]. split; [reflexivity|]. cbn. lia. Qed.
Print Assumptions C159_empty_refuted.
Example C159_empty_example : index_line (str "ab") [] = Ok (str "Index of pattern[]: 18446744073709551615" ++ eol).
Proof. vm_compute. reflexivity. Qed.

(* ---- C160 ---- *)
Theorem C160_parse : forall a v f b u g, int_text a v -> unsigned_text b u -> (u <= 4294967295)%Z -> ~ In "|"%char f -> ~ In "|"%char g ->
  truncated_block None (a ++ str "." ++ f ++ str "|" ++ b ++ str "." ++ g) = Ok (true, [trunc_int None v; trunc_uint None u]) /\
  (length f = length g -> truncated_block (Some (length f)) (a ++ str "." ++ f ++ str "|" ++ b ++ str "." ++ g) =
    Ok (true, [trunc_int (Some (length f)) v; trunc_uint (Some (length f)) u])).
Proof.
  intros a v f b u g Ha Hb Hu Hf Hg. assert (D : forall x, ~ In "|"%char x -> ~ In "|"%char ("."%char :: x)) by (intros x Hx [E|E]; [discriminate|auto]). split; [|intros Hl].
  - apply (truncated_block_ok None a v ("."%char :: f) b u ("."%char :: g)); auto; right; eauto.
  - apply (truncated_block_ok (Some (length f)) a v ("."%char :: f) b u ("."%char :: g)); auto; cbn; lia.
Qed.
Print Assumptions C160_parse.
Example C160_parse_example : truncated_block None (str "-1234.0000|+1234.5") = Ok (true, [trunc_int None (-1234); trunc_uint None 1234]) /\
  truncated_block (Some 4) (str "-1234.0000|+1234.0000") = Ok (true, [trunc_int (Some 4) (-1234); trunc_uint (Some 4) 1234]).
Proof. split; reflexivity. Qed.
(* texts without a fraction: read whole where the size is not given, and cut by as many characters as the
   size says and one more where it is *)
Theorem C160_whole : forall a v b u, int_text a v -> unsigned_text b u -> (u <= 4294967295)%Z ->
  truncated_block None (a ++ str "|" ++ b) = Ok (true, [trunc_int None v; trunc_uint None u]).
Proof.
  intros a v b u Ha Hb Hu. pose proof (truncated_block_ok None a v [] b u [] Ha Hb Hu) as H. cbn [app] in H. rewrite app_nil_r in H. apply H; [now left|now left|now intros []..].
Qed.
Print Assumptions C160_whole.
Example C160_whole_example : truncated_block None (str "-12|34") = Ok (true, [trunc_int None (-12); trunc_uint None 34]).
Proof. reflexivity. Qed.
Theorem C160_size_refuted : forall n a v d b u e, int_text a v -> unsigned_text b u -> (u <= 4294967295)%Z ->
  length d = n + 1 -> length e = n + 1 -> ~ In "|"%char d -> ~ In "|"%char e ->
  truncated_block (Some n) (a ++ d ++ str "|" ++ b ++ e) = Ok (true, [trunc_int (Some n) v; trunc_uint (Some n) u]).
Proof. intros. now apply truncated_block_ok. Qed.
Print Assumptions C160_size_refuted.
Example C160_size_example : truncated_block (Some 4) (str "1234567|7654321") = Ok (true, [trunc_int (Some 4) 12; trunc_uint (Some 4) 76]).
Proof. reflexivity. Qed.

(* ---- C161 ---- *)
Theorem C161_columns : forall data texts vs, compressed_tokens (str ",") data texts -> Forall2 int_text texts vs ->
  let even := if 8 <? length texts then map (fun c => nth c vs 0%Z) [0; 2; 4; 6; 8] else repeat 0%Z 5 in
  let odd := if 9 <? length texts then map (fun c => nth c vs 0%Z) [1; 3; 5; 7; 9] else even in
  columns_blocks data = Ok ((8 <? length texts, map int_var even), (9 <? length texts, map int_var odd)).
Proof. exact columns_blocks_ok. Qed.
Print Assumptions C161_columns.
Example C161_columns_example : columns_blocks (str "1,2,3,4,5,-6,7,8,9,10,11") =
  Ok ((true, map int_var [1; 3; 5; 7; 9]%Z), (true, map int_var [2; 4; -6; 8; 10]%Z)) /\
  columns_blocks (str "1,2,3,4,5,-6,7,8,9") = Ok ((true, map int_var [1; 3; 5; 7; 9]%Z), (false, map int_var [1; 3; 5; 7; 9]%Z)).
Proof. split; reflexivity. Qed.
Theorem C161_ignored : forall T (conv_t : converter T) zero_t data ts', ignoring conv_t zero_t data = Ok (true, ts') <->
  exists t0 t1 t2 t3 t4 more v w, compressed_tokens (str ",") data (t0 :: t1 :: t2 :: t3 :: t4 :: more) /\
    int_text t0 v /\ conv_t t2 zero_t = Ok (true, w) /\
    ts' = [int_var v; Target unit conv_ignore tt; Target T conv_t w; Target unit conv_ignore tt; Target (list ascii) conv_string t4].
Proof. intros T. exact (@ignoring_iff T). Qed.
Print Assumptions C161_ignored.
Example C161_ignored_example : ignoring conv_string [] (str "+123,ignore0,123.456,ignore1,abcdef,ignore2") =
  Ok (true, [int_var 123; Target unit conv_ignore tt; Target (list ascii) conv_string (str "123.456"); Target unit conv_ignore tt; Target (list ascii) conv_string (str "abcdef")]).
Proof. reflexivity. Qed.
(* a column that is ignored must not be empty: the next one takes its place *)
Theorem C161_empty_refuted : ignoring conv_string [] (str "1,,2,b,3,4") =
  Ok (true, [int_var 1; Target unit conv_ignore tt; Target (list ascii) conv_string (str "b"); Target unit conv_ignore tt; Target (list ascii) conv_string (str "4")]).
Proof. reflexivity. Qed.
Print Assumptions C161_empty_refuted.

(* ---- C162 ---- *)
Theorem C162_keys : forall ps, exists ks, StronglySorted before ks /\ (forall k, In k ks <-> In k (map fst ps)) /\
  make_key_lists ps = Ok (str "Keys(set): " ++ separated (str ", ") ks ++ [ascii_of_nat 10] ++ str "Keys(vec): " ++ separated (str ", ") ks ++ [ascii_of_nat 10] ++
    str "Keys(deq): " ++ separated (str ", ") ks ++ [ascii_of_nat 10] ++ str "Keys(lst): " ++ separated (str ", ") ks ++ [ascii_of_nat 10]).
Proof. exact key_lists_ok. Qed.
Print Assumptions C162_keys.
Example C162_keys_example : make_key_lists [(str "zero", 0%Z); (str "one", 1%Z); (str "zero", 7%Z)] =
  Ok (str "Keys(set): one, zero" ++ eol ++ str "Keys(vec): one, zero" ++ eol ++ str "Keys(deq): one, zero" ++ eol ++ str "Keys(lst): one, zero" ++ eol).
Proof. reflexivity. Qed.
(* the map the keys are taken from has for each key the value assigned last *)
Theorem C162_last : forall ps k v, In (k, v) (fold_left (fun m kv => map_assign m (fst kv) (snd kv)) ps []) <->
  exists a b, ps = a ++ (k, v) :: b /\ ~ In k (map fst b).
Proof. exact map_last. Qed.
Print Assumptions C162_last.
Example C162_last_example : fold_left (fun m kv => map_assign m (fst kv) (snd kv)) [(str "zero", 0%Z); (str "one", 1%Z); (str "zero", 7%Z)] [] = [(str "one", 1%Z); (str "zero", 7%Z)].
Proof. reflexivity. Qed.
(* provided find gives the first of several equal keys *)
Theorem C162_values : forall choose ps key1 key2 key3, (forall n, choose n = 0) -> Forall (fun kv => (-2147483647 <= snd kv <= 2147483647)%Z) ps ->
  exists ts1 ts2 ts3, Forall2 canonical ts1 (values_of ps key1) /\ Forall2 canonical ts2 (values_of ps key2) /\ Forall2 canonical ts3 (values_of ps key3) /\
  make_value_lists choose ps key1 key2 key3 =
    Ok (str "Values(vec): " ++ separated (str ", ") ts1 ++ [ascii_of_nat 10] ++ str "Values(deq): " ++ separated (str ", ") ts2 ++ [ascii_of_nat 10] ++
        str "Values(lst): " ++ separated (str ", ") ts3 ++ [ascii_of_nat 10]).
Proof.
  intros choose ps key1 key2 key3 Hc Hv. destruct (int_join _ (values_int ps key1 Hv)) as (ts1 & C1 & J1). destruct (int_join _ (values_int ps key2 Hv)) as (ts2 & C2 & J2).
  destruct (int_join _ (values_int ps key3 Hv)) as (ts3 & C3 & J3). exists ts1, ts2, ts3. repeat (split; [assumption|]).
  unfold make_value_lists. rewrite !value_list_ok by exact Hc. cbn [bind]. rewrite J1, J2, J3, <- !app_assoc. reflexivity.
Qed.
Print Assumptions C162_values.
Definition one_two_three : list (list ascii * Z) := [(str "two", 2%Z); (str "one", 1%Z); (str "two", 1%Z); (str "two", 3%Z)].
Example C162_values_example : make_value_lists (fun _ => 0) one_two_three (str "one") (str "two") (str "x") =
  Ok (str "Values(vec): 1" ++ eol ++ str "Values(deq): 2, 1, 3" ++ eol ++ str "Values(lst): " ++ eol).
Proof. vm_compute. reflexivity. Qed.
Theorem C162_find_refuted : exists choose, make_value_lists choose one_two_three (str "one") (str "two") (str "x") =
  Ok (str "Values(vec): 1" ++ eol ++ str "Values(deq): 3" ++ eol ++ str "Values(lst): " ++ eol).
Proof. exists (fun n => n - 1). vm_compute. reflexivity. Qed.
Print Assumptions C162_find_refuted.

(* ---- C68 ---- *)
Theorem C68_lines : forall ss, Forall (fun s => (N.of_nat (length s) < 18446744073709551614)%N /\ Forall (fun c => nat_of_ascii c < 128) s) ss ->
  exists ls, non_repeated_lines ss = Ok (concat ls) /\ Forall2 once_line ss ls.
Proof. exact once_lines_ok. Qed.
Print Assumptions C68_lines.
Example C68_lines_example : non_repeated_lines [[]; str "abcab"] = Ok (str "No non-repeated chars in string." ++ eol ++ str "First non repeated char: c" ++ eol).
Proof. vm_compute. reflexivity. Qed.
