(* C148-C151: the checks of strtk_tokenizer_test.cpp for all texts. *)
From Verif Require Import Base Split_Model Split_Spec Split_Proofs Edit_Model Num_Model Parse_Model Parse_Spec Parse_Proofs Ext_Model
  Check_Model Check_Spec Check_Proofs Check_Proofs2.
Local Open Scope nat_scope.

(* ---- C148 ---- *)
Theorem C148_shown : forall (p : ascii -> bool) s (compressed_delimiters : bool), (N.of_nat (length s) + 1 < 2 ^ 64)%N ->
  exists toks, tokens_of p s (fun f e => f) (fun f e => if compressed_delimiters then e else S f) toks /\
    let expected := separated (str ",") (map bracketed (map (sub s) toks)) in
    (forall e, test_tokenizer_split p s e compressed_delimiters = Ok true <-> e = expected) /\
    (forall e, test_tokenizer_itr p s e compressed_delimiters = test_tokenizer_split p s e compressed_delimiters).
Proof.
  intros p s c Hs. destruct (split_result_ok p s c Hs) as (toks & H1 & _ & H2 & H3). exists toks. split; [exact H1|]. cbv zeta. split; intros e.
  - unfold test_tokenizer_split. rewrite H2. cbn [bind]. split.
    + intros H. injection H as H. apply same_text_eq in H. auto.
    + intros ->. f_equal. now apply same_text_eq.
  - unfold test_tokenizer_itr, test_tokenizer_split. now rewrite H3.
Qed.
Print Assumptions C148_shown.

Example C148_ex_shown :
  test_tokenizer_split (single_delimiter_predicate "|") (str "token1||token2|") (str "token1,<>,token2,<>") false = Ok true /\
  test_tokenizer_itr (single_delimiter_predicate "|") (str "token1||token2|") (str "token1,<>,token2,<>") false = Ok true /\
  test_tokenizer_itr (single_delimiter_predicate "|") (str "token1||token2|") (str "token1,token2,<>") true = Ok true /\
  test_tokenizer_split (single_delimiter_predicate "|") [] [] false = Ok true.
Proof. repeat split; vm_compute; reflexivity. Qed.

(* the shown text tells the tokens apart if the comma is a delimiter and there is no < in the texts *)
Theorem C148_faithful : forall (p q : ascii -> bool) s t b c,
  (N.of_nat (length s) + 1 < 2 ^ 64)%N -> (N.of_nat (length t) + 1 < 2 ^ 64)%N ->
  p ","%char = true -> q ","%char = true -> ~ In "<"%char s -> ~ In "<"%char t ->
  split_result p s b = split_result q t c ->
  forall ps qs, tokens_of p s (fun f e => f) (fun f e => if b then e else S f) ps ->
    tokens_of q t (fun f e => f) (fun f e => if c then e else S f) qs -> map (sub s) ps = map (sub t) qs.
Proof.
  intros p q s t b c Hs Ht Hp Hq Ns Nt E ps qs H1 H2.
  destruct (split_result_ok p s b Hs) as (ps' & P1 & P2 & P3 & _). destruct (split_result_ok q t c Ht) as (qs' & Q1 & Q2 & Q3 & _).
  rewrite (tokens_unique _ _ _ _ _ _ H1 P1), (tokens_unique _ _ _ _ _ _ H2 Q1).
  rewrite P3, Q3 in E. injection E as E.
  assert (G : forall (p : ascii -> bool) s ks, p ","%char = true -> ~ In "<"%char s -> Forall (fun r => Forall (fun x => p x = false) (sub s r)) ks ->
    Forall (fun x => ~ In ","%char x /\ ~ In "<"%char x) (map (sub s) ks)).
  { clear. intros p s ks Hp Hs H. rewrite Forall_map. eapply Forall_impl; [|exact H]. cbv beta. intros r Hr. split.
    - intros Hi. rewrite Forall_forall in Hr. specialize (Hr _ Hi). congruence.
    - intros Hi. apply Hs. unfold sub in Hi. rewrite <- (firstn_skipn (fst r) s), <- (firstn_skipn (snd r - fst r) (skipn (fst r) s)), !in_app_iff. tauto. }
  apply rows_same; [exact (G p s ps' Hp Ns P2)|exact (G q t qs' Hq Nt Q2)|exact E].
Qed.
Print Assumptions C148_faithful.

Example C148_ex_faithful :
  split_result (multiple_char_delimiter_predicate (str ",;")) (str "a,,b") false = Ok (str "a,<>,b") /\
  split_result (multiple_char_delimiter_predicate (str ",;")) (str "a;;b") false = Ok (str "a,<>,b") /\
  split_result (multiple_char_delimiter_predicate (str ",;")) (str "a;b") false = Ok (str "a,b").
Proof. repeat split; vm_compute; reflexivity. Qed.

(* otherwise different tokens can look the same *)
Theorem C148_ambiguous_refuted : exists (p : ascii -> bool) s t ps qs,
  split p s 0 = Ok (ps, length ps) /\ split p t 0 = Ok (qs, length qs) /\ map (sub s) ps <> map (sub t) qs /\
  split_result p s false = split_result p t false.
Proof.
  exists (single_delimiter_predicate ";"), (str ";"), (str "<>,<>"), [(0, 0); (1, 1)], [(0, 5)].
  split; [reflexivity|]. split; [reflexivity|]. split; [discriminate|reflexivity].
Qed.
Print Assumptions C148_ambiguous_refuted.

(* ---- C149 ---- *)
Theorem C149_counts : forall delimiters data1, exists b strlist,
  test_split_n delimiters data1 = Ok (b, strlist) /\ (b = true <-> delimiters <> [] \/ length data1 <= 2).
Proof. intros delimiters data1. destruct (test_split_n_ok delimiters data1) as (b & l & H1 & H2 & _). eauto. Qed.
Print Assumptions C149_counts.

Example C149_ex_counts : test_split_n (str ",;") (str "a;bc") =
    Ok (true, [str "a"; str "a"; []; str "a"; []; []]) /\
  test_split_n [] (str "abc") = Ok (false, [str "abc"; str "abc"]).
Proof. split; vm_compute; reflexivity. Qed.

Theorem C149_lists : forall delimiters data1, delimiters <> [] -> Forall (fun c => ~ In c delimiters) data1 ->
  test_split_n delimiters data1 =
    Ok (true, concat (map (fun i => firstn i (spaced (length delimiters) data1)) (seq 0 (length data1)))).
Proof.
  intros delimiters data1 Hd Hf. destruct (test_split_n_ok delimiters data1) as (b & l & H1 & H2 & H3).
  rewrite H1, (H3 Hd Hf). assert (b = true) by (apply H2; now left). now subst.
Qed.
Print Assumptions C149_lists.

Example C149_ex_lists : spaced 3 (str "abc") = [str "a"; []; []; str "b"; []; []; str "c"] /\
  test_split_n (str ",;:") (str "abc") = Ok (true, [str "a"; str "a"; []]).
Proof. split; vm_compute; reflexivity. Qed.

(* ---- C150 ---- *)
Theorem C150_every_prefix : forall (T F : Type) (text_t : T -> list ascii) conv_t zero_t (text_f : F -> list ascii) conv_f zero_f
    (i : data_block T F) rt rf,
  ~ In "|"%char (d1 i) -> d2 i <> "|"%char -> (-2147483647 <= d3 i <= 2147483647)%Z -> (0 <= d4 i <= 4294967295)%Z ->
  (-32768 <= d7 i <= 32767)%Z -> (0 <= d8 i <= 65535)%Z -> d10 i <> "|"%char ->
  text_t (d5 i) <> [] -> ~ In "|"%char (text_t (d5 i)) -> conv_t (text_t (d5 i)) zero_t = Ok (true, rt) ->
  text_f (d6 i) <> [] -> ~ In "|"%char (text_f (d6 i)) -> conv_f (text_f (d6 i)) zero_f = Ok (true, rf) ->
  let r := DB (d1 i) (d2 i) (d3 i) (d4 i) rt rf (d7 i) (d8 i) (d9 i) (d10 i) in
  construct_and_parse text_t conv_t zero_t text_f conv_f zero_f i =
    Ok (map (fun k => (true, firstn k (block conv_t conv_f r) ++ skipn k (block conv_t conv_f i))) (seq 1 10)).
Proof. intros. apply construct_and_parse_ok; assumption. Qed.
Print Assumptions C150_every_prefix.

(* Z with its decimal text in the place of the floating point types *)
Definition text_z (v : Z) : list ascii := match format_signed t_int v with Ok x => x | _ => [] end.
Definition sample : data_block Z Z := DB (str "The quick") "x" (-1234) 78901 4567%Z 123%Z (-16000) 15000 true (ascii_of_nat 238).
Example C150_ex_prefix :
  block_text text_z text_z sample = Ok (str "The quick|x|-1234|78901|4567|123|-16000|15000|1|" ++ [ascii_of_nat 238]) /\
  construct_and_parse text_z (conv_signed t_int n_int) 0%Z text_z (conv_signed t_int n_int) 0%Z sample =
    Ok (map (fun _ => (true, block (conv_signed t_int n_int) (conv_signed t_int n_int) sample)) (seq 1 10)).
Proof.
  split; [vm_compute; reflexivity|].
  rewrite (C150_every_prefix Z Z text_z (conv_signed t_int n_int) 0%Z text_z (conv_signed t_int n_int) 0%Z sample 4567%Z 123%Z);
    try reflexivity; try (cbn; lia); try discriminate; try (vm_compute; intuition discriminate).
Qed.

Theorem C150_same : forall (T F : Type) (text_t : T -> list ascii) conv_t zero_t (text_f : F -> list ascii) conv_f zero_f
    (i : data_block T F),
  ~ In "|"%char (d1 i) -> d2 i <> "|"%char -> (-2147483647 <= d3 i <= 2147483647)%Z -> (0 <= d4 i <= 4294967295)%Z ->
  (-32768 <= d7 i <= 32767)%Z -> (0 <= d8 i <= 65535)%Z -> d10 i <> "|"%char ->
  text_t (d5 i) <> [] -> ~ In "|"%char (text_t (d5 i)) -> conv_t (text_t (d5 i)) zero_t = Ok (true, d5 i) ->
  text_f (d6 i) <> [] -> ~ In "|"%char (text_f (d6 i)) -> conv_f (text_f (d6 i)) zero_f = Ok (true, d6 i) ->
  construct_and_parse text_t conv_t zero_t text_f conv_f zero_f i = Ok (repeat (true, block conv_t conv_f i) 10).
Proof.
  intros. erewrite construct_and_parse_ok by eassumption. destruct i as [a1 a2 a3 a4 a5 a6 a7 a8 a9 a10]. reflexivity.
Qed.
Print Assumptions C150_same.

Definition sample0 : data_block Z Z := DB [] "-" 0 0 0%Z 7%Z 32767 65535 false "0".
Example C150_ex_same :
  block_text text_z text_z sample0 = Ok (str "|-|0|0|0|7|32767|65535|0|0") /\
  parse_values (str "|") (str "|-|0|0|0|7|32767|65535|0|0") [Target _ conv_string (str "old"); Target _ conv_byte "x"%char] =
    Ok (true, [Target _ conv_string []; Target _ conv_byte "-"%char]).
Proof. split; [vm_compute; reflexivity|reflexivity]. Qed.

(* a delimiter as the value of the char *)
Theorem C150_delimiter_refuted : exists i : data_block Z Z, ~ In "|"%char (d1 i) /\ d2 i = "|"%char /\
  exists output, block_text text_z text_z i = Ok output /\
    parse_values (str "|") output (firstn 2 (block (conv_signed t_int n_int) (conv_signed t_int n_int) i)) =
      Ok (false, firstn 2 (block (conv_signed t_int n_int) (conv_signed t_int n_int) i)).
Proof.
  exists (DB (str "The quick") "|" (-1234) 78901 4567%Z 123%Z (-16000) 15000 true "y").
  split; [cbn; intuition discriminate|]. split; [reflexivity|].
  exists (str "The quick|||-1234|78901|4567|123|-16000|15000|1|y"). split; [vm_compute; reflexivity|reflexivity].
Qed.
Print Assumptions C150_delimiter_refuted.

(* ---- C151 ---- *)
Theorem C151_gone : forall s p r, p <> [] -> (forall c, In c p -> ~ In c r) -> r <> [] \/ length p = 1 ->
  exists out, replace_pattern Ascii.eqb zero s p r = Ok out /\ ~ contains p out /\ pattern_gone s p r = Ok true.
Proof. intros s p r Hp Hd Hr. now apply pattern_gone_ok. Qed.
Print Assumptions C151_gone.

Example C151_ex_gone : replace_pattern Ascii.eqb zero (str "yabctabcabctabcabtckk") (str "abc") (str "xyz") = Ok (str "yxyztxyzxyztxyzabtckk") /\
  pattern_gone (str "yabctabcabctabcabtckk") (str "abc") (str "xyz") = Ok true /\ pattern_gone (str "aba") (str "a") [] = Ok true.
Proof. repeat split; vm_compute; reflexivity. Qed.

Theorem C151_char : forall s c r, pattern_gone s [c] r = Ok true <-> r = [c] \/ ~ In c r \/ ~ In c s.
Proof. exact pattern_gone_char. Qed.
Print Assumptions C151_char.

Example C151_ex_char : pattern_gone (str "abc") (str "b") (str "xbx") = Ok false /\ pattern_gone (str "ac") (str "b") (str "xbx") = Ok true.
Proof. split; vm_compute; reflexivity. Qed.

Theorem C151_decided : forall s p r, exists out, replace_pattern Ascii.eqb zero s p r = Ok out /\
  (pattern_gone s p r = Ok true <-> p = r \/ ~ contains p out) /\
  (pattern_gone s p r = Ok false <-> p <> r /\ contains p out).
Proof.
  intros s p r. destruct (pattern_gone_iff s p r) as (out & E & Hi & Ht). exists out. split; [exact E|]. split; [exact Hi|].
  unfold pattern_gone in *. rewrite E in *. cbn [bind] in *. pose proof (found_iff p out) as Hf.
  destruct (same_text p r) eqn:Es.
  - apply same_text_eq in Es. split; [discriminate|tauto].
  - assert (Hne : p <> r) by (intros Hx; apply same_text_eq in Hx; congruence).
    destruct (existsb _ _); cbn [negb] in *; split; try discriminate; try tauto; intros [_ H]; apply Hf in H; discriminate.
Qed.
Print Assumptions C151_decided.

Example C151_ex_decided : contains (str "ab") (str "xab") /\ pattern_gone (str "xaabb") (str "ab") (str "") = Ok false.
Proof. split; [exists (str "x"), []; reflexivity|vm_compute; reflexivity]. Qed.

(* new occurrences of the pattern: after removal, with a character in common, and for the empty pattern *)
Theorem C151_new_occurrence_refuted :
  (exists s p r, p <> [] /\ r = [] /\ (forall c, In c p -> ~ In c r) /\ pattern_gone s p r = Ok false) /\
  (exists s p r, p <> [] /\ r <> [] /\ ~ contains p r /\ pattern_gone s p r = Ok false) /\
  (forall s r, r <> [] -> pattern_gone s [] r = Ok false).
Proof.
  split; [|split].
  - exists (str "aabb"), (str "ab"), []. repeat split; try discriminate; auto.
  - exists (str "aabb"), (str "ab"), (str "b"). split; [discriminate|]. split; [discriminate|]. split; [|vm_compute; reflexivity].
    intros (a & b & E). apply (f_equal (@length ascii)) in E. rewrite !app_length in E. cbn in E. lia.
  - intros s r Hr. destruct (C151_decided s [] r) as (out & _ & _ & Hi). apply Hi. split; [congruence|]. exists [], out. reflexivity.
Qed.
Print Assumptions C151_new_occurrence_refuted.
