(* Checks of strtk_tokenizer_test.cpp, with their texts as arguments: test_tokenizer_split and
   test_tokenizer_itr (54-114), test_split_n (548-568), test_construct_and_parse (594-632, 1327-1438) and
   test_replace_pattern (2472-2532). *)
From Verif Require Import Base Split_Model Edit_Model Num_Model Parse_Model Ext_Model.
Local Open Scope nat_scope.

(* result == expected_result for std::string *)
Definition same_text (a b : list ascii) : bool := if list_eq_dec ascii_dec a b then true else false.

(* 67-70 and 99-102: <> for a token without characters *)
Definition shown (s : list ascii) (t : nat * nat) : list ascii :=
  if fst t =? snd t then str "<>" else sub s t.

(* test_tokenizer_split, 54-77: the text that is compared.  tok_list.size() - 1 is a std::size_t *)
Definition split_result (p : ascii -> bool) (s : list ascii) (compressed_delimiters : bool) : outcome (list ascii) :=
  ' (tok_list, _) <- split p s (if compressed_delimiters then 1 else 0)%N ;;
  for_up 0 (length tok_list)
    (fun i result =>
       t <- rd tok_list i ;;
       let result := result ++ shown s t in
       Ok (if negb (N.of_nat i =? (N.of_nat (length tok_list) + 2 ^ 64 - 1) mod 2 ^ 64)%N then result ++ str "," else result)) [].
Definition test_tokenizer_split (p : ascii -> bool) (s expected_result : list ascii) (compressed_delimiters : bool) : outcome bool :=
  result <- split_result p s compressed_delimiters ;; Ok (same_text result expected_result).

(* test_tokenizer_itr, 87-107: the same with the iterators of a tokenizer *)
Definition itr_result (p : ascii -> bool) (s : list ascii) (compressed_delimiters : bool) : outcome (list ascii) :=
  let opt := (if compressed_delimiters then 1 else 0)%N in
  it <- tok_make p s opt 0 ;;
  ed <- tok_make p s opt (length s) ;;
  loop (length s + 3)
    (fun '(it, result) =>
       if tok_eq ed it then Ok (inr result)
       else
         let result := result ++ shown s (current_token it) in
         it' <- tok_incr p s opt it ;;
         Ok (inl (it', if negb (tok_eq it' ed) then result ++ str "," else result)))
    (it, []).
Definition test_tokenizer_itr (p : ascii -> bool) (s expected_result : list ascii) (compressed_delimiters : bool) : outcome bool :=
  result <- itr_result p s compressed_delimiters ;; Ok (same_text result expected_result).

(* test_split_n, 548-568, with the text and the delimiters as arguments: the answer and strlist, which
   receives the tokens of every call.  join writes each char through type_to_string *)
Definition test_split_n (delimiters data1 : list ascii) : outcome (bool * list (list ascii)) :=
  let data2 := join (fun c => [c]) delimiters data1 in
  let predicate := multiple_char_delimiter_predicate delimiters in
  loop (S (length data1))
    (fun '(i, strlist) =>
       if negb (i <? length data1) then Ok (inr (true, strlist))
       else
         ' (toks, n) <- split_n predicate data2 i 0 ;;
         let strlist := strlist ++ map (sub data2) toks in
         if negb (i =? n) then Ok (inr (false, strlist)) else Ok (inl (S i, strlist)))
    (0, []).

(* data_block, 594-632.  T and F stand for double and float; their texts and conversions are arguments *)
Section Blocks.
Context {T F : Type}.
Variables (text_t : T -> list ascii) (conv_t : converter T) (zero_t : T).
Variables (text_f : F -> list ascii) (conv_f : converter F) (zero_f : F).

Record data_block := DB { d1 : list ascii; d2 : ascii; d3 : Z; d4 : Z; d5 : T; d6 : F; d7 : Z; d8 : Z; d9 : bool; d10 : ascii }.

(* the members as targets of parse, in order *)
Definition block (b : data_block) : list target :=
  [Target _ conv_string (d1 b); Target _ conv_byte (d2 b); Target _ (conv_signed t_int n_int) (d3 b);
   Target _ (conv_unsigned t_uint n_uint) (d4 b); Target _ conv_t (d5 b); Target _ conv_f (d6 b);
   Target _ (conv_signed t_short n_short) (d7 b); Target _ (conv_unsigned t_ushort n_ushort) (d8 b);
   Target _ conv_bool (d9 b); Target _ conv_byte (d10 b)].

(* data_block::clear, 607-619: 7 for d7 *)
Definition cleared : data_block := DB [] zero 0 0 zero_t zero_f 7 0 false zero.
Definition clear_block (i : nat) (o : list target) : list target := firstn i (block cleared) ++ skipn i o.

(* 1331-1343, construct: strtk.hpp 10923-11099 *)
Definition block_text (b : data_block) : outcome (list ascii) :=
  t3 <- format_signed t_int (d3 b) ;;
  t4 <- format_unsigned (d4 b) ;;
  t7 <- format_signed t_short (d7 b) ;;
  t8 <- format_unsigned (d8 b) ;;
  let text o := match o with Some t => t | None => [] end in
  Ok (construct [] (str "|") [text (string_text (d1 b)); text (byte_text (d2 b)); t3; t4; text_t (d5 b); text_f (d6 b);
                              t7; t8; text (bool_text (d9 b)); text (byte_text (d10 b))]).

(* 1345-1434: for each number of members the answer of parse and the members of o afterwards.
   Simplification: the comparison of o with i is left to the statements, and all the parses are
   made *)
Fixpoint parse_prefixes (output : list ascii) (ks : list nat) (o : list target) : outcome (list (bool * list target)) :=
  match ks with
  | [] => Ok []
  | k :: ks =>
      let o := clear_block k o in
      ' (b, ts) <- parse_values (str "|") output (firstn k o) ;;
      let o := ts ++ skipn k o in
      rest <- parse_prefixes output ks o ;;
      Ok ((b, o) :: rest)
  end.
Definition construct_and_parse (i : data_block) : outcome (list (bool * list target)) :=
  output <- block_text i ;;
  parse_prefixes output [1; 2; 3; 4; 5; 6; 7; 8; 9; 10] (block i).
End Blocks.
Arguments data_block : clear implicits.
Arguments DB {T F}.

(* 2515-2525 for one text and one pair: false if the pattern is found in the result *)
Definition pattern_gone (s p r : list ascii) : outcome bool :=
  result <- replace_pattern Ascii.eqb zero s p r ;;
  if same_text p r then Ok true
  else Ok (negb (existsb (fun k => same_text (firstn (length p) (skipn k result)) p) (seq 0 (S (length result))))).
