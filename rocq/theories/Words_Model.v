(* for_each_token, and the word lists of strtk_text_parser_example01.cpp and
   strtk_text_parser_example02.cpp. *)
From Verif Require Import Base Split_Model Tkz_Model Parse_Model Filter_Model IO_Model Stl_Model.
Local Open Scope nat_scope.

(* for_each_token(buffer,tokenizer,function), strtk.hpp 91-110.  function(x,r) is what the call with the token r does to
   the state x it shares with the caller. *)
Definition for_each_token {A St} (function : St -> nat * nat -> outcome St) (tokenizer : tokenizer A)
  (buffer : list A) (x : St) : outcome (nat * St * Tkz_Model.tokenizer A) :=
  tokenizer <- assign tokenizer buffer ;;
  ' (token_count, x) <- loop (length buffer + 3)
    (fun '(itr, token_count, x) =>
       if same (z_end tokenizer) itr then Ok (inr (token_count, x))
       else
         x <- function x (deref itr) ;;
         itr <- next itr ;;
         Ok (inl (itr, S token_count, x)))
    (z_begin tokenizer, 0, x) ;;
  Ok (token_count, x, tokenizer).

(* for_each_token(buffer,delimiters,function), 4111-4129, for a std::string that is const or a
   temporary, or a literal, as delimiters: split with a functional_inserter, 3205-3263, which
   calls function for each token.  (A std::string variable that is not const is an exact match for
   the Tokenizer& above, which is then what gets called.) *)
Fixpoint call_each {St} (function : St -> nat * nat -> outcome St) (tokens : list (nat * nat)) (x : St) : outcome St :=
  match tokens with [] => Ok x | r :: tokens => x <- function x r ;; call_each function tokens x end.
Definition for_each_token_split {St} (function : St -> nat * nat -> outcome St) (delimiters buffer : list ascii)
  (x : St) : outcome (nat * St) :=
  ' (tokens, n) <- split (delim_pred delimiters) buffer 0 ;;
  x <- call_each function tokens x ;;
  Ok (n, x).

(* the delimiters: example01 63-63, example02 103-103.  The double quote is given by its code. *)
Definition delimiters : list ascii :=
  str " ,.;:<>'[]{}()_?/\'`~!@#$%^&*|-_" ++ [ascii_of_nat 34] ++ str "=+"
  ++ map ascii_of_nat [9; 13; 10] ++ str "0123456789".

(* parse_line::operator(), strtk_text_parser_example01.cpp 46-52, with
   range_to_type_back_inserter(c) for a sequence of strings, strtk.hpp 2610-2710 *)
Definition parse_line1 (p : ascii -> bool) (c : list (list ascii)) (s : list ascii) : outcome (list (list ascii)) :=
  ' (tokens, _) <- split p s 1 ;;
  insert_ranges conv_string [] (fun c v => c ++ [v]) s tokens c.
(* parse_text into an empty deque, strtk_text_parser_example01.cpp 60-67, 72-73 *)
Definition parse_text1 (fs : fsys) (file_name : nat) : outcome (list (list ascii)) :=
  let pl c s := c <- c ;; parse_line1 (multiple_char_delimiter_predicate delimiters) c s in
  ' (_, c) <- for_each_line_file pl fs file_name (Ok []) ;; c.

(* not_of_interest_list, strtk_text_parser_example02.cpp 37-40 *)
Definition not_of_interest_list : list (list ascii) :=
  map str ["as"; "at"; "but"; "by"; "for"; "in"; "like"; "next"; "of"; "on"; "opposite"; "out"; "past"; "to"; "up"; "via"; ""]%string.

(* The filter of parse_line called with one token, strtk_text_parser_example02.cpp 57-61: what it
   lets through goes to the back inserter. *)
Definition filter_token (s : list ascii) (c : list (list ascii)) (r : nat * nat) : outcome (list (list ascii)) :=
  kept <- filter_on_match_range not_of_interest_list true false s r [] ;;
  insert_ranges conv_string [] (fun c v => c ++ [v]) s kept c.

(* parse_line: its tokenizer and the container, strtk_text_parser_example02.cpp 85-98.  The copies
   that for_each_line makes before the first line share predicate and container; the tokenizer is
   assigned a line before it is used. *)
Definition parse_line2 (st : tokenizer ascii * list (list ascii)) (s : list ascii)
  : outcome (tokenizer ascii * list (list ascii)) :=
  let '(tokenizer_, c) := st in
  ' (_, c, tokenizer_) <- for_each_token (filter_token s) tokenizer_ s c ;;
  Ok (tokenizer_, c).
(* parse_text into an empty deque, strtk_text_parser_example02.cpp 52-62, 100-109, 114-115;
   the tokenizer option is true, which converts to 1 *)
Definition parse_text2 (fs : fsys) (file_name : nat) : outcome (list (list ascii)) :=
  tokenizer_ <- make (multiple_char_delimiter_predicate delimiters) [] 1 ;;
  let pl st s := st <- st ;; parse_line2 st s in
  ' (_, st) <- for_each_line_file pl fs file_name (Ok (tokenizer_, [])) ;;
  ' (_, c) <- st ;; Ok c.
