(* The word counter of strtk_wordfreq.cpp. *)
From Verif Require Import Base Split_Model Codec_Model Gen_Model Ext_Model Parse_Model IO_Model Stl_Model.
Local Open Scope nat_scope.

(* std::map<std::string,unsigned int> as the list of its nodes in order.
   operator< of std::string: char_traits<char> compares as unsigned char *)
Fixpoint string_less (a b : list ascii) : bool :=
  match a, b with
  | _, [] => false
  | [], _ => true
  | x :: a, y :: b =>
      if (N_of_ascii x <? N_of_ascii y)%N then true
      else if (N_of_ascii y <? N_of_ascii x)%N then false
      else string_less a b
  end.
(* ++map[k], strtk_wordfreq.cpp 73-73: an absent key is inserted with 0 first; unsigned int wraps *)
Fixpoint increment (map : list (list ascii * N)) (k : list ascii) : list (list ascii * N) :=
  match map with
  | [] => [(k, 1%N)]
  | (k', v) :: rest =>
      if string_less k k' then (k, 1%N) :: map
      else if string_less k' k then (k', v) :: increment rest k
      else (k', ((v + 1) mod 2 ^ 32)%N) :: rest
  end.

(* line_parser: the counters its references point to *)
Definition counters := (N * list (list ascii * N))%type.

(* line_parser::operator=(range), strtk_wordfreq.cpp 67-74 *)
Definition count_word (s : list ascii) (st : counters) (r : token) : outcome counters :=
  let '(word_count, map) := st in
  if fst r =? snd r then Ok st
  else
    str_ <- convert_to_lowercase (sub s r) ;;
    Ok (((word_count + 1) mod 2 ^ 64)%N, increment map str_).

(* line_parser::operator()(line), strtk_wordfreq.cpp 61-65; split assigns each token to
   a copy of the line_parser, which shares the counters *)
Fixpoint count_words (s : list ascii) (st : counters) (l : list token) : outcome counters :=
  match l with [] => Ok st | r :: l => st <- count_word s st r ;; count_words s st l end.
Definition parse_line (p : ascii -> bool) (st : counters) (s : list ascii) : outcome counters :=
  if length s =? 0 then Ok st
  else ' (tokens, _) <- split p s 1 ;; count_words s st tokens.

(* the delimiters, strtk_wordfreq.cpp 95-97; c is the type char *)
Definition delimiters (c : int_type) : outcome (list ascii) :=
  a <- all_chars c ;; b <- es_minus a all_lowercase_letters ;; es_minus b all_uppercase_letters.

(* main up to the output, strtk_wordfreq.cpp 90-120: the word count and the map, from a
   stream or from a file that may not open *)
Definition word_frequencies (c : int_type) (st : stream) : outcome counters :=
  ds <- delimiters c ;;
  let line_parser x s := x <- x ;; parse_line (multiple_char_delimiter_predicate ds) x s in
  ' (_, x, _) <- for_each_line line_parser st (Ok (0%N, [])) ;; x.
Definition word_frequencies_file (c : int_type) (fs : fsys) (n : nat) : outcome counters :=
  ds <- delimiters c ;;
  let line_parser x s := x <- x ;; parse_line (multiple_char_delimiter_predicate ds) x s in
  ' (_, x) <- for_each_line_file line_parser fs n (Ok (0%N, [])) ;; x.
