(* Programs of strtk_examples.cpp, with their texts as arguments: what std::cout receives after the title
   line. *)
From Verif Require Import Base Split_Model Num_Model Parse_Model Text_Model Stl_Model.
Local Open Scope nat_scope.

(* inserter_example, 1348-1359: the first half *)
Definition inserter_example (n : nat) (base : list ascii) : list ascii :=
  let s := replicate n base in
  let '(str_output, _) := insert_interval (N.of_nat (length base)) newline 0 s [] 0 in
  str_output ++ [newline].

(* std::rotate(s.begin(),s.begin() + i,s.end()) *)
Definition rotate {A} (i : nat) (s : list A) : outcome (list A) :=
  if length s <? i then UB else Ok (skipn i s ++ firstn i s).

(* cut_example, 1508-1521; str_list after the loop.  s.size() stays as it was *)
Definition rotations {A} (s : list A) : outcome (list (list A)) :=
  ' (_, str_list) <- for_up 0 (length s)
    (fun i '(s, str_list) => s <- rotate i s ;; Ok (s, str_list ++ [s])) (s, []) ;;
  Ok str_list.
Definition cut_example (r0 r1 : nat) (s : list ascii) : outcome (list ascii) :=
  str_list <- rotations s ;;
  let cut_str_list := cut r0 r1 str_list in
  Ok (join (fun x => x) [newline] cut_str_list ++ [newline]).

(* std::cout << n for std::size_t and std::ptrdiff_t that are not negative, and
   type_to_string of a std::size_t *)
Definition size_text (n : nat) : outcome (list ascii) := format_unsigned (Z.of_nat n).

(* find_n_consecutive_example, 1886-1953: one line.  The two closing brackets after the location are in
   the source *)
Definition found_line (s : list ascii) (n : nat) (found : nat * nat) : outcome (list ascii) :=
  tn <- size_text n ;;
  location <- size_text (fst found) ;;
  len <- size_text (snd found - fst found) ;;
  Ok (str "Result-" ++ right_align 2 "0" tn ++ str ": [" ++ sub s found ++ str "] Location: [" ++ location ++ str "]"
      ++ str "] Length: [" ++ len ++ str "]" ++ [newline]).
(* the loop over n (1 to 9 in the source); first is range.first *)
Fixpoint find_lines (t : find_type) (s : list ascii) (ns : list nat) (first : nat) : outcome (list ascii) :=
  match ns with
  | [] => Ok []
  | n :: ns =>
      found_itr <- find_n_consecutive (N.of_nat n) t exactly_n s first ;;
      if (length s =? fst found_itr) && (fst found_itr =? snd found_itr) then
        tn <- size_text n ;;
        Ok (str "No strings found for " ++ tn ++ str " consecutive values!" ++ [newline])
      else
        line <- found_line s n found_itr ;;
        rest <- find_lines t s ns (snd found_itr) ;;
        Ok (line ++ rest)
  end.

(* split_on_consecutive_example, 1955-1993: one of its loops; the word is digits or letters *)
Fixpoint split_lines (t : find_type) (word data : list ascii) (is : list nat) : outcome (list ascii) :=
  match is with
  | [] => Ok []
  | i :: is =>
      ' (token_list, _) <- split_on_consecutive_type (N.of_nat i) t exactly_n data ;;
      line <- (if length token_list =? 0 then Ok []
               else ti <- size_text i ;;
                    Ok (ti ++ str " Consecutive " ++ word ++ str ": " ++
                        join (fun x => x) (str " ") (map (sub data) token_list) ++ [newline])) ;;
      rest <- split_lines t word data is ;;
      Ok (line ++ rest)
  end.

(* bracketize_example, 1492-1506.  parse into containers compresses delimiters (strtk.hpp 8623-8745).
   texts: type_to_string of an int *)
Definition text_of_int (x : Z) : list ascii := match format_signed t_int x with Ok t => t | _ => [] end.
Definition bracketize_example (int_data string_data : list ascii) : outcome (list ascii) :=
  ' (int_list, _) <- parse_container (conv_signed t_int n_int) 0%Z (set_insert Z.ltb) (str ",") int_data 1 [] ;;
  ' (string_list, _) <- parse_container conv_string [] (fun c v => c ++ [v]) (str " ") string_data 1 [] ;;
  Ok (bracketize text_of_int (str "{") (str "}") int_list [] ++ [newline] ++
      bracketize (fun x => x) (str "<") (str ">") string_list [] ++ [newline]).
