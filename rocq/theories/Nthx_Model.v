(* The program of strtk_nth_combination_example.cpp. *)
From Verif Require Import Base Num_Model Text_Model Comb_Model Cmbx_Model.
From Verif Require Gen_Model.
Local Open Scope nat_scope.

(* unsigned char *)
Definition byte_type : Gen_Model.int_type := Gen_Model.IntType 0 255 false.

(* type_to_string of an unsigned char: one character, strtk.hpp 17986-17993 *)
Definition byte_text (b : Z) : list ascii := [ascii_of_N (Z.to_N b)].

(* join(delimiter,sequence) over unsigned char, strtk.hpp 11197-11214 and 11101-11116 *)
Fixpoint join_bytes (output delimiter : list ascii) (xs : list Z) : list ascii :=
  match xs with
  | [] => output
  | [x] => output ++ byte_text x
  | x :: xs' => join_bytes (output ++ byte_text x ++ delimiter) delimiter xs'
  end.

(* strtk_nth_combination_example.cpp 64, 93 and 128: the characters from 'A' on *)
Definition char_list (n : nat) : outcome (list Z) :=
  Gen_Model.iota_count byte_type (fun c x => c ++ [x]) [] n 65%Z.

(* lines 70-71 and 101-102: the std::back_insert_iterator of a vector of unsigned int converts
   the std::size_t indices; complete_index is left to its default, true *)
Definition indices_of (fuel : nat) (st : statics) (i n k : nat) : outcome (statics * list Z) :=
  ' (st, il) <- nth_combination_back fuel st (N.of_nat i) (N.of_nat n) (N.of_nat k) true ;;
  Ok (st, map (fun v => (Z.of_N v mod 2 ^ 32)%Z) il).

(* lines 73-77 and 104-108, also with complete_index = true *)
Definition letters_of (fuel : nat) (st : statics) (i k : nat) (cs : list Z) : outcome (statics * list Z) :=
  nth_combination_range fuel st (N.of_nat i) (N.of_nat k) cs true.

Definition bar : list ascii := str " | ".
Definition endl : list ascii := [ascii_of_nat 10].

(* right_align(4,'0',i), strtk.hpp 15430-15461 *)
Definition number4 (i : Z) : outcome (list ascii) :=
  t <- format_unsigned i ;; Ok (right_align 4 "0" t).

(* nth_combination_example01, lines 59-85, for any n and k (6 and 4 there) *)
Definition example01 (fuel : nat) (st : statics) (n k : nat) : outcome (statics * list ascii) :=
  cs <- char_list n ;;
  ' (st, combination_count) <- n_choose_k fuel st (N.of_nat n) (N.of_nat k) ;;
  ' (st, out) <- for_up 0 (N.to_nat combination_count)
    (fun i '(st, out) =>
       ' (st, index_list) <- indices_of fuel st i n k ;;
       ' (st, nth_combination) <- letters_of fuel st i k cs ;;
       num <- number4 (Z.of_nat i) ;;
       is <- join_numbers [] [] index_list ;;
       Ok (st, out ++ num ++ bar ++ is ++ bar ++ join_bytes [] [] nth_combination ++ endl)) (st, []) ;;
  Ok (st, out ++ endl ++ endl).

(* nth_combination_example02, lines 87-121; the result of next_combination is dropped *)
Definition example02 (fuel : nat) (st : statics) (n k : nat) : outcome (statics * list ascii) :=
  cs <- char_list n ;;
  ' (st, combination_count) <- n_choose_k fuel st (N.of_nat n) (N.of_nat k) ;;
  ' (st, next_comb_list, out) <- for_up 0 (N.to_nat combination_count)
    (fun i '(st, next_comb_list, out) =>
       ' (st, index_list) <- indices_of fuel st i n k ;;
       ' (st, nth_combination) <- letters_of fuel st i k cs ;;
       num <- number4 (Z.of_nat i) ;;
       is <- join_numbers [] [] index_list ;;
       let out := out ++ num ++ bar ++ is ++ bar ++ join_bytes [] [] nth_combination ++ bar ++ join_bytes [] [] next_comb_list ++ endl in
       ' (next_comb_list, _) <- next_combination Z.ltb k next_comb_list ;;
       Ok (st, next_comb_list, out)) (st, cs, []) ;;
  Ok (st, out ++ endl ++ endl).

(* nth_combination_example03, lines 123-147, from any number on (4 there); i is of type
   std::size_t *)
Definition example03 (fuel : nat) (st : statics) (first n k : nat) : outcome (statics * list ascii) :=
  cs <- char_list n ;;
  ' (st, nth_combination) <- letters_of fuel st first k cs ;;
  out <- loop fuel
    (fun '(i, s, out) =>
       num <- number4 i ;;
       let out := out ++ num ++ bar ++ join_bytes [] [] s ++ endl in
       ' (s, b) <- next_combination Z.ltb k s ;;
       if (b : bool) then Ok (inl (cast t_ulong (i + 1), s, out)) else Ok (inr out))
    (Z.of_nat first, nth_combination, []) ;;
  Ok (st, out).

(* main, lines 149-155: what std::cout receives *)
Definition nth_main (fuel first n k : nat) : outcome (list ascii) :=
  ' (st, a) <- example01 fuel initial_statics n k ;;
  ' (st, b) <- example02 fuel st n k ;;
  ' (_, c) <- example03 fuel st first n k ;;
  Ok (a ++ b ++ c).
