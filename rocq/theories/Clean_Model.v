(* The cleaning programs of strtk_examples.cpp, 1091-1143, with the texts as arguments: what std::cout
   receives after the title line. *)
From Verif Require Import Base Split_Model Edit_Model Delim_Model Parse_Model.
Local Open Scope nat_scope.

(* s << " -> ", the call, s << std::endl: 1095-1097, 1104-1106, 1113-1115, 1122-1124 *)
Definition arrow_line (s t : list ascii) : list ascii := s ++ str " -> " ++ t ++ [newline].
(* remove_inplace_example01, 1091-1098; remove_inplace(c,s), strtk.hpp 1240-1249 *)
Definition remove_inplace_example01 (c : ascii) (s : list ascii) : outcome (list ascii) :=
  ' (t, _) <- remove_inplace_seq (single_delimiter_predicate c) s ;; Ok (arrow_line s t).
(* remove_consecutives_example01, 1100-1107 *)
Definition remove_consecutives_example01 (s : list ascii) : outcome (list ascii) :=
  t <- resized (remove_consecutives_inplace_eq Ascii.eqb s) ;; Ok (arrow_line s t).
(* remove_consecutives_example02, 1109-1116; the overload for a character, strtk.hpp 1304-1314 *)
Definition remove_consecutives_example02 (c : ascii) (s : list ascii) : outcome (list ascii) :=
  t <- resized (remove_consecutives_inplace_pred (single_delimiter_predicate c) s) ;; Ok (arrow_line s t).
(* remove_consecutives_example03, 1118-1125 *)
Definition remove_consecutives_example03 (chars s : list ascii) : outcome (list ascii) :=
  t <- resized (remove_consecutives_inplace_pred (multiple_char_delimiter_predicate chars) s) ;; Ok (arrow_line s t).

(* 1131-1133, 1140-1142 *)
Definition before_after (s t : list ascii) : list ascii :=
  str "Before: [" ++ s ++ str "]" ++ [newline] ++ str "After:  [" ++ t ++ str "]" ++ [newline].
(* remove_trailing_example, 1127-1134: the characters are a C string *)
Definition remove_trailing_example (chars s : list ascii) : outcome (list ascii) :=
  t <- remove_trailing_cstr (chars ++ [zero]) s ;; Ok (before_after s t).
(* remove_leading_example, 1136-1143 *)
Definition remove_leading_example (chars s : list ascii) : outcome (list ascii) :=
  t <- remove_leading_cstr (chars ++ [zero]) s ;; Ok (before_after s t).
