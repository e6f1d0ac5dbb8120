(* The combinations of strtk_combinations.cpp. *)
From Verif Require Import Base Num_Model Parse_Model IO_Model Enum_Model Wordfreq_Model Glober_Model.
Local Open Scope nat_scope.

(* usage, strtk_combinations.cpp 46-51 *)
Definition usage (msg : list ascii) : list ascii :=
  str "usage: strtk_combination <r> <s_1> <s_2> .... <s_k>" ++ [newline] ++
  (if length msg =? 0 then [] else str "error message: " ++ msg ++ [newline]).

(* print, strtk_combinations.cpp 53-57; out is what std::cout has received *)
Definition print_choice (c : list (list ascii)) (out : list ascii) : list ascii :=
  out ++ join (fun x => x) [ascii_of_nat 9] c ++ [newline].

(* main, strtk_combinations.cpp 59-79: what is written and the exit status; args is argv[1] ..
   argv[argc - 1]; std::size_t is unsigned long *)
Definition combinations (args : list (list ascii)) : outcome (list ascii * nat) :=
  if length args <? 2 then Ok (usage [], 1)
  else
    a <- rd args 0 ;;
    ' (ok, r) <- conv_unsigned t_ulong n_ulong a 0%Z ;;
    if negb ok then Ok (usage (str "Invalid 'r' value."), 1)
    else if (0 =? r)%Z then Ok ([], 0)
    else
      ' (str_lst, _) <- parse_args_seq conv_string (fun c v => c ++ [v]) true (skipn 1 args) 0 (length args - 1) [] [] ;;
      let str_lst := sort_strings str_lst in
      if (Z.of_nat (length str_lst) <? r)%Z then Ok (usage (str "r > k"), 1)
      else ' (_, out) <- for_each_combination print_choice (Z.to_N r) str_lst [] ;; Ok (out, 0).
