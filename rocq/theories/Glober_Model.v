(* The line filter of strtk_glober.cpp. *)
From Verif Require Import Base Match_Model Parse_Model IO_Model Wordfreq_Model.
Local Open Scope nat_scope.

(* std::sort of a std::vector<std::string>, strtk_glober.cpp 79-79.  Strings that are not
   less than each other are equal, so every sorting algorithm has the result of this one *)
Fixpoint insert_string (x : list ascii) (l : list (list ascii)) : list (list ascii) :=
  match l with
  | [] => [x]
  | y :: l' => if string_less y x then y :: insert_string x l' else x :: l
  end.
Fixpoint sort_strings (l : list (list ascii)) : list (list ascii) :=
  match l with [] => [] | x :: l => insert_string x (sort_strings l) end.

(* line_glober(argc,argv), strtk_glober.cpp 75-80; args is argv[1] .. argv[argc - 1] *)
Definition line_glober (args : list (list ascii)) : outcome (list (list ascii)) :=
  ' (pattern_list, _) <- parse_args_seq conv_string (fun c v => c ++ [v]) true args 0 (length args) [] [] ;;
  Ok (sort_strings pattern_list).

(* line_glober::operator(), strtk_glober.cpp 82-91; out is what std::cout has received *)
Fixpoint glob_line (pattern_list : list (list ascii)) (s out : list ascii) : outcome (list ascii) :=
  match pattern_list with
  | [] => Ok out
  | p :: pattern_list =>
      b <- match_str p s ;;
      glob_line pattern_list s (if (b : bool) then out ++ p ++ str " matched " ++ s ++ [newline] else out)
  end.

(* main, strtk_glober.cpp 98-109: what is written and the exit status *)
Definition glober (args : list (list ascii)) (input : list ascii) : outcome (list ascii * nat) :=
  if length args =? 0 then Ok (str "strtk_glober <pattern_0> <pattern_1> .... <pattern_n>" ++ [newline], 1)
  else
    patterns <- line_glober args ;;
    ' (_, out, _) <- for_each_line (fun out s => out <- out ;; glob_line patterns s out) (Stream input true) (Ok []) ;;
    out <- out ;; Ok (out, 0).
