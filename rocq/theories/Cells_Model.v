(* Tables in strtk_tokengrid_example.cpp: columns as lines (token_grid_test07), rows without some of
   their cells (token_grid_test14), tables without some of their rows (token_grid_test04 and
   token_grid_test13) and averages over three rows (token_grid_test11). *)
From Verif Require Import Base Split_Model Num_Model Text_Model Filter_Model Grid_Model Table_Model.
Local Open Scope nat_scope.

Definition endl : list ascii := [ascii_of_nat 10].
Definition blank : list ascii := str " ".

(* what std::cout shows of a std::size_t: its decimal text *)
Definition show_size (n : N) : outcome (list ascii) := format_unsigned (Z.of_N n).

(* join(delimiter,begin,end) over strings, strtk.hpp 11176-11185 and 11101-11116 *)
Fixpoint join_words (output delimiter : list ascii) (ws : list (list ascii)) : list ascii :=
  match ws with
  | [] => output
  | [w] => output ++ w
  | w :: ws' => join_words (output ++ w ++ delimiter) delimiter ws'
  end.

(* token_grid_test07, strtk_tokengrid_example.cpp 385-402: what is printed after the title; fuel
   bounds the number of columns.  A std::string is made of every cell, the conversion cannot fail. *)
Definition print_columns (fuel : nat) (text : list ascii) : outcome (list ascii) :=
  g <- load (compressed blank) text ;;
  warning <- (if negb (min_c g =? max_c g)%N then
                mn <- show_size (min_c g) ;; mx <- show_size (max_c g) ;;
                Ok (str "token_grid_test07 - ERROR!" ++ endl ++ str "min column count: " ++ mn ++ endl ++
                    str "max column count: " ++ mx ++ endl)
              else Ok []) ;;
  loop fuel
    (fun '(i, out) =>
       if negb (i <? min_c g)%N then Ok (inr out)
       else
         ' (_, (_, words)) <- extract_column Some text g (all_rows g) i [] ;;
         Ok (inl ((i + 1)%N, out ++ join_words [] blank words ++ endl)))
    (0%N, warning).

(* lines 763-773 and the like: every cell in brackets.  row.size() and row.get<std::string>(c) *)
Definition print_cells (text : list ascii) (g : grid) (out : list ascii) : outcome (list ascii) :=
  for_range 0 (row_count g)
    (fun r out =>
       rw <- row g r ;;
       out <- for_range 0 (r_size rw)
         (fun c out => t <- row_token g rw c ;; Ok (out ++ str "[" ++ sub text t ++ str "] ")) out ;;
       Ok (out ++ endl)) out.

Definition before_line : list ascii := str "Before Empty Token Removal" ++ endl.
Definition after_line : list ascii := str "After Empty Token Removal" ++ endl.

(* the three parts of token_grid_test14, 752-792, 794-834 and 836-877, with the function that removes
   cells as an argument *)
Definition print_removal (remove : grid -> outcome (N * grid)) (text : list ascii) : outcome (list ascii) :=
  g <- load (separate (str ",")) text ;;
  out <- print_cells text g before_line ;;
  ' (_, g) <- remove g ;;
  out <- print_cells text g (out ++ after_line) ;;
  Ok (out ++ endl).
(* remove_empty_tokens(), 6854-6857, remove_empty_tokens(range), and remove_token_if(range,size_equal_to<0>()) *)
Definition test14_all : list ascii -> outcome (list ascii) := print_removal (fun g => remove_empty_tokens g (all_rows g)).
Definition test14_range (r : N * N) : list ascii -> outcome (list ascii) := print_removal (fun g => remove_empty_tokens g r).
Definition test14_if (r : N * N) : list ascii -> outcome (list ascii) :=
  print_removal (fun g => remove_token_if (fun t => size_equal_to_range 0 (Z.of_nat (snd t) - Z.of_nat (fst t))) g r).

(* match_predicate on a row, 694-705: a 6 between the begin of the first cell and the end of the last *)
Definition match_predicate (text : list ascii) (ts : list tok) : bool :=
  match ts with
  | [] => false
  | t :: _ => existsb (Ascii.eqb "6"%char) (sub text (fst t, snd (last ts t)))
  end.
(* 721-724 and 732-735 *)
Definition print_rows (text : list ascii) (g : grid) (out : list ascii) : outcome (list ascii) :=
  for_range 0 (row_count g)
    (fun r out =>
       num <- show_size r ;;
       rw <- row g r ;;
       s <- as_string text g rw ;;
       Ok (out ++ num ++ str "[" ++ s ++ str "]" ++ endl)) out.
(* token_grid_test13, 717-735, for any range (rows 1 to 3 there) *)
Definition test13 (r : N * N) (text : list ascii) : outcome (list ascii) :=
  g <- load (compressed (str ",")) text ;;
  out <- print_rows text g (str "Before Removal" ++ endl) ;;
  ' (_, g) <- remove_row_if (fun _ => match_predicate text) g r ;;
  print_rows text g (out ++ str "After Removal" ++ endl).

(* token_grid_test04, 292-306, for any number of columns (5 there); a range is printed as its text,
   strtk.hpp 24344-24355 *)
Definition test04 (n : N) (text : list ascii) : outcome (list ascii) :=
  g <- load (compressed (str ",")) text ;;
  g <- enforce_column_count g (all_rows g) n ;;
  for_range 0 (row_count g)
    (fun i out =>
       rw <- row g i ;;
       out <- for_range 0 (r_size rw)
         (fun j out => t <- row_token g rw j ;; Ok (out ++ sub text t ++ [ascii_of_nat 9])) out ;;
       Ok (out ++ endl)) [].

Section Averages.
Context {T : Type}.
(* conversion of text to double and (a + b + c) / 3.0 *)
Variables (conv : list ascii -> option T) (mean : T -> T -> T -> T).
(* row.get<double>(c): std::invalid_argument ends the program and is UB here *)
Definition get (text : list ascii) (g : grid) (rw : row_type) (c : N) : outcome T :=
  t <- row_token g rw c ;; match conv (sub text t) with Some v => Ok v | None => UB end.
(* token_grid_test11, 596-616: the numbers of each line, None for a line of N/A; row_count() - 1 is
   a std::size_t *)
Definition test11 (text : list ascii) : outcome (list (option (list T))) :=
  g <- load (compressed (str ",")) text ;;
  for_range 0 (row_count g)
    (fun r out =>
       if (0 <? r)%N && (r <? sub64 (row_count g) 1)%N then
         rw <- row g r ;;
         nx <- row g (r + 1) ;;
         pv <- row g (r - 1) ;;
         line <- for_range 0 (r_size rw)
           (fun c line =>
              a <- get text g rw c ;; b <- get text g nx c ;; d <- get text g pv c ;;
              Ok (line ++ [mean a b d])) [] ;;
         Ok (out ++ [Some line])
       else Ok (out ++ [None])) [].
End Averages.
