(* Further programs of strtk_examples.cpp, with their texts as arguments: what std::cout receives after
   the title line. *)
From Verif Require Import Base Split_Model Edit_Model Match_Model Num_Model Parse_Model Scan_Model Sink_Model KV_Model Cont_Model Tour_Model Wordfreq_Model.
Local Open Scope nat_scope.

(* translation_table_example, 1841-1884: one of the five blocks; std::transform with the table, 1852 and
   the like, calls operator(), strtk.hpp 11805-11808, as translate does.  None: the constructor throws *)
Definition translation_block (intab outtab s : list ascii) : outcome (option (list ascii)) :=
  trans_table <- translation_table intab outtab ;;
  match trans_table with
  | None => Ok None
  | Some t =>
      after <- translate t s ;;
      Ok (Some (str "Before: " ++ s ++ [newline] ++ str "After: " ++ after ++ [newline]))
  end.

(* find_example, 1686-1743: one of the loops over match_list *)
Definition match_line (data : list ascii) (match_list : list (nat * nat)) : list ascii :=
  fold_left (fun out m => out ++ str "(" ++ sub data m ++ str ")" ++ [ascii_of_nat 9]) match_list [] ++ [newline].
Definition find_example (pattern data : list ascii) : outcome (list ascii) :=
  ' (l1, _) <- find_all Ascii.eqb pattern data ;;
  ' (l2, _) <- ifind_all pattern data ;;
  ' (l3, _) <- find_all Ascii.eqb pattern data ;;
  ' (l4, _) <- ifind_all pattern data ;;
  Ok (match_line data l1 ++ match_line data l2 ++ match_line data l3 ++ match_line data l4).

(* non_repeated_char_example, 1814-1839 *)
Fixpoint non_repeated_lines (str_list : list (list ascii)) : outcome (list ascii) :=
  match str_list with
  | [] => Ok []
  | s :: str_list =>
      index <- first_non_repeated_char s ;;
      line <- match index with
              | None => Ok (str "No non-repeated chars in string." ++ [newline])
              | Some i => c <- rd s i ;; Ok (str "First non repeated char: " ++ [c] ++ [newline])
              end ;;
      rest <- non_repeated_lines str_list ;;
      Ok (line ++ rest)
  end.

(* index_of_example, 1995-2018: the line of one pattern; npos is 2^64 - 1 *)
Definition index_line (data pattern : list ascii) : outcome (list ascii) :=
  n <- match index_of Ascii.eqb pattern data with
       | Some k => size_text k
       | None => format_unsigned (2 ^ 64 - 1)
       end ;;
  Ok (str "Index of pattern[" ++ pattern ++ str "]: " ++ n ++ [newline]).
Fixpoint index_lines (data : list ascii) (patterns : list (list ascii)) : outcome (list ascii) :=
  match patterns with
  | [] => Ok []
  | p :: patterns => line <- index_line data p ;; rest <- index_lines data patterns ;; Ok (line ++ rest)
  end.

(* truncatedint_example, 2036-2074: the targets ti(i) and tu(u), with fractional_size(4) in the last block,
   and the parse.  Simplification: what is printed of i and u is left to the statements *)
Definition trunc_int (frac : option nat) (v : Z) : target := Target Z (truncated_int (conv_signed t_int n_int) frac) v.
Definition trunc_uint (frac : option nat) (v : Z) : target := Target Z (truncated_int (conv_unsigned t_uint n_uint) frac) v.
Definition truncated_block (frac : option nat) (data : list ascii) : outcome (bool * list target) :=
  parse_values (str "|") data [trunc_int frac 0%Z; trunc_uint frac 0%Z].

(* parse_example10, 919-938: the two parses into x[0] to x[4], the second over what the first left.
   Simplification: the joins that are printed are left to the statements *)
Definition int_var (v : Z) : target := Target Z (conv_signed t_int n_int) v.
Definition columns_blocks (data : list ascii) : outcome ((bool * list target) * (bool * list target)) :=
  ' (b1, x1) <- parse_columns (str ",") data [0; 2; 4; 6; 8] (map int_var (repeat 0%Z 5)) ;;
  ' (b2, x2) <- parse_columns (str ",") data [1; 3; 5; 7; 9] x1 ;;
  Ok ((b1, x1), (b2, x2)).

(* parse_example08, 847-859; T stands for double *)
Definition ignoring {T} (conv_t : converter T) (zero_t : T) (data : list ascii) : outcome (bool * list target) :=
  parse_values (str ",") data [int_var 0%Z; Target unit conv_ignore tt; Target T conv_t zero_t; Target unit conv_ignore tt;
                               Target (list ascii) conv_string []].

(* m[key] = v for std::map<std::string,int> *)
Fixpoint map_assign (m : list (list ascii * Z)) (key : list ascii) (v : Z) : list (list ascii * Z) :=
  match m with
  | [] => [(key, v)]
  | (k, w) :: m' =>
      if string_less key k then (key, v) :: m
      else if string_less k key then (k, w) :: map_assign m' key v
      else (k, v) :: m'
  end.
(* insert of std::multimap<std::string,int>: after the pairs with the same key *)
Fixpoint multimap_insert (m : list (list ascii * Z)) (kv : list ascii * Z) : list (list ascii * Z) :=
  match m with
  | [] => [kv]
  | (k, w) :: m' => if string_less (fst kv) k then kv :: m else (k, w) :: multimap_insert m' kv
  end.
Definition text_eqb (a b : list ascii) : bool := if list_eq_dec ascii_dec a b then true else false.

(* make_key_lists, 1557-1582, with the assignments as argument *)
Definition make_key_lists (assignments : list (list ascii * Z)) : outcome (list ascii) :=
  let m := fold_left (fun m kv => map_assign m (fst kv) (snd kv)) assignments [] in
  key_set <- make_key_list_set string_less m [] ;;
  key_vec <- make_key_list_seq m [] ;;
  key_deq <- make_key_list_seq m [] ;;
  key_lst <- make_key_list_seq m [] ;;
  let line title l := title ++ join (fun x => x) (str ", ") l ++ [newline] in
  Ok (line (str "Keys(set): ") key_set ++ line (str "Keys(vec): ") key_vec ++ line (str "Keys(deq): ") key_deq ++ line (str "Keys(lst): ") key_lst).

(* make_value_lists, 1584-1613, with the pairs inserted and the keys as arguments; choose is what
   find of the multimap picks among equal keys *)
Definition make_value_lists (choose : nat -> nat) (pairs : list (list ascii * Z)) (key1 key2 key3 : list ascii) : outcome (list ascii) :=
  let m := fold_left multimap_insert pairs [] in
  val_vec <- make_value_list string_less text_eqb choose m key1 [] ;;
  val_deq <- make_value_list string_less text_eqb choose m key2 [] ;;
  val_lst <- make_value_list string_less text_eqb choose m key3 [] ;;
  let line title l := title ++ join text_of_int (str ", ") l ++ [newline] in
  Ok (line (str "Values(vec): ") val_vec ++ line (str "Values(deq): ") val_deq ++ line (str "Values(lst): ") val_lst).
