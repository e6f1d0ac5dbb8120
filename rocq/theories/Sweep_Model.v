(* Programs that fill containers from one text, and the demonstrations of the prefix trie:
   strtk_examples.cpp 771-917 and strtk_search_trie_example.cpp 37-91, with the texts as arguments. *)
From Verif Require Import Base Num_Model Parse_Model Sink_Model Trie_Model Tour_Model.
Local Open Scope nat_scope.

(* parse_example07, 775-792 and, with count(n), 827-844: vec_sink(int_vector), deq_sink(string_deque) and
   lst_sink(double_list) as targets; c is what the container holds.  T stands for double.
   Simplification: the joins that are printed are left to the statements *)
Definition sink_target {V} (conv : converter V) (dflt : V) (n : elements) (c : list V) : target :=
  Target (sink (list V)) (conv_sink conv dflt (fun c v => c ++ [v]) (@length V)) (count n (attach c [] 1 (sink_of_delims (str ",") 1))).
Definition three_sinks {T} (conv_t : converter T) (zero_t : T) (n1 n2 n3 : elements) (ints : list Z) (texts : list (list ascii)) (reals : list T) : list target :=
  [sink_target (conv_signed t_int n_int) 0%Z n1 ints; sink_target conv_string [] n2 texts; sink_target conv_t zero_t n3 reals].
Definition sinks_block {T} (conv_t : converter T) (zero_t : T) (n1 n2 n3 : elements) (data : list ascii) : outcome (bool * list target) :=
  parse_values (str "|") data (three_sinks conv_t zero_t n1 n2 n3 [] [] []).

(* parse_example09, 878-886: std::string, std::string, int, then the rest of the values into a container
   with the operation add *)
Definition rest_block {T C} (conv_t : converter T) (zero_t : T) (add : C -> T -> C) (c : C) (data : list ascii) : outcome (bool * list target * C) :=
  parse_values_rest conv_t zero_t add (str ",") data
    [Target (list ascii) conv_string []; Target (list ascii) conv_string []; Target Z (conv_signed t_int n_int) 0%Z] c.

(* the loops of trie_example00 and trie_example01, 47-51 and 79-83; show is what is printed for a key *)
Section Lines.
Context {K V : Type}.
Variable keq : K -> K -> bool.
Variable show : list K -> list ascii.
Fixpoint prefix_lines (t : trie K V) (keys : list (list K)) : outcome (list ascii) :=
  match keys with
  | [] => Ok []
  | s :: keys =>
      found <- find_prefix keq t s ;;
      rest <- prefix_lines t keys ;;
      Ok ((if (found : bool) then str "Found Prefix: " ++ show s ++ [newline] else []) ++ rest)
  end.
(* 53-58 and 85-90; line is what is printed for a key and its value *)
Variable line : list K -> V -> outcome (list ascii).
Fixpoint value_lines (t : trie K V) (keys : list (list K)) : outcome (list ascii) :=
  match keys with
  | [] => Ok []
  | s :: keys =>
      o <- find keq t s ;;
      l <- match o with Some v => line s v | None => Ok [] end ;;
      rest <- value_lines t keys ;;
      Ok (l ++ rest)
  end.
(* both: the keys with their values are inserted in turn *)
Definition trie_lines (pairs : list (list K * V)) : outcome (list ascii) :=
  t <- insert_all keq empty_trie pairs ;;
  p <- prefix_lines t (map fst pairs) ;;
  v <- value_lines t (map fst pairs) ;;
  Ok (p ++ v).
End Lines.
(* trie_example00, 37-59 *)
Definition trie_example00 (keys : list (list ascii)) : outcome (list ascii) :=
  trie_lines Ascii.eqb (fun s => s)
    (fun s v => n <- size_text v ;; Ok (str "Found: (" ++ s ++ str "," ++ n ++ str ")" ++ [newline]))
    (combine keys (seq 0 (length keys))).
(* trie_example01, 61-91; f is type_to_string of the elements *)
Definition trie_example01 {K} (keq : K -> K -> bool) (f : K -> list ascii) (pairs : list (list K * list ascii)) : outcome (list ascii) :=
  trie_lines keq (join f (str ","))
    (fun s v => Ok (str "Found Prefix: " ++ join f (str ",") s ++ str " = " ++ v ++ [newline])) pairs.
