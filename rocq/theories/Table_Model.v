(* Tables in strtk_tokengrid_example.cpp: totals per symbol (token_grid_test10), sums per period of
   time (token_grid_test12) and aligned output (token_grid_test16). *)
From Verif Require Import Base Split_Model Num_Model Text_Model Grid_Model.
Local Open Scope nat_scope.

(* the constructor strtk.hpp 6409-6424 with column delimiters given, and the options of
   strtk_tokengrid_example.cpp 940-944 (row delimiters from strtk.hpp 5494) *)
Definition row_ends : list ascii := map ascii_of_nat [10; 13].
Definition compressed (column_delims : list ascii) : options := Options 1 row_ends column_delims false false.
Definition separate (column_delims : list ascii) : options := Options 0 row_ends column_delims false false.

(* string_to_type_converter for unsigned long long and for std::size_t, strtk.hpp 371-379, 16786-16830; the
   parsers of Num_Model always return (C18) *)
Definition to_ullong (s : list ascii) : option Z := match parse_unsigned t_ullong n_ullong s with Ok o => o | _ => None end.
Definition to_size (s : list ascii) : option Z := match parse_unsigned t_ulong n_ulong s with Ok o => o | _ => None end.

(* symbol_predicate, strtk_tokengrid_example.cpp 511-527; it is only called on rows that have the
   volume column *)
Definition symbol_predicate (text symbol : list ascii) (i : N) (row : list tok) : bool :=
  match nth_error row 1 with
  | Some t => if list_eq_dec ascii_dec symbol (sub text t) then true else false
  | None => false
  end.
(* day_count and total_volume of one symbol, 568-572; += on unsigned long long *)
Definition stock_info (text symbol : list ascii) : outcome (N * Z) :=
  g <- load (compressed (str ",")) text ;;
  accumulate_column_if (fun a b => (a + b) mod 2 ^ 64)%Z to_ullong (symbol_predicate text symbol) text g 6 (all_rows g) 0%Z.

(* token_grid::sequential_partition, strtk.hpp 7258-7293, for a predicate with a state s and a
   function that may look at the grid *)
Definition sequential_partition_s {S T} (p : S -> list tok -> outcome (S * bool)) (f : T -> N * N -> outcome (T * bool))
  (g : grid) (rr : N * N) (s : S) (x : T) : outcome (bool * T) :=
  if row_range_invalid g rr then Ok (false, x)
  else
    q <- loop (1 + N.to_nat (snd rr))
      (fun '(i, r, s, x) =>
         if negb (i <? snd rr)%N then Ok (inr (Some r, x))
         else
           rw <- row g i ;; ts <- row_tokens g rw ;;
           ' (s, b) <- p s ts ;;
           if (b : bool) then
             if negb (fst r =? snd r)%N then
               ' (x, c) <- f x (fst r, i) ;;
               if negb c then Ok (inr (None, x)) else Ok (inl (i + 1, (i, i), s, x))%N
             else Ok (inl (i + 1, (snd r, snd r), s, x))%N
           else Ok (inl (i + 1, (fst r, i), s, x))%N) (fst rr, (fst rr, fst rr), s, x) ;;
    match q with
    | (None, x) => Ok (false, x)
    | (Some r, x) =>
        if negb (fst r =? snd rr)%N then
          ' (x, c) <- f x (fst r, snd rr) ;;
          if negb c then Ok (false, x) else Ok (true, x)
        else Ok (true, x)
    end.

Section Sums.
Context {T : Type}.
(* conversion of text to double, +=, and 0.0 *)
Variables (conv : list ascii -> option T) (add : T -> T -> T) (nought : T).

(* summarizer::operator()(row), strtk_tokengrid_example.cpp 634-643; the state is next_tick_time_.
   get throws if the text is no number; that ends the program and is UB here. *)
Definition tick (text : list ascii) (next_tick_time : Z) (row : list tok) : outcome (Z * bool) :=
  match nth_error row 0 with
  | None => UB
  | Some t =>
      match to_size (sub text t) with
      | None => UB
      | Some v => if (next_tick_time <=? v)%Z then Ok ((v + 3) mod 2 ^ 64, true)%Z else Ok (next_tick_time, false)
      end
  end.
(* summarizer::operator()(grid,range), 645-660; the message is not modelled *)
Definition bucket (text : list ascii) (g : grid) (sum_value : list T) (range : N * N) : outcome (list T * bool) :=
  ' (n, bucket_sum) <- accumulate_column add conv text g 1 range nought ;;
  if (n =? 0)%N then Ok (sum_value, false) else Ok (sum_value ++ [bucket_sum], true).
(* token_grid_test12, 669-692: sum_value in the end *)
Definition bucket_sums (text : list ascii) : outcome (bool * list T) :=
  g <- load (compressed (str ",")) text ;;
  sequential_partition_s (tick text) (bucket text g) g (all_rows g) 0%Z [].
End Sums.

(* the characters before the first NUL: what printf with %s shows of c_str() *)
Fixpoint c_string (s : list ascii) : list ascii :=
  match s with [] => [] | c :: s => if Ascii.eqb c zero then [] else c :: c_string s end.
(* token_grid_test16, 940-973: what is printed *)
Definition print_table (text : list ascii) : outcome (list ascii) :=
  g <- load (separate (str ",")) text ;;
  column_width <- get_column_widths g [] ;;
  for_range 0 (row_count g)
    (fun r out =>
       rw <- row g r ;;
       out <- for_range 0 (r_size rw)
         (fun c out =>
            null <- is_null g rw c ;;
            w <- rd column_width (N.to_nat c) ;;
            t <- row_token g rw c ;;
            let cell :=
              if (null : bool) then repeat " "%char w
              else if (c <=? 1)%N || (r =? 0)%N then center w " " (sub text t)
              else right_align w " " (sub text t) in
            Ok (out ++ str "[" ++ c_string cell ++ str "] ")) out ;;
       Ok (out ++ [ascii_of_nat 10])) [].
