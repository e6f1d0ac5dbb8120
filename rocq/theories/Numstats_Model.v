(* The statistics of strtk_numstats.cpp.  double is IEEE 754 binary64 (Real_Spec.v); how
   operator<< writes one is an argument. *)
From Verif Require Import Base Scan_Model Parse_Model IO_Model Stl_Model Grid_Model Real_Model Real_Spec.
From Coq Require Import ZArith Floats.SpecFloat DecimalString NArith String List.
Import ListNotations.
Local Open Scope nat_scope.

(* operator<< of a std::size_t *)
Definition write_number (n : N) : list ascii := list_ascii_of_string (NilEmpty.string_of_uint (N.to_uint n)).
Definition tab : list ascii := [ascii_of_nat 9].

(* string_to_type_converter for a double.  A conversion whose behaviour is undefined is kept
   as an element of the list and makes the statistics of the list undefined. *)
Definition conv_double (s : list ascii) : option (outcome spec_float) :=
  match parse_real double s (S754_zero false) with
  | Ok (true, v) => Some (Ok v)
  | Ok (false, _) => None
  | UB => Some UB
  | OutOfFuel => Some OutOfFuel
  end.
Fixpoint all_defined (l : list (outcome spec_float)) : outcome (list spec_float) :=
  match l with [] => Ok [] | x :: l => v <- x ;; vs <- all_defined l ;; Ok (v :: vs) end.

(* std::nth_element and the element it puts at position n, strtk_numstats.cpp 73-74: that of the
   sorted range.  operator< has to be a strict weak order of the elements, which it is not
   if there is a NaN beside two different numbers.  Of elements that compare equal (0 and
   -0) the standard leaves open which it is; here it is that of insertion sort. *)
Definition is_nan (x : spec_float) : bool := match x with S754_nan => true | _ => false end.
Fixpoint insert_value (x : spec_float) (l : list spec_float) : list spec_float :=
  match l with [] => [x] | y :: l' => if SFltb y x then y :: insert_value x l' else x :: l end.
Fixpoint sort_values (l : list spec_float) : list spec_float :=
  match l with [] => [] | x :: l => insert_value x (sort_values l) end.
Definition nth_element (l : list spec_float) (n : nat) : outcome spec_float :=
  if existsb is_nan l && existsb (fun x => existsb (SFltb x) l) l then UB else rd (sort_values l) n.

Section Output.
(* operator<< of a double *)
Variable show : spec_float -> list ascii.

(* compute_stats, strtk_numstats.cpp 59-75; min_max_of_cont, strtk.hpp 4216-4226 *)
Definition compute_stats (value_list : list spec_float) : outcome (list ascii) :=
  ' (min_value, max_value) <- min_max_of_range SFltb value_list ;;
  let sum := fold_left (SFadd 53 1024) value_list (S754_zero false) in
  let mean := SFdiv 53 1024 sum (b64 (Z.of_nat (length value_list)) 0) in
  median <- nth_element value_list (length value_list / 2) ;;
  Ok (show min_value ++ tab ++ show max_value ++ tab ++ show sum ++ tab ++ show mean ++ tab ++ show median ++ tab).

(* the body of both loops, strtk_numstats.cpp 126-131 and strtk_numstats.cpp 139-144; out is what std::cout has
   received *)
Definition report (label : list ascii) (i : N) (value_list : list (outcome spec_float)) (out : list ascii) : outcome (list ascii) :=
  match value_list with
  | [] => Ok out
  | _ => value_list <- all_defined value_list ;;
         stats <- compute_stats value_list ;;
         Ok (out ++ label ++ str "[" ++ write_number i ++ str "]" ++ tab ++ stats ++ [newline])
  end.

(* main from the loaded lines on, strtk_numstats.cpp 97-147; the default options of a grid are
   those of strtk.hpp 5491-5498 *)
Definition stats_of_lines (str_list : list (list ascii)) : outcome (list ascii) :=
  if length str_list =? 0 then Ok []
  else
    let buffer := join (fun x => x) [newline] str_list in
    g <- load (Options 1 [newline; ascii_of_nat 13] (str ", ") false false) buffer ;;
    ' (_, g) <- remove_empty_tokens g (all_rows g) ;;
    out <- for_range 0 (max_c g)
      (fun column out =>
         ' (_, value_list) <- extract_column_checked conv_double buffer g (all_rows g) column [] ;;
         report (str "C") column value_list out) [] ;;
    for_range 0 (row_count g)
      (fun i out =>
         rw <- row g i ;;
         value_list <- parse_checked conv_double buffer g rw [] ;;
         report (str "R") i value_list out) out.

(* main, strtk_numstats.cpp 77-148: what is written and the exit status; args is argv[1] ..
   argv[argc - 1] as files of the file system *)
Definition numstats (fs : fsys) (args : list nat) (input : list ascii) : outcome (list ascii * nat) :=
  match args with
  | [] =>
      ' (_, _, str_list, _) <- load_from_text_file Some (Stream input true) [] ;;
      out <- stats_of_lines str_list ;; Ok (out, 0)
  | [f] =>
      ' (_, _, str_list) <- load_from_file (fun l x => l ++ [x]) Some fs f [] ;;
      out <- stats_of_lines str_list ;; Ok (out, 0)
  | _ => Ok (str "usage: strtk_numstats <file name>" ++ newline :: str "usage: cat data.txt | strtk_numstats" ++ [newline], 1)
  end.
End Output.
