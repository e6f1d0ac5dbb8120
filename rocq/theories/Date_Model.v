(* strtk_examples.cpp, parse_example05 and parse_example06: a converter of the user for points in
   time, used for lists and inside records. *)
From Verif Require Import Base Split_Model Num_Model Parse_Model Sink_Model Text_Model.
Local Open Scope nat_scope.

(* strtk_cmpstmt over variables of one type: convert_all (Parse_Model) on targets that share
   type and conversion *)
Fixpoint convert_same {T} (conv : converter T) (s : list ascii) (token_list : list (nat * nat)) (i : nat) (vs : list T)
  : outcome (bool * list T) :=
  match vs with
  | [] => Ok (true, [])
  | v :: vs =>
      r <- rd token_list i ;;
      ' (b, v) <- conv (sub s r) v ;;
      if negb b then Ok (false, v :: vs)
      else ' (b, vs) <- convert_same conv s token_list (S i) vs ;; Ok (b, v :: vs)
  end.
(* parse(begin,end,delimiters,t1..t7), strtk.hpp 8411-8442 *)
Definition parse_same {T} (conv : converter T) (delims s : list ascii) (vs : list T) : outcome (bool * list T) :=
  ' (token_list, parsed_token_count) <- split_n (delim_pred delims) s (length vs) 1 ;;
  if parsed_token_count <? length vs then Ok (false, vs)
  else convert_same conv s token_list 0 vs.

(* datetime, strtk_examples.cpp 698-707 *)
Record datetime := DT { year : Z; month : Z; day : Z; hour : Z; minute : Z; second : Z; msecond : Z }.

(* 709-714, the body that the macros (strtk.hpp 443-449) make a converter of *)
Definition conv_datetime : converter datetime := fun x t =>
  ' (b, vs) <- parse_same (conv_unsigned t_uint n_uint) (str "-:. ") x [year t; month t; day t; hour t; minute t; second t; msecond t] ;;
  match vs with
  | [y; mo; d; h; mi; s; ms] => Ok (b, DT y mo d h mi s ms)
  | _ => UB
  end.

(* 733-739; operator<< of the year writes the same digits as type_to_string *)
Definition print_datetime (dt : datetime) : outcome (list ascii) :=
  y <- format_unsigned (year dt) ;;
  mo <- format_unsigned (month dt) ;;
  d <- format_unsigned (day dt) ;;
  h <- format_unsigned (hour dt) ;;
  mi <- format_unsigned (minute dt) ;;
  s <- format_unsigned (second dt) ;;
  ms <- format_unsigned (msecond dt) ;;
  Ok (y ++ str "-" ++ right_align 2 "0" mo ++ str "-" ++ right_align 2 "0" d ++ str " " ++ right_align 2 "0" h ++ str ":" ++
      right_align 2 "0" mi ++ str ":" ++ right_align 2 "0" s ++ str "." ++ right_align 3 "0" ms).
Fixpoint print_all (dts : list datetime) : outcome (list (list ascii)) :=
  match dts with
  | [] => Ok []
  | dt :: dts => x <- print_datetime dt ;; xs <- print_all dts ;; Ok (x :: xs)
  end.
(* 716-741; garbage: the contents of the not initialised element of the inserter *)
Definition parse_example05 (garbage : datetime) (data : list ascii) : outcome (list (list ascii)) :=
  ' (dts, _) <- parse_container conv_datetime garbage (fun c v => c ++ [v]) (str "|") data 1 [] ;;
  print_all dts.

(* event_information and parse_example06, 743-769; std::size_t is unsigned long *)
Definition parse_event (garbage : datetime) (data : list ascii) (id : Z) (name location : list ascii) (dts : list datetime)
  : outcome (bool * list target) :=
  parse_values (str "|") data
    [Target Z (conv_unsigned t_ulong n_ulong) id; Target (list ascii) conv_string name; Target (list ascii) conv_string location;
     Target (sink (list datetime)) (conv_sink conv_datetime garbage (fun c v => c ++ [v]) (@length datetime)) (attach dts [] 1 (sink_of_delims (str ",") 1))].
