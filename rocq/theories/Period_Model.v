(* The period parser of strtk_period_parser.cpp.  The arithmetic of double is a parameter. *)
From Verif Require Import Base Split_Model Real_Model.
Local Open Scope nat_scope.

(* what the parser uses of double besides the conversion *)
Record period_ops (T : Type) := PeriodOps {
  scale : Z -> T -> T;              (* 86400000.0 * t and so on *)
  below_0 : T -> bool;              (* t < 0.0 *)
  to_ll : T -> option Z;            (* static_cast<long long>(t); None: not representable, which is undefined *)
  start : T }.                      (* 0.0 *)
Arguments scale {T}. Arguments below_0 {T}. Arguments to_ll {T}. Arguments start {T}.

(* std::toupper of a signed char: undefined for a negative value other than EOF *)
Definition toupper (c : ascii) : outcome ascii :=
  let n := N_of_ascii c in
  if ((128 <=? n) && (n <? 255))%N then UB
  else if ((97 <=? n) && (n <=? 122))%N then Ok (ascii_of_N (n - 32)) else Ok c.

Section Parser.
Variable O : reals.
Variable D : period_ops (target O).
Notation T := (target O).

(* string_to_type_converter(first, second - 1, t), strtk_period_parser.cpp 66-67.  For an
   empty token the end lies before the beginning: the converter reads the character at the
   beginning, which is outside the token.  If it is NUL, conversion stops there with false
   (strtk.hpp 17616-17777); anything else is not followed here. *)
Definition convert (mem : list ascii) (r : token) (t : T) : outcome (bool * T) :=
  let (f, e) := r in
  if e =? 0 then UB
  else if f <? e then parse_real O (sub mem (f, e - 1)) t
  else c <- rd mem f ;; if Ascii.eqb c zero then Ok (false, t) else UB.

(* the switch, strtk_period_parser.cpp 69-76: index in encounterd and factor *)
Definition unit_of (c : ascii) : option (nat * Z) :=
  if Ascii.eqb c "D" then Some (0, 86400000%Z)
  else if Ascii.eqb c "H" then Some (1, 3600000%Z)
  else if Ascii.eqb c "M" then Some (2, 60000%Z)
  else if Ascii.eqb c "S" then Some (3, 1000%Z)
  else None.

(* period += v; overflow of long long is undefined *)
Definition add_ll (a b : Z) : outcome Z :=
  if ((- 2 ^ 63 <=? a + b) && (a + b <? 2 ^ 63))%Z then Ok (a + b)%Z else UB.

(* the loop, strtk_period_parser.cpp 64-82 *)
Fixpoint period_loop (mem : list ascii) (tokens : list token) (t : T) (encounterd : list bool) (period : Z)
  : outcome (bool * Z) :=
  match tokens with
  | [] => Ok (true, period)
  | r :: tokens =>
      ' (ok, t) <- convert mem r t ;;
      if negb ok then Ok (false, period)
      else
        c <- rd mem (snd r - 1) ;;
        c <- toupper c ;;
        match unit_of c with
        | None => Ok (false, period)
        | Some (i, factor) =>
            seen <- rd encounterd i ;;
            if (seen : bool) then Ok (false, period)
            else
              let t := scale D factor t in
              encounterd <- wr encounterd i true ;;
              if negb (Ascii.eqb c "D") && below_0 D t then Ok (false, period)
              else
                match to_ll D t with
                | None => UB
                | Some v => period <- add_ll period v ;; period_loop mem tokens t encounterd period
                end
        end
  end.

(* operator()(begin,end,period), strtk_period_parser.cpp 51-85: s is [begin,end), rest what
   lies behind it; the predicate is that of strtk_period_parser.cpp 41-41 *)
Definition period_delimiter : ascii -> bool := multiple_char_delimiter_predicate (str "DHRMINSECdhrminsec :").
Definition parse_period_range (s rest : list ascii) (period : Z) : outcome (bool * Z) :=
  ' (tokens, token_count) <- split_n period_delimiter s 4 3 ;;
  if 0 =? token_count then Ok (false, period)
  else period_loop (s ++ rest) tokens (start D) [false; false; false; false] 0.

(* operator()(s,period), strtk_period_parser.cpp 44-49: a std::string ends with NUL *)
Definition parse_period (s : list ascii) (period : Z) : outcome (bool * Z) :=
  if length s =? 0 then Ok (false, period) else parse_period_range s [zero] period.
End Parser.
