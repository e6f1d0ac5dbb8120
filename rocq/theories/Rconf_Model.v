(* The parser of floating point numbers with the macros strtk_enable_superscalar and
   strtk_use_lut: strtk.hpp 17499-17555 and 17616-17777.  Real_Model has neither. *)
From Verif Require Import Base Real_Model.
From Coq Require Import ZArith.
Local Open Scope nat_scope.

(* digit_table, strtk.hpp:16669-16703 *)
Definition digit_table : list N := (repeat 255 48 ++ [0; 1; 2; 3; 4; 5; 6; 7; 8; 9] ++ repeat 255 198)%N.
(* (int)*itr: the code of an unsigned char; of a char, negative from 128 on *)
Definition as_int (signed_char : bool) (c : ascii) : Z :=
  if signed_char && (128 <=? code c)%N then (Z.of_N (code c) - 256)%Z else Z.of_N (code c).
(* (digit = digit_table[(int)*itr]) < 10, 17527, 17639, 17642; an index outside the table is undefined *)
Definition table_at (signed_char : bool) (s : list ascii) (itr : nat) : outcome (option N) :=
  c <- rd s itr ;;
  let i := as_int signed_char c in
  if (i <? 0)%Z then UB
  else digit <- rd digit_table (Z.to_nat i) ;; Ok (if (digit <? 10)%N then Some digit else None).

(* strtk_use_lut with iterators over char or unsigned char; the numbers of parse_digit_1 in the loops
   17660-17671 and 17686-17696 *)
Record config := Config { use_lut : bool; signed_char : bool; int_ones : nat; frac_ones : nat }.
Definition plain (sgn : bool) : config := Config false sgn 2 2.
Definition superscalar (lut sgn : bool) : config := Config lut sgn 4 5.
Definition look (k : config) : list ascii -> nat -> outcome (option N) :=
  if use_lut k then table_at (signed_char k) else digit_at.

Section Parser.
Variable O : reals.
Notation R := (real_t O).
Notation T := (target O).
Variable k : config.

(* strtk.hpp 17636-17652 *)
Definition k_parse_digit (to_end : bool) (s : list ascii) (st : nat * R) : outcome ((nat * R) + (nat * R)) :=
  let (itr, d) := st in
  o <- look k s itr ;;
  match o with
  | None => Ok (inr (itr, d))
  | Some digit => if to_end && (length s =? itr + 1) then Ok (inr (itr + 1, push O d digit)) else Ok (inl (itr + 1, push O d digit))
  end.
(* the loop body: parse_digit_1 n times, then parse_digit_2 *)
Fixpoint k_body (n : nat) (s : list ascii) (st : nat * R) : outcome ((nat * R) + (nat * R)) :=
  match n with
  | 0 => k_parse_digit false s st
  | S n => r <- k_parse_digit true s st ;; match r with inr st => Ok (inr st) | inl st => k_body n s st end
  end.
(* strtk.hpp 17660-17671 and 17686-17696 *)
Definition k_parse_digits (n : nat) (s : list ascii) (itr : nat) (d : R) : outcome (nat * R) :=
  loop (S (length s)) (fun st => if length s =? fst st then Ok (inr st) else k_body n s st) (itr, d).

(* strtk.hpp 17522-17541; the last digit is not looked up in the table (17538) *)
Fixpoint k_exponent_switch (n : nat) (s : list ascii) (itr : nat) (result : Z) : outcome (bool * nat * Z * N) :=
  match n with
  | 0 => Ok (true, itr, result, 0%N)
  | 1 => o <- digit_at s itr ;;
         match o with Some digit => Ok (true, itr, result, digit) | None => Ok (false, itr, result, 0%N) end
  | S n => o <- look k s itr ;;
           match o with
           | Some digit => k_exponent_switch n s (itr + 1) (result * 10 + Z.of_N digit)
           | None => Ok (false, itr + 1, result, 0%N)
           end
  end.
(* strtk.hpp 17499-17555, as Real_Model.parse_exponent *)
Definition k_parse_exponent (s : list ascii) (itr : nat) : outcome (bool * nat * Z) :=
  if itr =? length s then Ok (false, itr, 0%Z)
  else
    c <- rd s itr ;;
    let negative := Ascii.eqb c "-" in
    let signed := negative || Ascii.eqb c "+" in
    let itr := if signed then itr + 1 else itr in
    if signed && (length s =? itr) then Ok (false, itr, 0%Z)
    else
      itr <- skip_zeros s itr ;;
      let n := length s - itr in
      ' (ok, itr, result, digit) <-
        (if n <=? 4 then k_exponent_switch n s itr 0 else Ok (false, itr, 0%Z, 0%N)) ;;
      let '(itr, result) := if negb (n =? 0) && ok then (itr + 1, (result * 10 + Z.of_N digit)%Z) else (itr, result) in
      Ok (ok, itr, if negative then (- result)%Z else result).

(* strtk.hpp 17708-17767, as Real_Model.parse_tail *)
Definition k_parse_tail (s : list ascii) (itr : nat) (negative : bool) : outcome ((nat * Z) + option T) :=
  if length s =? itr then Ok (inl (itr, 0%Z))
  else
    c <- rd s itr ;;
    st <-
      (if Ascii.eqb c "e" || Ascii.eqb c "E" then
         ' (ok, itr, exp) <- k_parse_exponent s (itr + 1) ;;
         if ok then Ok (Some (itr, c, exp))
         else if length s =? itr then Ok None
         else c <- rd s itr ;; Ok (Some (itr, c, exp))
       else Ok (Some (itr, c, 0%Z))) ;;
    match st with
    | None => Ok (inr None)
    | Some (itr, c, exponent) =>
        if length s =? itr then Ok (inl (itr, exponent))
        else if is_suffix c then Ok (inl (itr + 1, exponent))
        else if Ascii.eqb c "#" then
          if length s =? itr + 1 then Ok (inr None)
          else r <- parse_word O s (itr + 1) negative ;; Ok (inr r)
        else r <- parse_word O s itr negative ;; Ok (inr r)
    end.

(* strtk.hpp 17616-17777 with [itr_external, end) = s *)
Definition k_parse_real (s : list ascii) (t : T) : outcome (bool * T) :=
  if length s =? 0 then Ok (false, t)
  else
    c <- rd s 0 ;;
    let negative := Ascii.eqb c "-" in
    let signed := negative || Ascii.eqb c "+" in
    let itr := if signed then 1 else 0 in
    if signed && (length s =? itr) then Ok (false, t)
    else
      c <- rd s itr ;;
      ' (itr, d, instate) <-
        (if Ascii.eqb c "." then Ok (itr, r_of O 0, false)
         else
           z <- skip_zeros s itr ;;
           ' (e, d) <- k_parse_digits (int_ones k) s z (r_of O 0) ;;
           Ok (e, d, negb (itr =? e))) ;;
      ' (itr, d, instate) <-
        (if length s =? itr then Ok (itr, d, instate)
         else
           c <- rd s itr ;;
           if Ascii.eqb c "." then
             let curr := itr + 1 in
             ' (itr, tmp_d) <- k_parse_digits (frac_ones k) s curr (r_of O 0) ;;
             if curr =? itr then Ok (itr, d, instate)
             else f <- pow10 O tmp_d (to_int (- Z.of_nat (itr - curr))) ;; Ok (itr, r_add O d f, true)
           else Ok (itr, d, instate)) ;;
      r <- k_parse_tail s itr negative ;;
      match r with
      | inr None => Ok (false, t)
      | inr (Some v) => Ok (true, v)
      | inl (itr, exponent) =>
          if negb (length s =? itr) || negb instate then Ok (false, t)
          else
            d <- (if (exponent =? 0)%Z then Ok d else pow10 O d exponent) ;;
            Ok (true, narrow O (if negative then r_opp O d else d))
      end.
End Parser.
