(* Parsing of floating point numbers.  The arithmetic is a parameter: real_t and the operations
   the parser applies to it.  Real_Inst.v gives IEEE doubles and exact rationals. *)
From Verif Require Import Base.
From Coq Require Import ZArith.
Local Open Scope nat_scope.

(* what the parser uses of real_t (strtk.hpp 286-289) and of the target type T *)
Record reals := Reals {
  real_t : Type; target : Type;
  r_of : N -> real_t;                       (* real_t(n) for n <= 10 *)
  r_add : real_t -> real_t -> real_t;
  r_mul : real_t -> real_t -> real_t;
  r_div : real_t -> real_t -> real_t;
  r_opp : real_t -> real_t;
  fract10 : nat -> real_t;                  (* entry of the table 16784-16818, 0 < e < 309 *)
  pow_10_10 : Z -> real_t;                  (* std::pow(10.0, 10.0 * exponent), line 16834 *)
  min_exponent10 : Z;                       (* numeric_limits<real_t>::min_exponent10 *)
  narrow : real_t -> target;                (* static_cast<T> *)
  t_inf : bool -> target;                   (* infinity, negative if true *)
  t_nan : target }.

Definition code (c : ascii) : N := N_of_ascii c.
(* (digit = ( *itr - '0')) < 10 on unsigned int *)
Definition digit_at (s : list ascii) (itr : nat) : outcome (option N) :=
  c <- rd s itr ;; Ok (if (48 <=? code c)%N && (code c <=? 57)%N then Some (code c - 48)%N else None).

Section Parser.
Variable O : reals.
Notation R := (real_t O).
Notation T := (target O).

(* strtk.hpp 16820: sizeof(fract10) / sizeof(double) *)
Definition fract10_size : nat := 309.
(* reading fract10[e] for an int e; entry 0 is 0.0 *)
Definition fract10_at (e : Z) : outcome R :=
  if ((e <? 0) || (Z.of_nat fract10_size <=? e))%Z then UB
  else if (e =? 0)%Z then Ok (r_of O 0) else Ok (fract10 O (Z.to_nat e)).
(* strtk.hpp 16781-16841; std::abs of the smallest int is undefined *)
Definition pow10 (d : R) (exponent : Z) : outcome R :=
  if (exponent =? - 2 ^ 31)%Z then UB else
  let e := Z.abs exponent in
  if (min_exponent10 O <=? exponent)%Z then
    if (e <? Z.of_nat fract10_size)%Z then
      f <- fract10_at e ;;
      if (0 <? exponent)%Z then Ok (r_mul O d f) else Ok (r_div O d f)
    else Ok (r_mul O d (pow_10_10 O exponent))
  else
    f <- fract10_at (- min_exponent10 O) ;;
    let d := r_div O d f in
    f <- fract10_at (- exponent + min_exponent10 O) ;;
    Ok (r_div O d f).

(* d = d * real_t(10) + digit *)
Definition push (d : R) (digit : N) : R := r_add O (r_mul O d (r_of O 10)) (r_of O digit).
(* strtk.hpp 17646-17650: parse_digit_1 (to_end) and parse_digit_2; inr is a break *)
Definition parse_digit (to_end : bool) (s : list ascii) (st : nat * R) : outcome ((nat * R) + (nat * R)) :=
  let (itr, d) := st in
  o <- digit_at s itr ;;
  match o with
  | None => Ok (inr (itr, d))
  | Some digit => if to_end && (length s =? itr + 1) then Ok (inr (itr + 1, push d digit)) else Ok (inl (itr + 1, push d digit))
  end.
(* strtk.hpp 17660-17671 and 17686-17696 (strtk_enable_superscalar not defined) *)
Definition parse_digits (s : list ascii) (itr : nat) (d : R) : outcome (nat * R) :=
  loop (S (length s))
    (fun st =>
       if length s =? fst st then Ok (inr st)
       else
         r <- parse_digit true s st ;;
         match r with
         | inr st => Ok (inr st)
         | inl st =>
             r <- parse_digit true s st ;;
             match r with
             | inr st => Ok (inr st)
             | inl st => parse_digit false s st
             end
         end) (itr, d).
(* strtk.hpp 17657 and 17513: while ((end != itr) && ('0' == *itr)) ++itr *)
Definition skip_zeros (s : list ascii) (itr : nat) : outcome nat :=
  loop (S (length s))
    (fun itr => if length s =? itr then Ok (inr itr)
                else c <- rd s itr ;; if Ascii.eqb c "0" then Ok (inl (itr + 1)) else Ok (inr itr)) itr.

(* strtk.hpp 17522-17541: the switch on the length; yields return_result, itr, result, digit *)
Fixpoint exponent_switch (n : nat) (s : list ascii) (itr : nat) (result : Z) : outcome (bool * nat * Z * N) :=
  match n with
  | 0 => Ok (true, itr, result, 0%N)
  | 1 => o <- digit_at s itr ;;
         match o with Some digit => Ok (true, itr, result, digit) | None => Ok (false, itr, result, 0%N) end
  | S n => o <- digit_at s itr ;;
           match o with
           | Some digit => exponent_switch n s (itr + 1) (result * 10 + Z.of_N digit)
           | None => Ok (false, itr + 1, result, 0%N)
           end
  end.
(* strtk.hpp 17499-17555 with result = 0 on entry; at most 4 digits, so int does not overflow *)
Definition parse_exponent (s : list ascii) (itr : nat) : outcome (bool * nat * Z) :=
  if itr =? length s then Ok (false, itr, 0%Z)
  else
    c <- rd s itr ;;
    let negative := Ascii.eqb c "-" in
    let signed := negative || Ascii.eqb c "+" in
    let itr := if signed then itr + 1 else itr in
    if signed && (length s =? itr) then Ok (false, itr, 0%Z)
    else
      itr <- skip_zeros s itr ;;
      let n := length s - itr in
      ' (ok, itr, result, digit) <-
        (if n <=? 4 then exponent_switch n s itr 0 else Ok (false, itr, 0%Z, 0%N)) ;;
      let '(itr, result) := if negb (n =? 0) && ok then (itr + 1, (result * 10 + Z.of_N digit)%Z) else (itr, result) in
      Ok (ok, itr, if negative then (- result)%Z else result).

(* strtk.hpp 17557-17581 *)
Definition parse_nan (s : list ascii) (itr : nat) : outcome (option T) :=
  if negb (length s - itr =? 3) then Ok None
  else
    c <- rd s itr ;; c1 <- rd s (itr + 1) ;; c2 <- rd s (itr + 2) ;;
    if Ascii.eqb c "n" then
      if negb (Ascii.eqb c1 "a") || negb (Ascii.eqb c2 "n") then Ok None else Ok (Some (t_nan O))
    else if negb (Ascii.eqb c1 "A") || negb (Ascii.eqb c2 "N") then Ok None else Ok (Some (t_nan O)).
(* strtk.hpp 17583-17614 *)
Definition inf_uc : list ascii := str "INFINITY" ++ [zero].
Definition inf_lc : list ascii := str "infinity" ++ [zero].
Definition parse_inf (s : list ascii) (itr : nat) (negative : bool) : outcome (option T) :=
  let n := length s - itr in
  if negb (n =? 3) && negb (n =? 8) then Ok None
  else
    c <- rd s itr ;;
    let word := if Ascii.eqb c "i" then inf_lc else inf_uc in
    same <- loop (S (length s))
      (fun st : nat * nat => let (itr, i) := st in
         if length s =? itr then Ok (inr true)
         else w <- rd word i ;; c <- rd s itr ;;
              if Ascii.eqb w c then Ok (inl (itr + 1, i + 1)) else Ok (inr false)) (itr, 0) ;;
    if (same : bool) then Ok (Some (t_inf O negative)) else Ok None.

(* strtk.hpp 17735-17749 and 17751-17763 *)
Definition parse_word (s : list ascii) (itr : nat) (negative : bool) : outcome (option T) :=
  c <- rd s itr ;;
  if (73 <=? code c)%N && (code c <=? 110)%N then
    if Ascii.eqb c "i" || Ascii.eqb c "I" then parse_inf s itr negative
    else if Ascii.eqb c "n" || Ascii.eqb c "N" then parse_nan s itr
    else Ok None
  else Ok None.
Definition is_suffix (c : ascii) : bool := Ascii.eqb c "f" || Ascii.eqb c "F" || Ascii.eqb c "l" || Ascii.eqb c "L".

(* strtk.hpp 17708-17767, the text behind the digits: goes on with itr and exponent, or returns
   (None is false, a value is stored in t and true returned) *)
Definition parse_tail (s : list ascii) (itr : nat) (negative : bool) : outcome ((nat * Z) + option T) :=
  if length s =? itr then Ok (inl (itr, 0%Z))
  else
    c <- rd s itr ;;
    st <-
      (if Ascii.eqb c "e" || Ascii.eqb c "E" then
         ' (ok, itr, exp) <- parse_exponent s (itr + 1) ;;
         if ok then Ok (Some (itr, c, exp))
         else if length s =? itr then Ok None
         else c <- rd s itr ;; Ok (Some (itr, c, exp))
       else Ok (Some (itr, c, 0%Z))) ;;
    match st with
    | None => Ok (inr None)
    | Some (itr, c, exponent) =>
        if length s =? itr then Ok (inl (itr, exponent))
        else if is_suffix c then Ok (inl (itr + 1, exponent))
        else if Ascii.eqb c "#" then
          if length s =? itr + 1 then Ok (inr None)
          else r <- parse_word s (itr + 1) negative ;; Ok (inr r)
        else r <- parse_word s itr negative ;; Ok (inr r)
    end.

(* static_cast<int>(n): the value modulo 2^32 *)
Definition to_int (n : Z) : Z := ((n + 2 ^ 31) mod 2 ^ 32 - 2 ^ 31)%Z.

(* strtk.hpp 17616-17777 with [itr_external, end) = s *)
Definition parse_real (s : list ascii) (t : T) : outcome (bool * T) :=
  if length s =? 0 then Ok (false, t)
  else
    c <- rd s 0 ;;
    let negative := Ascii.eqb c "-" in
    let signed := negative || Ascii.eqb c "+" in
    let itr := if signed then 1 else 0 in
    if signed && (length s =? itr) then Ok (false, t)
    else
      c <- rd s itr ;;
      ' (itr, d, instate) <-
        (if Ascii.eqb c "." then Ok (itr, r_of O 0, false)
         else
           z <- skip_zeros s itr ;;
           ' (e, d) <- parse_digits s z (r_of O 0) ;;
           Ok (e, d, negb (itr =? e))) ;;
      ' (itr, d, instate) <-
        (if length s =? itr then Ok (itr, d, instate)
         else
           c <- rd s itr ;;
           if Ascii.eqb c "." then
             let curr := itr + 1 in
             ' (itr, tmp_d) <- parse_digits s curr (r_of O 0) ;;
             if curr =? itr then Ok (itr, d, instate)
             else f <- pow10 tmp_d (to_int (- Z.of_nat (itr - curr))) ;; Ok (itr, r_add O d f, true)
           else Ok (itr, d, instate)) ;;
      r <- parse_tail s itr negative ;;
      match r with
      | inr None => Ok (false, t)
      | inr (Some v) => Ok (true, v)
      | inl (itr, exponent) =>
          if negb (length s =? itr) || negb instate then Ok (false, t)
          else
            d <- (if (exponent =? 0)%Z then Ok d else pow10 d exponent) ;;
            Ok (true, narrow O (if negative then r_opp O d else d))
      end.

(* strtk.hpp 15168-15231: decimal_sink with a target.  Reading or moving past the end is undefined *)
Definition sink_digits (dot_ok : bool) (s : list ascii) (itr end_n : nat) (d : R) : outcome (option (nat * R)) :=
  loop (S end_n)
    (fun st : nat * R => let (itr, d) := st in
       if end_n =? itr then Ok (inr (Some (itr, d)))
       else o <- digit_at s itr ;;
            match o with
            | Some digit => Ok (inl (itr + 1, push d digit))
            | None => c <- rd s itr ;; if dot_ok && Ascii.eqb c "." then Ok (inr (Some (itr, d))) else Ok (inr None)
            end) (itr, d).
Definition decimal_sink (int_size frac_size : nat) (s : list ascii) (t : T) : outcome (bool * T) :=
  c <- rd s 0 ;;
  let negative := Ascii.eqb c "-" in
  let signed := negative || Ascii.eqb c "+" in
  let itr := if signed then 1 else 0 in
  if signed && (length s =? itr) then Ok (false, t)
  else
    itr <- skip_zeros s itr ;;
    r <- sink_digits true s itr (itr + min (length s - itr) int_size) (r_of O 0) ;;
    match r with
    | None => Ok (false, t)
    | Some (itr, d) =>
        if length s =? itr then UB                            (* ++itr *)
        else
          let itr := itr + 1 in
          let n := min frac_size (length s - itr) in
          r <- sink_digits false s itr (itr + n) (r_of O 0) ;;
          match r with
          | None => Ok (false, t)
          | Some (_, f) =>
              d <- (if n =? 0 then Ok d
                    else g <- pow10 f (to_int (- Z.of_nat n)) ;; Ok (r_add O d g)) ;;
              Ok (true, narrow O (if negative then r_opp O d else d))
          end
    end.
End Parser.
