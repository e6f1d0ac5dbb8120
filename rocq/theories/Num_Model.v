(* Integer conversion: string_to_type_converter_impl for unsigned and signed
   types (strtk.hpp 17377-17497), type_to_string_converter_impl (17876-17985),
   strtk::fast (12844-13710). *)
From Verif Require Import Base Num_Tables.
Open Scope Z_scope.

(* An integer type: range, signedness, and whether its arithmetic is done in
   int (types narrower than int; no overflow happens in int here). *)
Record ity := ITy { lo : Z; hi : Z; sgn : bool; narrow : bool }.

(* conversion to the type: modulo 2^bits (implementation-defined for signed
   types before C++20, always modulo in practice) *)
Definition cast (T : ity) (z : Z) : Z := lo T + (z - lo T) mod (hi T - lo T + 1).

(* result of an arithmetic expression assigned to a variable of the type:
   signed overflow is undefined, unsigned and narrow types wrap *)
Definition arith (T : ity) (z : Z) : outcome Z :=
  if sgn T && negb (narrow T) then
    if (lo T <=? z) && (z <=? hi T) then Ok z else UB
  else Ok (cast T z).

Definition t_short := ITy (- 2 ^ 15) (2 ^ 15 - 1) true true.
Definition t_ushort := ITy 0 (2 ^ 16 - 1) false true.
Definition t_int := ITy (- 2 ^ 31) (2 ^ 31 - 1) true false.
Definition t_uint := ITy 0 (2 ^ 32 - 1) false false.
(* long on LP64 systems (Linux, macOS); on Windows it is t_int / t_uint *)
Definition t_long := ITy (- 2 ^ 63) (2 ^ 63 - 1) true false.
Definition t_ulong := ITy 0 (2 ^ 64 - 1) false false.
Definition t_llong := t_long.
Definition t_ullong := t_ulong.

(* struct numeric<T>: 16867-16952 *)
Record num := Num { bound_length : nat; m10 : Z; ldpos : Z; ldneg : Z }.
Definition n_short := Num 5 3276 7 8.
Definition n_ushort := Num 5 6553 5 0.
Definition n_int := Num 10 214748364 7 8.
Definition n_uint := Num 10 429496729 5 0.
Definition n_long := Num 10 214748364 7 8.
Definition n_ulong := Num 10 429496729 5 0.
Definition n_llong := Num 19 922337203685477580 7 8.
Definition n_ullong := Num 20 1844674407370955161 5 0.

(* plain char is signed *)
Definition schar (c : ascii) : Z :=
  let n := Z.of_N (N_of_ascii c) in if n <? 128 then n else n - 256.

(* digit = ( *itr - '0' ) stored in an unsigned int *)
Definition udigit (c : ascii) : Z := (schar c - 48) mod 2 ^ 32.

(* while ((end != itr) && ('0' == ( *itr))) ++itr *)
Fixpoint skip_zeros (s : list ascii) : list ascii :=
  match s with
  | c :: s' => if Ascii.eqb c "0" then skip_zeros s' else s
  | [] => []
  end.

(* The fall-through switch (17396-17412, 17460-17476) entered with [length]
   characters left: every digit but the last is accumulated in t, the last one
   is returned separately.  None = return false. *)
Fixpoint eat (T : ity) (t : Z) (s : list ascii) : outcome (option (Z * Z)) :=
  match s with
  | [] => Ok (Some (t, 0))
  | [c] => if 10 <=? udigit c then Ok None else Ok (Some (t, udigit c))
  | c :: s' =>
      if udigit c <? 10 then t' <- arith T (t * 10 + cast T (udigit c)) ;; eat T t' s'
      else Ok None
  end.

(* 17377-17433.  None: returned false, target untouched.  The value left in
   itr_external is not modelled. *)
Definition parse_unsigned (T : ity) (n : num) (s : list ascii) : outcome (option Z) :=
  match s with
  | [] => Ok None
  | c :: r =>
      if Ascii.eqb c "+" && match r with [] => true | _ => false end then Ok None
      else
        let s2 := skip_zeros (if Ascii.eqb c "+" then r else s) in
        if (bound_length n <? length s2)%nat then Ok None
        else
          o <- eat T 0 s2 ;;
          match o with
          | None => Ok None
          | Some (t, digit) =>
              if (length s2 =? bound_length n)%nat &&
                 negb ((t <? m10 n) || ((t =? m10 n) && (digit <=? ldpos n)))
              then Ok None
              else v <- arith T (t * 10 + cast T digit) ;; Ok (Some v)
          end
  end.

(* 17435-17497 *)
Definition parse_signed (T : ity) (n : num) (s : list ascii) : outcome (option Z) :=
  match s with
  | [] => Ok None
  | c :: r =>
      let last_digit := if Ascii.eqb c "-" then ldneg n else ldpos n in
      let sign := (ldneg n =? last_digit) || Ascii.eqb c "+" in
      if sign && match r with [] => true | _ => false end then Ok None
      else
        let s2 := skip_zeros (if sign then r else s) in
        if (bound_length n <? length s2)%nat then Ok None
        else
          o <- eat T 0 s2 ;;
          match o with
          | None => Ok None
          | Some (t, digit) =>
              if (length s2 =? bound_length n)%nat &&
                 negb ((t <? cast T (m10 n)) || ((t =? m10 n) && (cast T digit <=? last_digit)))
              then Ok None
              else
                t' <- arith T (t * 10 + cast T digit) ;;
                v <- (if last_digit =? ldpos n then Ok t' else arith T (- t')) ;;
                Ok (Some v)
          end
  end.

(* ------------------------------------------------------------------ *)
(* Formatting.  The 32-byte buffer (buffer_size: numeric<T>::size is 16 or 24,
   never below 16) is filled from the end; state: value, buffer, itr. *)
Definition fstate : Type := (Z * list ascii * nat)%type.
Definition buffer_size : nat := 32.

(* memcpy(itr -= k, &lut[k * idx], k) *)
Definition put_lut (lut : list ascii) (k : nat) (idx : Z) (b : list ascii) (itr : nat)
  : outcome (list ascii * nat) :=
  if (itr <? k)%nat then UB
  else if idx <? 0 then UB
  else
    let src := (k * Z.to_nat idx)%nat in
    if (length lut <? src + k)%nat then UB
    else Ok (firstn (itr - k) b ++ sub lut (src, src + k)%nat ++ skipn itr b, (itr - k)%nat).

(* *(--itr) = c *)
Definition put_char (c : ascii) (b : list ascii) (itr : nat) : outcome (list ascii * nat) :=
  match itr with
  | O => UB
  | S i => b' <- wr b i c ;; Ok (b', i)
  end.

(* while (value >= limit) { emit k digits; value /= 10^k } : 17889-17903, 17956-17968 *)
Definition emit_loop (lut : list ascii) (k : nat) (limit base : Z) (st : fstate) : outcome fstate :=
  loop (S buffer_size) (fun (st : fstate) =>
    let '(value, b, itr) := st in
    if limit <=? value then
      let temp_v := value / base in
      ' (b', itr') <- put_lut lut k (value - temp_v * base) b itr ;;
      Ok (inl (temp_v, b', itr'))
    else Ok (inr st)) st.

(* digits of value into the buffer: 17887-17911, 17954-17981 *)
Definition emit (value : Z) (negative : bool) : outcome (list ascii) :=
  let b0 := repeat "000"%char buffer_size in
  ' (b, itr) <-
    (if value =? 0 then put_char "0" b0 buffer_size
     else
       ' (v1, b1, i1) <- emit_loop rev_3digit_lut 3 100 1000 (value, b0, buffer_size) ;;
       ' (v2, b2, i2) <- emit_loop rev_2digit_lut 2 10 100 (v1, b1, i1) ;;
       ' (b3, i3) <- (if v2 =? 0 then Ok (b2, i2)
                      else put_char (ascii_of_N (Z.to_N ((48 + v2) mod 256))) b2 i2) ;;
       if negative then put_char "-" b3 i3 else Ok (b3, i3)) ;;
  Ok (skipn itr b).

(* 17876-17915 *)
Definition format_unsigned (v : Z) : outcome (list ascii) := emit v false.
(* 17934-17985: value = -TT(valuex) in the unsigned type of the same width,
   range 0 .. 2 * hi + 1 *)
Definition format_signed (T : ity) (v : Z) : outcome (list ascii) :=
  let negative := v <? 0 in
  emit (if negative then (- v) mod (2 * hi T + 2) else v) negative.

(* ------------------------------------------------------------------ *)
(* strtk::fast *)

(* all_digits_check_impl<Iterator,N>, N = 0..19: 12854-13165 *)
Fixpoint all_digits_n (n : nat) (s : list ascii) (i : nat) : outcome bool :=
  match n with
  | O => Ok true
  | S n' => c <- rd s i ;; if (schar c - 48) mod 256 <? 10 then all_digits_n n' s (S i) else Ok false
  end.
(* 13530-13546: default : return false *)
Definition all_digits_check (n : nat) (s : list ascii) : outcome bool :=
  if (n <=? 19)%nat then all_digits_n n s 0 else Ok false.

(* x = x * 10 + static_cast<T>(itr[i] - '0'), i .. i+n-1: 13214-13481 *)
Fixpoint accumulate (T : ity) (n : nat) (s : list ascii) (i : nat) (x : Z) : outcome Z :=
  match n with
  | O => Ok x
  | S n' => c <- rd s i ;; x' <- arith T (x * 10 + cast T (schar c - 48)) ;; accumulate T n' s (S i) x'
  end.
(* numeric_convert_impl<T,Iterator,N>, N <= 16 *)
Definition convert_small (T : ity) (n : nat) (s : list ascii) (i : nat) : outcome Z :=
  match n with
  | O => Ok 0
  | S n' => c <- rd s i ;; accumulate T n' s (S i) (cast T (schar c - 48))
  end.
(* (itr[0] - '0') * factor in long long, for N = 17, 18, 19 (13184-13212), or in
   unsigned long long for N = 20 (13174-13182) *)
Definition scaled (n : nat) (c : ascii) : outcome Z :=
  let p := (schar c - 48) * 10 ^ Z.of_nat (n - 1) in
  if (n =? 20)%nat then Ok (p mod 2 ^ 64)
  else if (- 2 ^ 63 <=? p) && (p <=? 2 ^ 63 - 1) then Ok p else UB.
(* fuel: 20 - 16 nested calls *)
Fixpoint convert_big (T : ity) (extra : nat) (s : list ascii) (i : nat) : outcome Z :=
  match extra with
  | O => convert_small T 16 s i
  | S e =>
      t <- convert_big T e s (S i) ;;
      c <- rd s i ;;
      p <- scaled (16 + extra) c ;;
      arith T (t + cast T p)
  end.
Definition convert_n (T : ity) (n : nat) (s : list ascii) : outcome Z :=
  if (n <=? 16)%nat then convert_small T n s 0 else convert_big T (n - 16) s 0.

(* 13617-13644; None = false, target untouched *)
Definition numeric_convert (T : ity) (n : nat) (s : list ascii) (digit_check : bool) : outcome (option Z) :=
  ok <- (if digit_check then all_digits_check n s else Ok true) ;;
  if (ok : bool) then
    if (n <=? 20)%nat then v <- convert_n T n s ;; Ok (Some v) else Ok None
  else Ok None.

(* 13669-13692 *)
Definition signed_numeric_convert (T : ity) (s : list ascii) (digit_check : bool) : outcome (option Z) :=
  c <- rd s 0 ;;
  let negative := Ascii.eqb c "-" in
  let signed := negative || Ascii.eqb c "+" in
  if signed && (length s =? 1)%nat then Ok None
  else
    let s1 := skip_zeros (if signed then tl s else s) in
    o <- numeric_convert T (length s1) s1 digit_check ;;
    match o with
    | None => Ok None
    | Some t => v <- (if negative then arith T (- t) else Ok t) ;; Ok (Some v)
    end.

(* signed_all_digits_check(n,itr): 13568-13575 (n - 1 in std::size_t) *)
Definition signed_all_digits_check (n : nat) (s : list ascii) : outcome bool :=
  c <- rd s 0 ;;
  if Ascii.eqb c "-" || Ascii.eqb c "+" then
    match n with
    | O => Ok false (* n - 1 = 2^64 - 1: default branch *)
    | S n' => all_digits_check n' (tl s)
    end
  else all_digits_check n s.
