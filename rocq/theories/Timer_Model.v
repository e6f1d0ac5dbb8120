(* util::timer and util::scoped_timer, strtk.hpp 24379-24495, for systems with gettimeofday
   (24407-24451): time_t, suseconds_t and long long have 64 bits.  The clock is an argument:
   what gettimeofday stores, as a pair of seconds and microseconds. *)
From Verif Require Import Base Real_Spec.
From Coq Require Import ZArith Floats.SpecFloat.
Local Open Scope Z_scope.

(* 24460-24468 *)
Record timer := Timer { in_use_ : bool; start_time_ : Z * Z; stop_time_ : Z * Z }.

(* 24409-24416 *)
Definition new_timer : timer := Timer false (0, 0) (0, 0).
(* 24418-24422 *)
Definition start (t : timer) (now : Z * Z) : timer := Timer true now (stop_time_ t).
(* 24424-24428 *)
Definition stop (t : timer) (now : Z * Z) : timer := Timer false (start_time_ t) now.
(* 24453-24456 *)
Definition in_use (t : timer) : bool := in_use_ t.

(* signed arithmetic on 64 bits: overflow is undefined *)
Definition long (x : Z) : outcome Z := if (- 2 ^ 63 <=? x) && (x <? 2 ^ 63) then Ok x else UB.
Definition ull_max : Z := 2 ^ 64 - 1.
(* 24430-24444; the result is converted to unsigned long long *)
Definition usec_time (t : timer) : outcome Z :=
  if negb (in_use_ t) then
    if fst (start_time_ t) <=? fst (stop_time_ t) then
      seconds <- long (fst (stop_time_ t) - fst (start_time_ t)) ;;
      product <- long (1000000 * seconds) ;;
      micros <- long (snd (stop_time_ t) - snd (start_time_ t)) ;;
      sum <- long (product + micros) ;;
      Ok (sum mod 2 ^ 64)
    else Ok ull_max
  else Ok ull_max.

(* the double nearest to 0.000001: a correctly rounded quotient *)
Definition millionth : spec_float := SFdiv 53 1024 (b64 1 0) (b64 1000000 0).
(* 24446-24449 *)
Definition time (t : timer) : outcome spec_float := u <- usec_time t ;; Ok (SFmul 53 1024 (b64 u 0) millionth).

(* scoped_timer, 24472-24495: what time_value holds when an object that lives from the time
   a to the time b is gone *)
Definition scoped_timer (a b : Z * Z) : outcome spec_float := time (stop (start new_timer a) b).
