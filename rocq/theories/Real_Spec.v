(* Decimal notation of real numbers and the arithmetic used to evaluate it. *)
From Verif Require Import Base Num_Spec Real_Model.
From Coq Require Import ZArith QArith SpecFloat.
Local Open Scope nat_scope.

Definition sign_text (neg : bool) (sg : list ascii) : Prop :=
  if neg then sg = ["-"%char] else sg = [] \/ sg = ["+"%char].
(* an exponent e with at most [room] digits behind the leading zeros, or nothing (e = 0) *)
Definition exponent_text (room : nat) (e : Z) (x : list ascii) : Prop :=
  x = [] /\ e = 0%Z \/
  exists c neg sg zs ds, x = c :: sg ++ zs ++ ds /\ In c (str "eE") /\ sign_text neg sg /\
    Forall (eq "0"%char) zs /\ Forall is_digit ds /\ zs ++ ds <> [] /\ length ds <= room /\
    e = (if neg then - dec_value ds else dec_value ds)%Z.
Definition suffix_char (c : ascii) : Prop := In c (str "fFlL").
(* exponent and suffix *)
Definition tail_text (e : Z) (x : list ascii) : Prop :=
  exponent_text 4 e x \/ exists x' c, x = x' ++ [c] /\ suffix_char c /\ exponent_text 3 e x'.
(* texts the parser takes for an exponent and a suffix although they are not: no digit at all, or
   one character that is no digit in front of the suffix *)
Definition sloppy_tail (e : Z) (x : list ascii) : Prop :=
  exists c neg sg zs ds y f, x = c :: sg ++ zs ++ ds ++ y ++ [f] /\ In c (str "eE") /\ sign_text neg sg /\
    Forall (eq "0"%char) zs /\ Forall is_digit ds /\ suffix_char f /\
    (y = [] /\ zs ++ ds = [] \/ (exists j, y = [j] /\ ~ is_digit j) /\ length ds <= 2) /\
    e = (if neg then - dec_value ds else dec_value ds)%Z.
Definition infinity_word (w : list ascii) : Prop := In w [str "inf"; str "INF"; str "infinity"; str "INFINITY"].
Definition nan_word (w : list ascii) : Prop := In w [str "nan"; str "NAN"].
(* digits I, optional point and digits F, at least one digit *)
Definition mantissa_text (I F m : list ascii) : Prop :=
  Forall is_digit I /\ Forall is_digit F /\ (m = I /\ F = [] \/ m = I ++ ["."%char] ++ F) /\ I ++ F <> [].
Definition number_text (neg : bool) (I F : list ascii) (e : Z) (s : list ascii) : Prop :=
  exists sg m x, s = sg ++ m ++ x /\ sign_text neg sg /\ mantissa_text I F m /\ tail_text e x.
Definition sloppy_text (neg : bool) (I F : list ascii) (e : Z) (s : list ascii) : Prop :=
  exists sg m x, s = sg ++ m ++ x /\ sign_text neg sg /\ mantissa_text I F m /\ sloppy_tail e x.
(* the characters of plain decimal numbers *)
Definition plain_char (c : ascii) : Prop := is_digit c \/ In c (str "+-.eE").

Fixpoint drop_zeros (s : list ascii) : list ascii :=
  match s with c :: s' => if Ascii.eqb c "0" then drop_zeros s' else s | [] => [] end.

Section Value.
Variable O : reals.
(* left to right: d * 10 + digit *)
Definition digits_real (ds : list ascii) : real_t O :=
  fold_left (fun d c => r_add O (r_mul O d (r_of O 10)) (r_of O (N_of_ascii c - 48))) ds (r_of O 0).
(* one multiplication or division by a power of ten *)
Definition scale (d : real_t O) (e : Z) : real_t O :=
  if (e =? 0)%Z then d else if (0 <? e)%Z then r_mul O d (fract10 O (Z.to_nat e)) else r_div O d (fract10 O (Z.to_nat (- e))).
(* the same for exponents outside the table: below -307 in two divisions, above 308 by a power *)
Definition shift_exponent (d : real_t O) (e : Z) : real_t O :=
  if (e <? -307)%Z then r_div O (r_div O d (fract10 O 307)) (fract10 O (Z.to_nat (- e - 307)))
  else if (e <=? 308)%Z then scale d e else r_mul O d (pow_10_10 O e).
Definition mantissa (I F : list ascii) : real_t O :=
  match F with
  | [] => digits_real (drop_zeros I)
  | _ => r_add O (digits_real (drop_zeros I)) (shift_exponent (digits_real F) (- Z.of_nat (length F)))
  end.
Definition signed (neg : bool) (d : real_t O) : real_t O := if neg then r_opp O d else d.
End Value.

(* ---- exact arithmetic ---- *)
Inductive extended := Finite (q : Q) | Infinite (neg : bool) | NotANumber.
Definition exact : reals :=
  Reals Q extended (fun n => inject_Z (Z.of_N n)) Qplus Qmult Qdiv Qopp (fun e => inject_Z (10 ^ Z.of_nat e))
    (fun e => Qpower (inject_Z 10) (10 * e)) (-307) Finite Infinite NotANumber.
(* the number written: I.F times 10^e *)
Definition decimal (neg : bool) (I F : list ascii) (e : Z) : Q :=
  (inject_Z (if neg then - dec_value (I ++ F) else dec_value (I ++ F)) * Qpower (inject_Z 10) (e - Z.of_nat (length F)))%Q.

(* ---- IEEE 754, round to nearest even (definitions of Coq's standard library) ---- *)
Definition b64 (m e : Z) : spec_float := binary_normalize 53 1024 m e false.
(* double: std::pow(10, 10 * e) is infinite for the e > 308 it is called with; the table holds
   the doubles nearest to the powers of ten *)
Definition double : reals :=
  Reals spec_float spec_float (fun n => b64 (Z.of_N n) 0) (SFadd 53 1024) (SFmul 53 1024) (SFdiv 53 1024) SFopp
    (fun e => b64 (10 ^ Z.of_nat e) 0) (fun _ => S754_infinity false) (-307) (fun d => d) S754_infinity S754_nan.
(* float: computed in double, then rounded *)
Definition to_float (d : spec_float) : spec_float :=
  match d with
  | S754_finite neg m e => binary_normalize 24 128 (if neg then Zneg m else Zpos m) e false
  | _ => d
  end.
Definition float : reals :=
  Reals spec_float spec_float (fun n => b64 (Z.of_N n) 0) (SFadd 53 1024) (SFmul 53 1024) (SFdiv 53 1024) SFopp
    (fun e => b64 (10 ^ Z.of_nat e) 0) (fun _ => S754_infinity false) (-307) to_float S754_infinity S754_nan.
