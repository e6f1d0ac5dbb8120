(* How far a floating point number is from the number meant. *)
From Verif Require Import Base Real_Spec.
From Coq Require Import ZArith QArith SpecFloat.
Local Open Scope Q_scope.

(* the number a floating point value stands for *)
Definition magnitude (m : positive) (e : Z) : Q := inject_Z (Zpos m) * Qpower (inject_Z 2) e.
Definition value (d : spec_float) : option Q :=
  match d with
  | S754_zero _ => Some 0
  | S754_finite neg m e => Some (if neg then - magnitude m e else magnitude m e)
  | _ => None
  end.

(* one rounding to 53 bits changes a number by a factor of at most this, up or down *)
Definition rounding : Q := 9007199254740992 # 9007199254740991.
(* y is x after at most k roundings *)
Definition within (k : nat) (x y : Q) : Prop :=
  exists f, / Qpower rounding (Z.of_nat k) <= f <= Qpower rounding (Z.of_nat k) /\ y == x * f.
(* how often the evaluation of a number I.F e rounds: not for the first 15 digits, twice for each
   further one, once for the sum of the two parts, and once for each multiplication or division by
   a power of ten, which is itself rounded above 10^22 *)
Definition digit_roundings (ds : list ascii) : nat := 2 * (length (drop_zeros ds) - 15).
Definition power_roundings (e : nat) : nat := if Nat.leb e 22 then 1 else 2.
Definition roundings (I F : list ascii) (e : Z) : nat :=
  match F with
  | [] => digit_roundings I
  | _ => Nat.max (digit_roundings I) (digit_roundings F + power_roundings (length F)) + 1
  end + (if (e =? 0)%Z then 0 else power_roundings (Z.abs_nat e)).
(* numbers whose evaluation neither overflows nor underflows *)
Definition medium (x : Q) : Prop := Qpower (inject_Z 10) (-307) <= x <= Qpower (inject_Z 10) 308.
Definition medium_float (x : Q) : Prop := Qpower (inject_Z 10) (-37) <= x <= Qpower (inject_Z 10) 38.
