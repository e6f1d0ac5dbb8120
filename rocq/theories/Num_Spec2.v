(* Notions of the statements about numbers that speak of the types. *)
From Verif Require Import Base Num_Model Num_Spec.
Open Scope Z_scope.

(* what is written for v is its canonical text, and what is read from it is v *)
Definition unsigned_round_trip (T : ity) (n : num) (top : Z) : Prop :=
  forall v, 0 <= v <= hi T ->
    exists s, format_unsigned v = Ok s /\ canonical s v /\
              (v <= top -> parse_unsigned T n s = Ok (Some v)).
Definition signed_round_trip (T : ity) (n : num) (bottom top : Z) : Prop :=
  forall v, lo T <= v <= hi T ->
    exists s, format_signed T v = Ok s /\ canonical s v /\
              (bottom <= v <= top -> parse_signed T n s = Ok (Some v)).

(* an unsigned type of w bits *)
Definition unsigned_type (T : ity) (w : nat) : Prop :=
  lo T = 0 /\ hi T = 2 ^ Z.of_nat w - 1 /\ sgn T = false /\ (w <= 64)%nat.

