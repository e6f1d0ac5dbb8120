(* Decimal notation. *)
From Verif Require Import Base.
Open Scope Z_scope.

Definition is_digit (c : ascii) : Prop := (48 <= N_of_ascii c <= 57)%N.
Definition digit_val (c : ascii) : Z := Z.of_N (N_of_ascii c) - 48.
(* value of a digit string, most significant first *)
Definition dec_value (s : list ascii) : Z := fold_left (fun a c => 10 * a + digit_val c) s 0.

Definition digits (ds : list ascii) : Prop := ds <> [] /\ Forall is_digit ds.

(* optional + and digits *)
Definition unsigned_text (s : list ascii) (v : Z) : Prop :=
  exists sign ds, (sign = [] \/ sign = ["+"%char]) /\ s = sign ++ ds /\ digits ds /\ v = dec_value ds.
(* optional sign and digits *)
Definition signed_text (s : list ascii) (v : Z) : Prop :=
  exists sign ds, s = sign ++ ds /\ digits ds /\
    ((sign = [] \/ sign = ["+"%char]) /\ v = dec_value ds \/ sign = ["-"%char] /\ v = - dec_value ds).

(* canonical notation: no superfluous zeros, minus sign only for negative numbers *)
Definition canonical (s : list ascii) (v : Z) : Prop :=
  exists ds, digits ds /\ (ds = ["0"%char] \/ hd "000"%char ds <> "0"%char) /\
    (0 <= v /\ s = ds /\ v = dec_value ds \/ v < 0 /\ s = "-"%char :: ds /\ v = - dec_value ds).
