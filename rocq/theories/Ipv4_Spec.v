(* Which texts the IPv4 parser takes, independent of the model. *)
From Verif Require Import Base Num_Spec.
Local Open Scope nat_scope.

(* the parts between the dots: joined with dots they give the text, and none has a dot *)
Inductive dotted : list ascii -> list (list ascii) -> Prop :=
| dt_last : forall x, ~ In "."%char x -> dotted x [x]
| dt_more : forall x s xs, ~ In "."%char x -> dotted s xs -> dotted (x ++ "."%char :: s) (x :: xs).

(* a part taken as the octet c: at most 19 digits and nothing else, whose value modulo
   2^32 is c *)
Definition octet_text (x : list ascii) (c : ascii) : Prop :=
  Forall is_digit x /\ length x <= 19 /\ (dec_value x mod 2 ^ 32)%Z = Z.of_N (N_of_ascii c).

(* the parts taken one after the other, up to the first that is not an octet *)
Inductive octets_taken : list (list ascii) -> list ascii -> bool -> list ascii -> Prop :=
| ot_nil : forall os, octets_taken [] os true os
| ot_one : forall x xs c o os b os', octet_text x c -> octets_taken xs os b os' ->
    octets_taken (x :: xs) (o :: os) b (c :: os')
| ot_stop : forall x xs os, (forall c, ~ octet_text x c) -> octets_taken (x :: xs) os false os.
