(* The static table of n_choose_k. *)
From Verif Require Import Base Comb_Model.

(* The static table as any sequence of earlier calls with n <= 6074000999 can leave it. *)
Inductive after_calls : statics -> Prop :=
| no_calls : after_calls initial_statics
| one_more : forall st fuel n k st' r, after_calls st ->
    (n <= 6074000999)%N -> N.to_nat n < fuel -> n_choose_k fuel st n k = Ok (st', r) -> after_calls st'.

