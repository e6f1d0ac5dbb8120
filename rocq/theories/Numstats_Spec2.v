(* What the numbers in a list of doubles add up to. *)
From Verif Require Import Base Real_Spec2.
From Coq Require Import ZArith QArith SpecFloat.
Local Open Scope Q_scope.

(* doubles that hold the numbers qs: each is zero or not below 10^-290 *)
Definition holds_numbers (vs : list spec_float) (qs : list Q) : Prop :=
  Forall2 (fun v q => valid_binary 53 1024 v = true /\ value v = Some q /\ (q == 0 \/ Qpower (inject_Z 10) (-290) <= q)) vs qs.
Definition sum_of (qs : list Q) : Q := fold_right Qplus 0 qs.
