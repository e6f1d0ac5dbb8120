(* Numbers from a generator for [0,1), independent of the code. *)
From Verif Require Import Base Real_Spec2.
From Coq Require Import ZArith QArith SpecFloat.

(* a double that is at least 0 and below 1, and not subnormal *)
Definition unit_double (u : spec_float) : Prop :=
  valid_binary 53 1024 u = true /\
  exists q, value u = Some q /\ (q == 0 \/ Qpower (inject_Z 2) (-1022) <= q)%Q /\ (q < 1)%Q.
