(* What the fixed-size memory helpers should do, stated without their loops. *)
From Coq Require Import List NArith Ascii.
From Verif Require Import Mem_Model.

(* A pointer that may be used for loads of any integer type up to eight
   bytes; no condition on machines that do not care. *)
Definition aligned8 (strict : bool) (b : block) (o : nat) : Prop :=
  strict = true -> exists q, (addr b + N.of_nat o = 8 * q)%N.

(* [a] with the elements from position i on overwritten by [new] *)
Definition overwritten {T} (a : list T) (i : nat) (new : list T) : list T :=
  (firstn i a ++ new ++ skipn (i + length new) a)%list.
