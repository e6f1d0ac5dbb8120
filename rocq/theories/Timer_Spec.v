(* Measuring time, independent of the model: a clock is read as seconds and microseconds. *)
From Verif Require Import Base.
From Coq Require Import ZArith.
Local Open Scope Z_scope.

(* what a clock can show *)
Definition clock (c : Z * Z) : Prop := - 2 ^ 63 <= fst c < 2 ^ 63 /\ 0 <= snd c < 1000000.
(* microseconds since the epoch *)
Definition instant (c : Z * Z) : Z := 1000000 * fst c + snd c.

(* the calls of start and stop on one timer, with the clock at the time of each *)
Inductive call := Start (now : Z * Z) | Stop (now : Z * Z).
(* when the last start (stop) of a history was; the epoch if there was none *)
Definition last_start (h : list call) : Z * Z := fold_left (fun c x => match x with Start now => now | Stop _ => c end) h (0, 0).
Definition last_stop (h : list call) : Z * Z := fold_left (fun c x => match x with Stop now => now | Start _ => c end) h (0, 0).
(* whether the last call was a start *)
Definition running (h : list call) : bool := match last h (Stop (0, 0)) with Start _ => true | Stop _ => false end.
