(* Numbered tables of selections of letters. *)
From Verif Require Import Base Num_Spec Comb_Spec.
Local Open Scope nat_scope.

(* A, B, C, ... *)
Definition letter (i : nat) : ascii := ascii_of_nat (65 + i).

(* a selection of the numbers below n, and behind it the numbers that were not selected *)
Definition full (n : nat) (c : list nat) : list nat := c ++ others n c.

(* the number of a line, with zeros in front up to four digits *)
Definition line_number (i : nat) (t : list ascii) : Prop :=
  exists num, canonical num (Z.of_nat i) /\ t = repeat "0"%char (4 - length num) ++ num.

(* numbers written one behind the other *)
Definition run_together (xs : list nat) (t : list ascii) : Prop :=
  exists ts, Forall2 canonical ts (map Z.of_nat xs) /\ t = concat ts.

Definition new_line : list ascii := [ascii_of_nat 10].

(* i | numbers | letters *)
Definition line3 (i : nat) (xs : list nat) (l : list ascii) : Prop :=
  exists a b, line_number i a /\ run_together xs b /\
    l = a ++ str " | " ++ b ++ str " | " ++ map letter xs ++ new_line.
(* the same, with the letters twice *)
Definition line4 (i : nat) (xs : list nat) (l : list ascii) : Prop :=
  exists a b, line_number i a /\ run_together xs b /\
    l = a ++ str " | " ++ b ++ str " | " ++ map letter xs ++ str " | " ++ map letter xs ++ new_line.
(* i | letters *)
Definition line2 (i : nat) (xs : list nat) (l : list ascii) : Prop :=
  exists a, line_number i a /\ l = a ++ str " | " ++ map letter xs ++ new_line.

(* the lines of a table of lists, numbered from first on *)
Definition table (line : nat -> list nat -> list ascii -> Prop) (first : nat) (rows : list (list nat)) (t : list ascii) : Prop :=
  exists ls, t = concat ls /\ length ls = length rows /\
    forall i xs l, nth_error rows i = Some xs -> nth_error ls i = Some l -> line (first + i) xs l.
