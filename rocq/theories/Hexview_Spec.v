(* What a hex view looks like. *)
From Verif Require Import Base Codec_Spec.
Local Open Scope nat_scope.

Definition shown (c : ascii) : ascii := if printable c then c else "."%char.

(* value of upper-case hexadecimal digits *)
Definition hex_number (d : list ascii) : N :=
  fold_left (fun v c => (16 * v + match hex_value c with Some x => x | None => 0 end)%N) d 0%N.
Definition upper_hex (c : ascii) : Prop := In c (str "0123456789ABCDEF").

(* t shows the number a: upper-case hexadecimal digits without superfluous zeros, filled
   with f to ten characters *)
Definition address_text (f : ascii) (a : N) (t : list ascii) : Prop :=
  exists k d, t = repeat f k ++ d /\ d <> [] /\ Forall upper_hex d /\ hex_number d = a /\
    (d = ["0"%char] \/ hd zero d <> "0"%char) /\ (length t = 10 \/ k = 0 /\ 10 < length t).

(* the line of the characters x at address a *)
Definition line (f : ascii) (a : N) (x t : list ascii) : Prop :=
  exists addr, address_text f a addr /\
    t = addr ++ " "%char :: hex_text x ++ repeat " "%char (2 * (16 - length x) + 1) ++ map shown x ++ ["010"%char].

(* lines of sixteen characters each but the last, from address a on *)
Inductive view : ascii -> N -> list ascii -> list ascii -> Prop :=
| v_nil : forall f a, view f a [] []
| v_last : forall f a x t, 0 < length x -> length x < 16 -> line f a x t -> view f a x t
| v_line : forall f a x t s u, length x = 16 -> line "0" a x t -> view "0" ((a + 16) mod 2 ^ 64) s u ->
    view f a (x ++ s) (t ++ u).
