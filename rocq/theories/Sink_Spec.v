(* Specification of the sinks. *)
From Verif Require Import Base Codec_Spec.
Local Open Scope nat_scope.

Definition hex_text_digits (d : list ascii) : Prop := Forall (fun c => hex_value c <> None) d.
(* value of a digit string, most significant digit first *)
Definition hex_number (d : list ascii) : N :=
  fold_left (fun v c => (16 * v + match hex_value c with Some x => x | None => 0 end)%N) d 0%N.
(* value of an unsigned integer object on a little-endian machine *)
Fixpoint little_endian (t : list ascii) : N :=
  match t with [] => 0%N | c :: t => (N_of_ascii c + 256 * little_endian t)%N end.
(* s is d with an optional prefix 0x or 0X.  A prefix needs something behind it. *)
Definition hex_written (s d : list ascii) : Prop :=
  (s = d /\ ~ (exists e, e <> [] /\ (d = str "0x" ++ e \/ d = str "0X" ++ e))) \/
  (d <> [] /\ (s = str "0x" ++ d \/ s = str "0X" ++ d)).
