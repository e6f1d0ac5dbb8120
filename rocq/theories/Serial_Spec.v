(* What a saved list of records looks like, independent of the code. *)
From Verif Require Import Base Binary_Spec Num_Model Serial_Model.
Local Open Scope nat_scope.

(* sizes of the members on the usual platforms *)
Record shaped (p : person) : Prop := Shaped {
  sh_id : length (p_id p) = 8; sh_name : (N.of_nat (length (p_name p)) < 2 ^ 32)%N;
  sh_age : length (p_age p) = 4; sh_height : length (p_height p) = 8;
  sh_weight : length (p_weight p) = 4; sh_insane : length (p_is_insane p) = 1 }.

(* the members in order, the name after its length *)
Definition image (le : bool) (p : person) : list ascii :=
  p_id p ++ (host_bytes le 4 (N.of_nat (length (p_name p))) ++ p_name p) ++ p_age p ++ p_height p ++ p_weight p ++ p_is_insane p.
Definition images (le : bool) (ps : list person) : list ascii := concat (map (image le) ps).

(* height and weight are numbers: they compare equal to themselves *)
Definition numbers (same : list ascii -> list ascii -> bool) (p : person) : Prop :=
  same (p_height p) (p_height p) = true /\ same (p_weight p) (p_weight p) = true.

(* k is the number of records that fit into room bytes, not all of them *)
Definition first_not_fitting (le : bool) (ps : list person) (room k : nat) : Prop :=
  k < length ps /\ length (images le (firstn k ps)) <= room < length (images le (firstn (S k) ps)).

(* The integer types: how a value is written, how it is read, and the values that are read back
   (see C18, C19 for the ones that are not). *)
Inductive signed_integers : ity -> num -> Z -> Z -> Prop :=
| i_short : signed_integers t_short n_short (-32768) 32767
| i_int : signed_integers t_int n_int (-2147483647) 2147483647
| i_long : signed_integers t_long n_long (-2147483648) 2147483647
| i_llong : signed_integers t_llong n_llong (-9223372036854775807) 9223372036854775807.
Inductive integers : (Z -> outcome (list ascii)) -> (list ascii -> outcome (option Z)) -> Z -> Z -> Prop :=
| i_signed T n bottom top : signed_integers T n bottom top -> integers (format_signed T) (parse_signed T n) bottom top
| i_ushort : integers format_unsigned (parse_unsigned t_ushort n_ushort) 0 65535
| i_uint : integers format_unsigned (parse_unsigned t_uint n_uint) 0 4294967295
| i_ulong : integers format_unsigned (parse_unsigned t_ulong n_ulong) 0 4294967295
| i_ullong : integers format_unsigned (parse_unsigned t_ullong n_ullong) 0 18446744073709551615.
