(* Notions of the statements about parsing that speak of targets and converters. *)
From Verif Require Import Base Num_Model Num_Spec Parse_Model.
Local Open Scope nat_scope.

(* what a sequence of conversions does to the targets *)
Inductive results : list target -> list (list ascii) -> bool -> list target -> Prop :=
| res_nil : forall xs, results [] xs true []
| res_ok : forall t x v ts xs b ts',
    t_conv t x (t_val t) = Ok (true, v) -> results ts xs b ts' ->
    results (t :: ts) (x :: xs) b (Target (t_type t) (t_conv t) v :: ts')
| res_fail : forall t x v ts xs,
    t_conv t x (t_val t) = Ok (false, v) ->
    results (t :: ts) (x :: xs) false (Target (t_type t) (t_conv t) v :: ts).

(* the converter says of the text x what [ok] says *)
Definition behaves {T} (conv : converter T) (d : T) (ok : list ascii -> option T) (x : list ascii) : Prop :=
  match ok x with Some v => conv x d = Ok (true, v) | None => exists v, conv x d = Ok (false, v) end.

(* each target, the text written for it and the value it should get *)
Inductive writes : list target -> list (list ascii) -> list target -> Prop :=
| writes_nil : writes [] [] []
| writes_cons : forall t x v ts xs ts', t_conv t x (t_val t) = Ok (true, v) -> writes ts xs ts' ->
    writes (t :: ts) (x :: xs) (Target (t_type t) (t_conv t) v :: ts').

(* target t after it received v *)
Definition with_value (t : target) (v : t_type t) : target := Target (t_type t) (t_conv t) v.

(* converters that leave the target alone when they fail *)
Definition keeps {T} (conv : converter T) : Prop := forall x t v, conv x t = Ok (false, v) -> v = t.

(* integer fields: old target, text that type_to_string makes of v, new target *)
Inductive int_field : target -> list ascii -> target -> Prop :=
| if_u : forall T n top old v x, In (T, n, top) [(t_ushort, n_ushort, 65535); (t_uint, n_uint, 4294967295); (t_ullong, n_ullong, 18446744073709551615); (t_ulong, n_ulong, 4294967295)]%Z ->
    (0 <= v <= top)%Z -> format_unsigned v = Ok x ->
    int_field (Target Z (conv_unsigned T n) old) x (Target Z (conv_unsigned T n) v)
| if_s : forall T n bot top old v x, In (T, n, bot, top) [(t_short, n_short, -32768, 32767); (t_int, n_int, -2147483647, 2147483647); (t_llong, n_llong, -9223372036854775807, 9223372036854775807); (t_long, n_long, -2147483648, 2147483647)]%Z ->
    (bot <= v <= top)%Z -> format_signed T v = Ok x ->
    int_field (Target Z (conv_signed T n) old) x (Target Z (conv_signed T n) v).

Definition number_char (c : ascii) : Prop := c = "-"%char \/ is_digit c.

Inductive int_fields : list target -> list (list ascii) -> list target -> Prop :=
| ifs_nil : int_fields [] [] []
| ifs_cons : forall t x t' ts xs ts', int_field t x t' -> int_fields ts xs ts' ->
    int_fields (t :: ts) (x :: xs) (t' :: ts').

