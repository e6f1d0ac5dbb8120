(* Specification of key-value parsing and column selection, independent of the code. *)
From Verif Require Import Base Split_Spec Num_Spec Parse_Model Parse_Spec.
Local Open Scope nat_scope.

(* target t after it received v *)
Definition given (t : target) (v : t_type t) : target := Target (t_type t) (t_conv t) v.

(* the text f is key, delimiter, value: the key ends at the first delimiter, the value
   is not empty *)
Definition kv_field (d : ascii) (f k v : list ascii) : Prop := f = k ++ d :: v /\ ~ In d k /\ v <> [].

Section KV.
Variable d : ascii.
Variable lookup : list ascii -> option nat.     (* which variable a key text stands for *)

(* what one field does to the variables *)
Inductive field_result (f : list ascii) (vars : list target) : bool -> list target -> Prop :=
| fr_malformed : (forall k v, ~ kv_field d f k v) -> field_result f vars false vars
| fr_unknown : forall k v, kv_field d f k v -> lookup k = None -> field_result f vars false vars
| fr_convert : forall k v i t b x, kv_field d f k v -> lookup k = Some i -> nth_error vars i = Some t ->
    t_conv t v (t_val t) = Ok (b, x) -> field_result f vars b (upd vars i (given t x)).

(* all fields up to the first one that fails; empty fields do not count *)
Inductive strict_result : list (list ascii) -> list target -> bool -> list target -> Prop :=
| sr_nil : forall vars, strict_result [] vars true vars
| sr_empty : forall fs vars b vars', strict_result fs vars b vars' -> strict_result ([] :: fs) vars b vars'
| sr_ok : forall f fs vars vars1 b vars', f <> [] -> field_result f vars true vars1 ->
    strict_result fs vars1 b vars' -> strict_result (f :: fs) vars b vars'
| sr_stop : forall f fs vars vars1, f <> [] -> field_result f vars false vars1 ->
    strict_result (f :: fs) vars false vars1.

(* all fields; n of them fail *)
Inductive lenient_result : list (list ascii) -> list target -> nat -> list target -> Prop :=
| lr_nil : forall vars, lenient_result [] vars 0 vars
| lr_empty : forall fs vars n vars', lenient_result fs vars n vars' -> lenient_result ([] :: fs) vars n vars'
| lr_field : forall f fs vars vars1 b n vars', f <> [] -> field_result f vars b vars1 ->
    lenient_result fs vars1 n vars' -> lenient_result (f :: fs) vars (if b then n else S n) vars'.
End KV.

(* the fields of a text: every delimiter separates *)
Definition fields_of (d : ascii) (s : list ascii) (fs : list (list ascii)) : Prop :=
  exists toks, tokens_of (fun c => Ascii.eqb d c) s (fun f e => f) (fun f e => S f) toks /\ fs = map (sub s) toks.

(* the last registration of a key *)
Fixpoint last_registered {K} (eqb : K -> K -> bool) (regs : list (K * nat)) (k : K) : option nat :=
  match regs with
  | [] => None
  | (k', i) :: rs => match last_registered eqb rs k with
                     | Some j => Some j
                     | None => if eqb k' k then Some i else None
                     end
  end.

(* strictly increasing *)
Fixpoint ascending (cols : list nat) : Prop :=
  match cols with
  | a :: (b :: _) as r => a < b /\ ascending r
  | _ => True
  end.

(* the columns themselves *)
Definition columns_of (texts : list (list ascii)) (cols : list nat) (xs : list (list ascii)) : Prop :=
  length xs = length cols /\ forall i c, nth_error cols i = Some c -> nth_error xs i = nth_error texts c.

(* conversion of texts, one after the other, into the elements of a sequence *)
Inductive seq_results {T} (conv : list ascii -> T -> outcome (bool * T)) : list (list ascii) -> list T -> bool -> list T -> Prop :=
| sq_nil : forall sq, seq_results conv [] sq true sq
| sq_ok : forall x xs t v sq b sq', conv x t = Ok (true, v) -> seq_results conv xs sq b sq' ->
    seq_results conv (x :: xs) (t :: sq) b (v :: sq')
| sq_fail : forall x xs t v sq, conv x t = Ok (false, v) -> seq_results conv (x :: xs) (t :: sq) false (v :: sq).

(* a text that names the number n: at most 19 digits, and nothing else; no digit at all
   names 0 *)
Definition uint_key_text (k : list ascii) (n : nat) : Prop :=
  Forall is_digit k /\ length k <= 19 /\ dec_value k = Z.of_nat n.

(* What a program does with util::value objects, and which variable each of them is
   then bound to.  None: no object; Some None: bound to nothing. *)
Inductive vop := VNew (a : nat) | VBind (a i : nat) | VAssign (b a : nat) | VEnd (a : nat).
Definition bindings := list (option (option nat)).
Inductive vstep : bindings -> vop -> bindings -> Prop :=
| vs_new : forall w a, a < length w -> vstep w (VNew a) (upd w a (Some None))
| vs_bind : forall w a i, a < length w -> vstep w (VBind a i) (upd w a (Some (Some i)))
| vs_assign : forall w b a i old, nth_error w a = Some (Some (Some i)) -> nth_error w b = Some (Some old) ->
    vstep w (VAssign b a) (upd w b (Some (Some i)))
| vs_assign_empty : forall w b a old, nth_error w a = Some (Some None) -> nth_error w b = Some (Some old) ->
    vstep w (VAssign b a) w
| vs_end : forall w a, a < length w -> vstep w (VEnd a) (upd w a None).
Inductive vsteps : bindings -> list vop -> bindings -> Prop :=
| vss_nil : forall w, vsteps w [] w
| vss_cons : forall w o w1 os w2, vstep w o w1 -> vsteps w1 os w2 -> vsteps w (o :: os) w2.
