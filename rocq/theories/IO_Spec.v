(* Specification of line and file operations, independent of the code. *)
From Verif Require Import Base.
Local Open Scope nat_scope.

(* the lines of a text: each ends with a newline, except that a non-empty rest counts *)
Inductive lines_of : list ascii -> list (list ascii) -> Prop :=
| lines_none : lines_of [] []
| lines_rest : forall l, l <> [] -> ~ In (ascii_of_nat 10) l -> lines_of l [l]
| lines_more : forall l s ls, ~ In (ascii_of_nat 10) l -> lines_of s ls -> lines_of (l ++ ascii_of_nat 10 :: s) (l :: ls).

(* what is left of a text after its first n lines *)
Inductive after_lines : nat -> list ascii -> list ascii -> Prop :=
| after_0 : forall s, after_lines 0 s s
| after_end : forall n, after_lines n [] []
| after_rest : forall n l, l <> [] -> ~ In (ascii_of_nat 10) l -> after_lines (S n) l []
| after_more : forall n l s r, ~ In (ascii_of_nat 10) l -> after_lines n s r ->
    after_lines (S n) (l ++ ascii_of_nat 10 :: s) r.

(* the length of the longest prefix of items accepted one after the other by a function
   with state; the state includes the refused item *)
Inductive accepted {St T} (f : St -> T -> St * bool) : St -> list T -> St -> nat -> bool -> Prop :=
| acc_all : forall st, accepted f st [] st 0 true
| acc_stop : forall st x xs st', f st x = (st', false) -> accepted f st (x :: xs) st' 0 false
| acc_next : forall st x xs st1 st' n b, f st x = (st1, true) -> accepted f st1 xs st' n b ->
    accepted f st (x :: xs) st' (S n) b.

(* values of the longest prefix of the texts that convert; whether that is all of them *)
Inductive values_of {T} (conv : list ascii -> option T) : list (list ascii) -> list T -> bool -> Prop :=
| vals_all : values_of conv [] [] true
| vals_stop : forall x xs, conv x = None -> values_of conv (x :: xs) [] false
| vals_next : forall x v xs vs b, conv x = Some v -> values_of conv xs vs b -> values_of conv (x :: xs) (v :: vs) b.

(* at most n of the items, where 0 means no limit *)
Definition limit {T} (n : nat) (ls : list T) : list T := if n =? 0 then ls else firstn n ls.

(* the longest prefix whose elements satisfy p *)
Definition prefix_len {T} (p : T -> bool) (s : list T) (n : nat) : Prop :=
  n <= length s /\ Forall (fun x => p x = true) (firstn n s) /\ (forall x, nth_error s n = Some x -> p x = false).
