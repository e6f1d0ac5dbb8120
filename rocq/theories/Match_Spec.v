(* Specification of wildcard matching. *)
From Verif Require Import Base.

Section Glob.
  Context {A : Type}.
  Variable cmp : A -> A -> bool.
  Variables zm zo : A.

  (* documented reading: zm stands for zero or more characters, zo for zero or one *)
  Inductive glob : list A -> list A -> Prop :=
  | g_nil : glob [] []
  | g_many0 p d : glob p d -> glob (zm :: p) d
  | g_many p x d : glob (zm :: p) d -> glob (zm :: p) (x :: d)
  | g_one0 p d : glob p d -> glob (zo :: p) d
  | g_one p x d : glob p d -> glob (zo :: p) (x :: d)
  | g_char c p x d : c <> zm -> c <> zo -> cmp c x = true -> glob p d -> glob (c :: p) (x :: d).

  (* what is implemented for patterns without zm: every zo takes exactly one character,
     except that a zo at the very end may take none *)
  Inductive one_each : list A -> list A -> Prop :=
  | o_nil : one_each [] []
  | o_last : one_each [zo] []
  | o_one p x d : one_each p d -> one_each (zo :: p) (x :: d)
  | o_char c p x d : c <> zo -> cmp c x = true -> one_each p d -> one_each (c :: p) (x :: d).
End Glob.
