(* What plain-old-data input and output should do, independent of the code. *)
From Verif Require Import Base.

(* the bytes of s cut into pieces of the given lengths *)
Fixpoint pieces {A} (sizes : list nat) (s : list A) : list (list A) :=
  match sizes with
  | [] => []
  | n :: sizes => firstn n s :: pieces sizes (skipn n s)
  end.

Definition total (sizes : list nat) : nat := fold_right Nat.add 0 sizes.
