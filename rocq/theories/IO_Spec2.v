(* Notions of the statements about files that speak of the file system. *)
From Verif Require Import Base IO_Model.

(* afterwards the file n holds d, and nothing else has changed *)
Definition file_is (fs fs' : fsys) (n : nat) (d : list ascii) : Prop :=
  (forall m, f_data fs' m = if m =? n then Some d else f_data fs m) /\ f_read fs' = f_read fs /\ f_write fs' = f_write fs.

