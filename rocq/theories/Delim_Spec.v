(* What a C string means; independent of the code. *)
From Verif Require Import Base.

(* the bytes that may be read at a pointer begin with the text t and its terminating NUL *)
Definition c_text (bytes t : list ascii) : Prop := ~ In zero t /\ exists rest, bytes = t ++ zero :: rest.

(* membership *)
Definition among {T} (eqb : T -> T -> bool) (ds : list T) (x : T) : bool := existsb (fun d => eqb d x) ds.
