(* combination_iterator: the post-increment, strtk.hpp 12802-12807; operator+= is ci_advance of Cmbx_Model. *)
From Verif Require Import Base Comb_Model.
Local Open Scope nat_scope.

(* operator++(int), 12802-12807: the copy returned, the iterator and the range *)
Definition ci_post {T} (lt : T -> T -> bool) (it : comb_iter) (s : list T) : outcome (comb_iter * (comb_iter * list T)) :=
  let tmp := it in
  r <- ci_next lt it s ;; Ok (tmp, r).
