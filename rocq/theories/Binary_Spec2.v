(* Notions of the statements about binary::reader and writer that speak of the calls. *)
From Verif Require Import Base Binary_Model Binary_Spec.
Local Open Scope nat_scope.

(* no vector of PODs anywhere in the type *)
Fixpoint pod_vec_free (t : ty) : bool :=
  match t with
  | TVec t' => negb (is_pod t') && pod_vec_free t'
  | TSeq t' | TSet t' => pod_vec_free t'
  | TPair a b => pod_vec_free a && pod_vec_free b
  | _ => true
  end.

(* the preconditions of the calls of a history *)
Definition rop_ok (ei : bool) (o : rop) : Prop :=
  match o with
  | RRead t _ => ei = false \/ pod_vec_free t = true
  | RSeek n => n <> (- 2 ^ 31)%Z
  | _ => True
  end.

Definition wop_ok (ei : bool) (o : wop) : Prop :=
  match o with
  | WWrite t v => has_ty ei t v
  | WText text size rpad _ => rpad = false \/ length text <= 1 \/ (size <= N.of_nat (length text))%N
  | _ => True
  end.

(* call sequences in which every reset_to_mark is preceded by its own mark *)
Inductive balanced {O} (is_mark is_reset : O -> Prop) : list O -> Prop :=
| bal_nil : balanced is_mark is_reset []
| bal_op : forall o l, ~ is_mark o -> ~ is_reset o -> balanced is_mark is_reset l -> balanced is_mark is_reset (o :: l)
| bal_pair : forall m l r l', is_mark m -> is_reset r -> balanced is_mark is_reset l -> balanced is_mark is_reset l' ->
    balanced is_mark is_reset (m :: l ++ r :: l').

