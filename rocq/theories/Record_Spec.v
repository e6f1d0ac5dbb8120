(* Records written as key-value pairs, independent of the parser. *)
From Verif Require Import Base Parse_Spec Num_Spec KV_Spec Record_Model.
Local Open Scope nat_scope.

(* pairs as text: key, d, value, with bd between the pairs *)
Definition pair_texts (d : ascii) (pairs : list (list ascii * list ascii)) : list (list ascii) := map (fun p => fst p ++ d :: snd p) pairs.
Definition record_text (bd d : ascii) (pairs : list (list ascii * list ascii)) : list ascii := separated [bd] (pair_texts d pairs).
Definition well_written (bd d : ascii) (pairs : list (list ascii * list ascii)) : Prop :=
  Forall (fun p => ~ In bd (fst p) /\ ~ In d (fst p) /\ snd p <> [] /\ ~ In bd (snd p)) pairs.
(* no two pairs are for the same variable *)
Definition distinct_variables (lookup : list ascii -> option nat) (pairs : list (list ascii * list ascii)) : Prop :=
  NoDup (concat (map (fun p => match lookup (fst p) with Some i => [i] | None => [] end) pairs)).

(* a list of ints, reals or texts with commas between them *)
Definition listed {V} (says : list ascii -> V -> Prop) (x : list ascii) (vs : list V) : Prop :=
  exists texts, texts <> [] /\ Forall (fun t => t <> [] /\ ~ In ","%char t) texts /\ x = separated (str ",") texts /\ Forall2 says texts vs.
Definition says_int (x : list ascii) (v : Z) : Prop := signed_text x v /\ (-2147483647 <= v <= 2147483647)%Z.
(* the six values of a record as texts; [says_real] is how reals are written *)
Definition record_fields {T} (says_real : list ascii -> T -> Prop) (cd : complex_data T) (pairs : list (list ascii * list ascii)) : Prop :=
  exists k0 k1 k2 k3 k4 k5 x0 x1 x3 x4 x5,
    pairs = [(k0, x0); (k1, x1); (k2, v2 cd); (k3, x3); (k4, x4); (k5, x5)] /\
    uint_key_text k0 0 /\ uint_key_text k1 1 /\ uint_key_text k2 2 /\ uint_key_text k3 3 /\ uint_key_text k4 4 /\ uint_key_text k5 5 /\
    says_int x0 (v0 cd) /\ says_real x1 (v1 cd) /\ listed says_int x3 (v3 cd) /\ listed says_real x4 (v4 cd) /\ listed eq x5 (v5 cd) /\
    Forall (fun p => snd p <> [] /\ ~ In "|"%char (snd p)) pairs.
