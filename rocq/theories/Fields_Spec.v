(* What the records of parse_example11 have to look like, independent of the converters. *)
From Verif Require Import Base Split_Spec Parse_Spec Num_Spec Codec_Spec Edit_Spec.
Local Open Scope nat_scope.

(* an int that the library can read *)
Definition int_text (x : list ascii) (v : Z) : Prop := signed_text x v /\ (-2147483647 <= v <= 2147483647)%Z.

(* the text begins with the fields var, name, colon, the word integer in any case, equal sign, number *)
Definition declares (s name : list ascii) (v : Z) : Prop :=
  exists ty x more, compressed_tokens (str " ;") s (str "var" :: name :: str ":" :: ty :: str "=" :: x :: more) /\
    map upper ty = str "INTEGER" /\ int_text x v.

(* fits the pattern of the first field: up to the first n after "to" everything is free *)
Definition to_n (x : list ascii) : Prop :=
  exists u c, x = str "to" ++ u ++ str "n" ++ c /\ ~ In "n"%char u /\ length c <= 1.
Definition token_ (x : list ascii) : Prop := exists c, x = str "token" ++ c /\ length c <= 1.

(* order of texts: at the first difference the smaller code, or the beginning of the other *)
Definition code_lt (a b : ascii) : Prop := (N_of_ascii a < N_of_ascii b)%N.
Definition text_before (a b : list ascii) : Prop :=
  (exists c r, b = a ++ c :: r) \/ (exists p c d r r', a = p ++ c :: r /\ b = p ++ d :: r' /\ code_lt c d).

Definition trimmed_both (p : ascii -> bool) (s t : list ascii) : Prop := exists mid, trimmed_left p s mid /\ trimmed_right p mid t.
(* the trailing characters removed, but one is left where nothing else is *)
Definition trimmed_end (p : ascii -> bool) (s t : list ascii) : Prop :=
  if forallb p s then t = firstn 1 s else trimmed_right p s t.
