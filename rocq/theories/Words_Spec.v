(* Words of a text and the lists the two text parsers are to make of them. *)
From Verif Require Import Base Codec_Spec Parse_Spec Numstats_Spec.
Local Open Scope nat_scope.

(* what separates words: blanks, tabs, line ends, and the digits and punctuation of ASCII *)
Definition gap (c : ascii) : bool :=
  let n := nat_of_ascii c in
  (n =? 9) || (n =? 10) || (n =? 13) ||
  (32 <=? n) && (n <=? 64) || (91 <=? n) && (n <=? 96) || (123 <=? n) && (n <=? 126).
Definition gaps : list ascii := filter gap (map ascii_of_nat (seq 0 256)).
(* the words: maximal runs of other characters *)
Definition text_words (text : list ascii) : list (list ascii) := pieces gaps text.

Definition starts_with (p : ascii -> bool) (l : list ascii) : bool := match l with c :: _ => p c | [] => false end.
Definition ends_with (p : ascii -> bool) (l : list ascii) : bool := starts_with p (rev l).
Definition empty_if (b : bool) : list (list ascii) := if b then [[]] else [].
(* the words of a line, with an empty one before a gap at its start and one after a gap at its end *)
Definition framed (l : list ascii) : list (list ascii) :=
  empty_if (starts_with gap l) ++ text_words l ++ empty_if (ends_with gap l).

(* words of no interest *)
Definition stop_words : list (list ascii) :=
  map str ["as"; "at"; "but"; "by"; "for"; "in"; "like"; "next"; "of"; "on"; "opposite"; "out"; "past"; "to"; "up"; "via"]%string.
