(* Reports of matching lines. *)
From Verif Require Import Base Wordfreq_Spec.
From Coq Require Import Sorting.Sorted Sorting.Permutation.
Local Open Scope nat_scope.

(* l is xs in nondescending order *)
Definition sorted_list (xs l : list (list ascii)) : Prop := Permutation xs l /\ StronglySorted (fun a b => a = b \/ before a b) l.

(* out: for each text in order one line for each pattern in order that it matches *)
Inductive line_report (matches : list ascii -> list ascii -> Prop) (s : list ascii) : list (list ascii) -> list ascii -> Prop :=
| lr_nil : line_report matches s [] []
| lr_yes : forall p ps out, matches p s -> line_report matches s ps out ->
    line_report matches s (p :: ps) (p ++ str " matched " ++ s ++ ascii_of_nat 10 :: out)
| lr_no : forall p ps out, ~ matches p s -> line_report matches s ps out -> line_report matches s (p :: ps) out.
Definition report (matches : list ascii -> list ascii -> Prop) (ps ls : list (list ascii)) (out : list ascii) : Prop :=
  exists outs, Forall2 (fun s o => line_report matches s ps o) ls outs /\ out = concat outs.

(* no wildcard characters *)
Definition literal (l : list ascii) : Prop := Forall (fun c => c <> "*"%char /\ c <> "?"%char) l.
