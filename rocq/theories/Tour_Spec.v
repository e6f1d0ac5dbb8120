(* What the programs of strtk_examples.cpp are about, independent of the model. *)
From Verif Require Import Base Num_Spec Parse_Spec Text_Spec.
Local Open Scope nat_scope.

(* searches for n1, n2, ... consecutive elements, each from the end of the last one found; they stop at
   the first that finds nothing *)
Inductive searches {A} (p : A -> bool) (s : list A) : nat -> list nat -> list (nat * nat) -> Prop :=
| search_end : forall a, searches p s a [] []
| search_none : forall a n ns, (forall r, ~ first_window p s n a r) -> searches p s a (n :: ns) []
| search_found : forall a n ns r rs, first_window p s n a r -> searches p s (snd r) ns rs -> searches p s a (n :: ns) (r :: rs).

(* the line about the n characters x found at position k *)
Definition result_line (n k : nat) (x l : list ascii) : Prop :=
  exists tn tk, canonical tn (Z.of_nat n) /\ canonical tk (Z.of_nat k) /\
    l = str "Result-" ++ repeat "0"%char (2 - length tn) ++ tn ++ str ": [" ++ x ++ str "] Location: [" ++ tk ++
        str "]] Length: [" ++ tn ++ str "]" ++ [ascii_of_nat 10].
Definition missing_line (n : nat) (l : list ascii) : Prop :=
  exists tn, canonical tn (Z.of_nat n) /\ l = str "No strings found for " ++ tn ++ str " consecutive values!" ++ [ascii_of_nat 10].

(* w from its beginning in pieces of n elements, as long as there are n *)
Definition pieces {A} (n : nat) (w : list A) (ps : list (list A)) : Prop :=
  exists r, w = concat ps ++ r /\ Forall (fun x => length x = n) ps /\ length r < n.

(* s is w1 c1 w2 c2 .. wn: the elements of the words satisfy p, the elements between them do not *)
Inductive runs {A} (p : A -> bool) : list A -> list (list A) -> Prop :=
| runs_end : forall w, Forall (fun x => p x = true) w -> runs p w [w]
| runs_more : forall w c s ws, Forall (fun x => p x = true) w -> p c = false -> runs p s ws -> runs p (w ++ c :: s) (w :: ws).

(* the line about the texts found for i; none if there are no texts *)
Definition group_line (word : list ascii) (i : nat) (texts : list (list ascii)) (l : list ascii) : Prop :=
  match texts with
  | [] => l = []
  | _ => exists ti, canonical ti (Z.of_nat i) /\
           l = ti ++ str " Consecutive " ++ word ++ str ": " ++ separated (str " ") texts ++ [ascii_of_nat 10]
  end.
