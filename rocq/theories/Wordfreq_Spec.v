(* Words and how often they occur. *)
From Verif Require Import Base Codec_Spec.
From Coq Require Import Sorting.Sorted.
Local Open Scope nat_scope.

Definition letter (c : ascii) : bool := is_lower c || is_upper c.

(* the words of a text: its maximal runs of letters *)
Inductive words : list ascii -> list (list ascii) -> Prop :=
| w_end : words [] []
| w_other : forall c s ws, letter c = false -> words s ws -> words (c :: s) ws
| w_word : forall w s ws, w <> [] -> Forall (fun c => letter c = true) w ->
    (forall c r, s = c :: r -> letter c = false) -> words s ws -> words (w ++ s) (w :: ws).

(* the order of the dictionary, by character codes *)
Definition before (a b : list ascii) : Prop :=
  exists p, (exists y r, a = p /\ b = p ++ y :: r) \/
    exists x y r q, a = p ++ x :: r /\ b = p ++ y :: q /\ (N_of_ascii x < N_of_ascii y)%N.

Definition times (k : list ascii) (ws : list (list ascii)) : nat := count_occ (list_eq_dec ascii_dec) ws k.

(* one entry for each word that occurs, in order, with the number of times it does *)
Definition frequencies (ws : list (list ascii)) (m : list (list ascii * N)) : Prop :=
  StronglySorted (fun a b => before (fst a) (fst b)) m /\
  forall k v, In (k, v) m <-> In k ws /\ v = (N.of_nat (times k ws) mod 2 ^ 32)%N.
