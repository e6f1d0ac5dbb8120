(* What the programs that fill containers should leave, and the lines of the trie programs. *)
From Verif Require Import Base Num_Spec.
Local Open Scope nat_scope.

(* how many of the values a container takes: all of them or the first n *)
Definition taken {V} (n : option nat) (vs : list V) : list V := match n with None => vs | Some n => firstn n vs end.
Definition enough {V} (n : option nat) (vs : list V) : bool := match n with None => true | Some n => n <=? length vs end.

(* two keys of the same length that agree except perhaps in the last element *)
Definition alike {K} (k k' : list K) : Prop := exists w c c', k = w ++ [c] /\ k' = w ++ [c'].
(* no two of the keys are alike *)
Fixpoint unlike {K} (keys : list (list K)) : Prop :=
  match keys with [] => True | k :: keys => (forall k', In k' keys -> ~ alike k k') /\ unlike keys end.

(* the line with the position of a key *)
Inductive numbered : nat -> list (list ascii) -> list ascii -> Prop :=
| no_keys : forall i, numbered i [] []
| one_more : forall i k ks x out, canonical x (Z.of_nat i) -> numbered (S i) ks out ->
    numbered i (k :: ks) (str "Found: (" ++ k ++ str "," ++ x ++ str ")" ++ [ascii_of_nat 10] ++ out).
