(* What a prefix trie should answer, as a function of the list of insertions made
   so far (oldest first). *)
From Verif Require Import Base.

Section Spec.
Context {K V : Type}.

(* p is a prefix of k *)
Definition prefix_of (p k : list K) : Prop := exists r, k = p ++ r.

Definition stored_prefix (hist : list (list K * V)) (p : list K) : Prop :=
  p <> [] /\ exists k v, In (k, v) hist /\ prefix_of p k.

(* v is the value of the last insertion of a key satisfying P *)
Definition last_value (P : list K -> Prop) (hist : list (list K * V)) (v : V) : Prop :=
  exists h1 k h2, hist = h1 ++ (k, v) :: h2 /\ P k /\ forall k' v', In (k', v') h2 -> ~ P k'.

(* non-empty keys of the same length that agree with k except possibly in the
   last element *)
Definition sibling (k k' : list K) : Prop :=
  exists w c c', k = w ++ [c] /\ k' = w ++ [c'].

End Spec.
