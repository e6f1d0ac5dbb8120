(* Specifications for removal, trimming, searching and replacement. *)
From Verif Require Import Base.

(* each element paired with its predecessor in the original sequence *)
Definition with_prev {A} (l : list A) : list (option A * A) :=
  combine (None :: map Some l) l.

(* drop exactly the elements x whose predecessor y satisfies [drop y x] *)
Definition drop_after {A} (drop : A -> A -> bool) (l : list A) : list A :=
  map snd (filter (fun q => match fst q with
                            | None => true
                            | Some y => negb (drop y (snd q))
                            end) (with_prev l)).

(* first occurrences of each element, in order *)
Definition first_occurrences {A} (eqb : A -> A -> bool) (l : list A) : list A :=
  map snd (filter (fun q => negb (existsb (eqb (snd q)) (firstn (fst q) l)))
                  (combine (seq 0 (length l)) l)).

(* t is s without its maximal prefix of p-elements *)
Definition trimmed_left {A} (p : A -> bool) (s t : list A) : Prop :=
  exists pre, s = pre ++ t /\ Forall (fun x => p x = true) pre /\
              (forall x t', t = x :: t' -> p x = false).

(* t is s without its maximal suffix of p-elements *)
Definition trimmed_right {A} (p : A -> bool) (s t : list A) : Prop :=
  exists suf, s = t ++ suf /\ Forall (fun x => p x = true) suf /\
              (forall t' x, t = t' ++ [x] -> p x = false).

Section Occurrences.
  Context {A : Type}.
  Variable eqv : A -> A -> bool.

  (* pat occurs in s at offset k *)
  Definition occurs_at (pat s : list A) (k : nat) : Prop :=
    k + length pat <= length s /\
    forall i x y, nth_error pat i = Some y -> nth_error s (k + i) = Some x -> eqv x y = true.

  (* the leftmost non-overlapping occurrences from offset a on *)
  Inductive leftmost_occs (pat s : list A) : nat -> list nat -> Prop :=
  | lo_none a :
      (forall k, a <= k -> ~ occurs_at pat s k) -> leftmost_occs pat s a []
  | lo_some a k ks :
      a <= k -> occurs_at pat s k ->
      (forall j, a <= j < k -> ~ occurs_at pat s j) ->
      leftmost_occs pat s (k + length pat) ks ->
      leftmost_occs pat s a (k :: ks).

  (* s from offset a on, with the occurrences at ks (each n elements long)
     replaced by r *)
  Fixpoint splice (s : list A) (n : nat) (r : list A) (a : nat) (ks : list nat) : list A :=
    match ks with
    | [] => skipn a s
    | k :: ks' => sub s (a, k) ++ r ++ splice s n r (k + n) ks'
    end.
End Occurrences.
