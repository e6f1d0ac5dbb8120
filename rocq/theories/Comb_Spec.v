(* Subsets, permutations and binomial coefficients, independent of the code. *)
From Verif Require Import Base.

(* c is the binomial coefficient (n choose k), k <= n *)
Definition is_binomial (n k c : N) : Prop :=
  (c * (N.of_nat (fact (N.to_nat k)) * N.of_nat (fact (N.to_nat (n - k)))) = N.of_nat (fact (N.to_nat n)))%N.

(* All selections of k elements of l at increasing positions, in lexicographic
   order of the positions. *)
Fixpoint choices {A} (k : nat) (l : list A) : list (list A) :=
  match k, l with
  | 0, _ => [[]]
  | S _, [] => []
  | S k', x :: l' => map (cons x) (choices k' l') ++ choices k l'
  end.

(* all ways of taking one element out of l: (element, what remains), by position *)
Fixpoint picks {A} (l : list A) : list (A * list A) :=
  match l with
  | [] => []
  | x :: l' => (x, l') :: map (fun '(y, r) => (y, x :: r)) (picks l')
  end.

(* All arrangements of l in lexicographic order of positions ([n]: length of l). *)
Fixpoint arrangements {A} (n : nat) (l : list A) : list (list A) :=
  match n with
  | 0 => [[]]
  | S n' => flat_map (fun '(x, r) => map (cons x) (arrangements n' r)) (picks l)
  end.

(* lexicographic order *)
Inductive lex {A} (lt : A -> A -> Prop) : list A -> list A -> Prop :=
| lex_nil : forall y l, lex lt [] (y :: l)
| lex_lt : forall x y l l', lt x y -> lex lt (x :: l) (y :: l')
| lex_eq : forall x l l', lex lt l l' -> lex lt (x :: l) (x :: l').

(* the positions 0..r-1 that are not in c *)
Definition others (r : nat) (c : list nat) : list nat :=
  filter (fun i => negb (existsb (Nat.eqb i) c)) (seq 0 r).

(* xs are elements of s at pairwise different positions *)
Definition distinct_positions {A} (s xs : list A) : Prop :=
  exists ps, NoDup ps /\ length ps = length xs /\ forall i, i < length ps ->
    exists p, nth_error ps i = Some p /\ nth_error s p = nth_error xs i /\ p < length s.

(* c consists of elements of l in their order *)
Inductive subseq {A} : list A -> list A -> Prop :=
| subseq_nil : subseq [] []
| subseq_take : forall x c l, subseq c l -> subseq (x :: c) (x :: l)
| subseq_skip : forall x c l, subseq c l -> subseq c (x :: l).

(* xs are the elements of s at the positions ps *)
Definition elements_at {A} (s : list A) (ps : list nat) (xs : list A) : Prop :=
  Forall2 (fun p x => nth_error s p = Some x) ps xs.
