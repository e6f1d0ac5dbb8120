(* What it means for the index structure of token_grid to stand for a list of rows. *)
From Verif Require Import Base Split_Model Grid_Spec Grid_Model.
Local Open Scope nat_scope.

Fixpoint indexed (s : nat) (rs : list (list tok)) : list row_ix :=
  match rs with
  | [] => []
  | r :: rs => (N.of_nat s, N.of_nat (s + length r - 1)) :: indexed (s + length r) rs
  end.
Definition small (n : nat) : Prop := (N.of_nat n < 2 ^ 32)%N.
Definition represents (g : grid) (rs : list (list tok)) : Prop :=
  tokens g = concat rs /\ rows g = indexed 0 rs /\ Forall (fun r => r <> []) rs /\ small (length (concat rs)).
(* the cached column counts are those of the rows *)
Definition counts_right (g : grid) (rs : list (list tok)) : Prop :=
  match rs with
  | [] => min_c g = size_max /\ max_c g = 0%N
  | _ => exists mn mx, min_c g = N.of_nat mn /\ max_c g = N.of_nat mx /\ least_length rs mn /\ greatest_length rs mx
  end.

(* every token lies in the buffer *)
Definition within (buf : list ascii) (rs : list (list tok)) : Prop :=
  Forall (Forall (fun t => fst t <= snd t /\ snd t <= length buf)) rs.

(* the row object for a row of the grid *)
Definition is_row (g : grid) (rw : row_type) (r : list tok) : Prop :=
  r_size rw = N.of_nat (length r) /\ r <> [] /\ small (length r) /\
  forall j t, nth_error r j = Some t -> row_token g rw (N.of_nat j) = Ok t.

(* the cells in column c of those of the rows l (row k first) that have the column and satisfy the predicate *)
Fixpoint chosen (p : N -> list tok -> bool) (c k : nat) (l : list (list tok)) : list tok :=
  match l with
  | [] => []
  | r :: l => match nth_error r c with
              | Some t => if p (N.of_nat k) r then t :: chosen p c (S k) l else chosen p c (S k) l
              | None => chosen p c (S k) l
              end
  end.
(* the row predicate and the callback of sequential_partition, on positions *)
Definition at_row (p : N -> list tok -> bool) (rs : list (list tok)) (i : nat) : bool :=
  match nth_error rs i with Some r => p (N.of_nat i) r | None => false end.
Definition on_nat {T} (f : T -> N * N -> T * bool) (x : T) (q : nat * nat) : T * bool := f x (N.of_nat (fst q), N.of_nat (snd q)).
(* rows for which p does not hold, the first being row k *)
Fixpoint survivors (p : N -> list tok -> bool) (k : nat) (l : list (list tok)) : list (list tok) :=
  match l with [] => [] | r :: l => if p (N.of_nat k) r then survivors p (S k) l else r :: survivors p (S k) l end.
(* tokens that trim_dquotes can handle: non-empty, in the buffer and not a lone quote, or
   empty with a character other than a quote at their position *)
Definition trimmable (buf : list ascii) (t : tok) : Prop :=
  (fst t < snd t /\ snd t <= length buf /\ sub buf t <> [quote]) \/
  (fst t = snd t /\ exists c, nth_error buf (fst t) = Some c /\ c <> quote).

(* removals, as calls and as what they do to the list of rows *)
Inductive grid_op :=
| Remove_row (i : nat)
| Remove_row_if (p : N -> list tok -> bool) (a b : nat)
| Remove_token_if (p : tok -> bool) (a b : nat)
| Enforce_column_count (a b : nat) (n : N)
| Enforce_min_max_column_count (a b : nat) (mn mx : N)
| Clear.
Definition run_op (g : grid) (op : grid_op) : outcome grid :=
  match op with
  | Remove_row i => remove_row g (N.of_nat i)
  | Remove_row_if p a b => ' (_, g) <- remove_row_if p g (N.of_nat a, N.of_nat b) ;; Ok g
  | Remove_token_if p a b => ' (_, g) <- remove_token_if p g (N.of_nat a, N.of_nat b) ;; Ok g
  | Enforce_column_count a b n => enforce_column_count g (N.of_nat a, N.of_nat b) n
  | Enforce_min_max_column_count a b mn mx => enforce_min_max_column_count g (N.of_nat a, N.of_nat b) mn mx
  | Clear => Ok (clear g)
  end.
Fixpoint run_ops (g : grid) (ops : list grid_op) : outcome grid :=
  match ops with [] => Ok g | op :: ops => g <- run_op g op ;; run_ops g ops end.
Definition in_rows (rs : list (list tok)) (a b : nat) : bool := (a <=? b) && (b <=? length rs).
Definition list_op (rs : list (list tok)) (op : grid_op) : list (list tok) :=
  match op with
  | Remove_row i => firstn i rs ++ skipn (S i) rs
  | Remove_row_if p a b => if in_rows rs a b then firstn a rs ++ survivors p a (slice rs a b) ++ skipn b rs else rs
  | Remove_token_if p a b =>
      if in_rows rs a b
      then firstn a rs ++ filter nonempty (map (filter (fun t => negb (p t))) (slice rs a b)) ++ skipn b rs
      else rs
  | Enforce_column_count a b n => if in_rows rs a b then filter (fun r => (n =? N.of_nat (length r))%N) rs else rs
  | Enforce_min_max_column_count a b mn mx =>
      if in_rows rs a b then filter (fun r => (mn <=? N.of_nat (length r)) && (N.of_nat (length r) <=? mx))%N rs else rs
  | Clear => []
  end.
