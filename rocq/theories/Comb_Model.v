(* Combinatorics and random selection: strtk.hpp 11987-12157, 12177-12215,
   12457-12842. *)
From Verif Require Import Base.

Definition u64 (x : N) : N := (x mod 2 ^ 64)%N.

(* table[i] for an index of type size_t *)
Definition rdN {A} (t : list A) (i : N) : outcome A :=
  if (i <? N.of_nat (length t))%N then rd t (N.to_nat i) else UB.
Definition wrN {A} (t : list A) (i : N) (v : A) : outcome (list A) :=
  if (i <? N.of_nat (length t))%N then wr t (N.to_nat i) v else UB.

(* ------------------------------------------------------------------ *)
(* n_choose_k, 12457-12543 *)

(* n_choose_k_impl::lookup, 12476-12480; [dim] is dimension_, already halved *)
Definition ck_index (dim n k : N) : N := u64 (dim * n + N.min k (u64 (n + 2 ^ 64 - k))).

(* n_choose_k_impl::compute, 12482-12499 *)
Fixpoint ck_compute (fuel : nat) (dim n k : N) (t : list N) : outcome (list N * N) :=
  match fuel with
  | 0 => OutOfFuel
  | S f =>
      if ((k =? 0) || (k =? n))%N then Ok (t, 1%N)
      else
        v1 <- rdN t (ck_index dim (n - 1) (k - 1)) ;;
        ' (t, v1) <- (if (v1 =? 0)%N then
                       ' (t, v) <- ck_compute f dim (n - 1) (k - 1) t ;;
                       t <- wrN t (ck_index dim (n - 1) (k - 1)) v ;; Ok (t, v)
                     else Ok (t, v1)) ;;
        v2 <- rdN t (ck_index dim (n - 1) k) ;;
        ' (t, v2) <- (if (v2 =? 0)%N then
                       ' (t, v) <- ck_compute f dim (n - 1) k t ;;
                       t <- wrN t (ck_index dim (n - 1) k) v ;; Ok (t, v)
                     else Ok (t, v2)) ;;
        Ok (t, u64 (v1 + v2))
  end.

(* the function's static variables, 12512-12515 *)
Record statics := Statics { static_table : list N; static_table_initialized : bool }.
Definition static_table_dim : N := 100.
Definition static_table_size : N := 5000.
Definition initial_statics : statics := Statics (repeat 0%N 5000) false.

(* 12457-12543.  Failure of new (12533) is not modelled; the recursion depth is
   bounded by fuel. *)
Definition n_choose_k (fuel : nat) (st : statics) (n k : N) : outcome (statics * N) :=
  (if n <? k then Ok (st, 0)
   else if n =? 0 then Ok (st, 0)
   else if k =? 0 then Ok (st, 1)
   else if n =? k then Ok (st, 1)
   else if k =? 1 then Ok (st, n)
   else
     let st := if negb (static_table_initialized st) && (n <=? static_table_dim)
               then Statics (repeat 0 5000) true else st in
     let table_size := u64 (u64 (n * (n / 2)) + N.land n 1) in
     if table_size <=? static_table_size then
       ' (t, r) <- ck_compute fuel (static_table_dim / 2) n k (static_table st) ;;
       Ok (Statics t (static_table_initialized st), r)
     else
       ' (_, r) <- ck_compute fuel (n / 2) n k (repeat 0 (N.to_nat table_size)) ;;
       Ok (st, r))%N.

(* ------------------------------------------------------------------ *)
(* nth_combination_sequence, 12557-12617: the part up to 12595 that computes
   index_list.  Indices are size_t, i.e. 64 bit. *)
Definition comb_indices (fuel : nat) (st : statics) (n : N) (r k : N) : outcome (statics * list N) :=
  let n := u64 (n + 1) in
  let il := repeat 0%N (N.to_nat k) in
  ' (st, il, x) <-
    loop (S (N.to_nat (u64 (k + 2 ^ 64 - 1))))
      (fun '(st, il, x, i) =>
         if negb (i <=? u64 (k + 2 ^ 64 - 1))%N then Ok (inr (st, il, x))
         else
           il <- wrN il (i - 1) 0%N ;;
           il <- (if (1 <? i)%N then v <- rdN il (i - 2) ;; wrN il (i - 1) v else Ok il) ;;
           ' (st, il, x, j) <-
             loop fuel
               (fun '(st, il, x) =>
                  v <- rdN il (i - 1) ;;
                  il <- wrN il (i - 1) (u64 (v + 1)) ;;
                  v <- rdN il (i - 1) ;;
                  ' (st, j) <- n_choose_k fuel st (u64 (r + 2 ^ 64 - v)) (u64 (k + 2 ^ 64 - i)) ;;
                  let x := u64 (x + j) in
                  if (x <? n)%N then Ok (inl (st, il, x)) else Ok (inr (st, il, x, j)))
               (st, il, x) ;;
           Ok (inl (st, il, u64 (x + 2 ^ 64 - j), u64 (i + 1))))
      (st, il, 0%N, 1%N) ;;
  v <- (if (2 <=? k)%N then rdN il (k - 2) else UB) ;;  (* index_list[k - 2] on 12593 *)
  il <- wrN il (k - 1) (u64 (v + n + 2 ^ 64 - x)) ;;
  (* 12595 *)
  il <- for_up 0 (length il) (fun i il => v <- rd il i ;; wr il i (u64 (v + 2 ^ 64 - 1))) il ;;
  Ok (st, il).

(* exist_table and the indices missing from index_list, 12601-12615 *)
Definition missing_indices (r : N) (il : list N) : outcome (list N) :=
  et <- for_up 0 (length il)
          (fun i et => v <- rd il i ;; wrN et v 1%N) (repeat 0%N (N.to_nat r)) ;;
  for_up 0 (length et)
    (fun i acc => e <- rd et i ;; if (e =? 0)%N then Ok (acc ++ [N.of_nat i]) else Ok acc) [].

(* nth_combination_sequence with out a back_inserter: what is appended. *)
Definition nth_combination_back (fuel : nat) (st : statics) (n r k : N) (complete_index : bool)
  : outcome (statics * list N) :=
  ' (st, il) <- comb_indices fuel st n r k ;;
  if complete_index then ms <- missing_indices r il ;; Ok (st, il ++ ms)
  else Ok (st, il).

(* copying xs to a buffer through a plain iterator at position i *)
Definition copy_out {A} (buf : list A) (i : nat) (xs : list A) : outcome (list A) :=
  for_up 0 (length xs) (fun j b => x <- rd xs j ;; wr b (i + j) x) buf.

(* nth_combination_sequence with out a plain iterator to the start of buf: the
   iterator std::copy returns (12597) is dropped, so line 12612 writes from the
   start again. *)
Definition nth_combination_buffer (fuel : nat) (st : statics) (n r k : N) (complete_index : bool)
    (buf : list N) : outcome (statics * list N) :=
  ' (st, il) <- comb_indices fuel st n r k ;;
  buf <- copy_out buf 0 il ;;
  if complete_index then
    ms <- missing_indices r il ;; buf <- copy_out buf 0 ms ;; Ok (st, buf)
  else Ok (st, buf).

(* nth_combination_sequence over a range, 12619-12635 *)
Definition nth_combination_range {T} (fuel : nat) (st : statics) (n k : N) (s : list T)
    (complete_index : bool) : outcome (statics * list T) :=
  ' (st, il) <- nth_combination_back fuel st n (N.of_nat (length s)) k complete_index ;;
  out <- for_up 0 (length il)
           (fun i acc => v <- rd il i ;; e <- rdN s v ;; Ok (acc ++ [e])) [] ;;
  Ok (st, out).

(* ------------------------------------------------------------------ *)
(* nth_permutation_sequence, 12637-12671.  Division by zero is undefined. *)
Definition divN (a b : N) : outcome N := if (b =? 0)%N then UB else Ok (a / b)%N.
Definition modN (a b : N) : outcome N := if (b =? 0)%N then UB else Ok (a mod b)%N.

Definition nth_permutation_sequence (n : N) (k : nat) : outcome (list N) :=
  fa <- wr (repeat 0%N k) 0 1%N ;;
  fa <- for_up 1 (k - 1)
          (fun i fa => v <- rd fa (i - 1) ;; wr fa i (u64 (v * N.of_nat i))) fa ;;
  ' (pm, _) <- for_up 0 k
          (fun i '(pm, n) =>
             f <- rd fa (k - i - 1) ;;
             q <- divN n f ;;
             pm <- wr pm i q ;;
             r <- modN n f ;;
             Ok (pm, r)) (repeat 0%N k, n) ;;
  (* i = k - 1 downto 1; j = i - 1 downto 0 (an int: k is at most 2^31) *)
  for_up 0 (k - 1)
    (fun a pm => let i := k - 1 - a in
       for_up 0 i
         (fun b pm => let j := i - 1 - b in
            vj <- rd pm j ;; vi <- rd pm i ;;
            if (vj <=? vi)%N then wr pm i (u64 (vi + 1)) else Ok pm) pm) pm.

(* nth_permutation_sequence over a string, 12688-12699 *)
Definition nth_permutation_string (n : N) (s : list ascii) : outcome (list ascii) :=
  il <- nth_permutation_sequence n (length s) ;;
  for_up 0 (length il) (fun i acc => v <- rd il i ;; c <- rdN s v ;; Ok (acc ++ [c])) [].

(* nth_permutation_sequence over a range, 12673-12686: what is written are
   iterators (begin + index), not elements *)
Definition nth_permutation_range {T} (n : N) (s : list T) : outcome (list N) :=
  il <- nth_permutation_sequence n (length s) ;;
  for_up 0 (length s) (fun i acc => v <- rd il i ;; Ok (acc ++ [v])) [].

(* ------------------------------------------------------------------ *)
(* std::iter_swap and std::rotate on a range *)
Definition iter_swap {T} (s : list T) (i j : nat) : outcome (list T) :=
  a <- rd s i ;; b <- rd s j ;; s <- wr s i b ;; wr s j a.
Definition rotate {T} (s : list T) (first middle last : nat) : outcome (list T) :=
  if (first <=? middle) && (middle <=? last) && (last <=? length s)
  then Ok (firstn first s ++ sub s (middle, last) ++ sub s (first, middle) ++ skipn last s)
  else UB.

(* next_combination(first,k,last), 12177-12207, on the whole range s with
   first = 0, last = length s and k the position of the middle *)
Definition next_combination {T} (lt : T -> T -> bool) (k : nat) (s : list T) : outcome (list T * bool) :=
  let last := length s in
  if (last =? 0) || (0 =? k) || (last =? k) || (last =? 1) then Ok (s, false)
  else
    r <- loop (S k)
      (fun itr1 =>
         if itr1 =? 0 then Ok (inr None)
         else
           let itr1 := itr1 - 1 in
           x <- rd s itr1 ;; y <- rd s (last - 1) ;;
           if lt x y then
             j <- loop (S last)
                    (fun j => x <- rd s itr1 ;; y <- rd s j ;;
                              if negb (lt x y) then Ok (inl (S j)) else Ok (inr j)) k ;;
             s <- iter_swap s itr1 j ;;
             let itr1 := S itr1 in let j := S j in
             s <- rotate s itr1 j last ;;
             let itr2 := k + (last - j) in       (* 12199 *)
             s <- rotate s k itr2 last ;;
             Ok (inr (Some s))
           else Ok (inl itr1))
      k ;;
    match r with
    | Some s => Ok (s, true)
    | None => s <- rotate s 0 k last ;; Ok (s, false)
    end.

(* A caller's loop: do record [first,k) while next_combination (not a function of
   the library) *)
Definition visit_combinations {T} (fuel : nat) (lt : T -> T -> bool) (k : nat) (s : list T)
  : outcome (list (list T) * list T) :=
  loop fuel
    (fun '(s, acc) =>
       let acc := acc ++ [sub s (0, k)] in
       ' (s, b) <- next_combination lt k s ;;
       if b then Ok (inl (s, acc)) else Ok (inr (acc, s)))
    (s, []).

(* combination_iterator, 12701-12842, over one range: begin_ and middle_ as
   offsets; end_ is the length.  current_combination_ (12841) stays
   (0, k) for ever. *)
Record comb_iter := CombIter { ci_begin : nat; ci_middle : nat }.
Definition ci_start (k : nat) : comb_iter := CombIter 0 k.         (* 12713-12725, sorted = true *)
Definition ci_end {T} (s : list T) : comb_iter := CombIter (length s) (length s).  (* 12758-12763 *)
Definition ci_equal (a b : comb_iter) : bool :=                    (* 12824-12829 *)
  (ci_begin a =? ci_begin b) && (ci_middle a =? ci_middle b).
(* operator++, 12789-12800 *)
Definition ci_next {T} (lt : T -> T -> bool) (it : comb_iter) (s : list T) : outcome (comb_iter * list T) :=
  if negb (ci_begin it =? length s) then
    ' (s, b) <- next_combination lt (ci_middle it) s ;;
    if negb b then Ok (ci_end s, s) else Ok (it, s)
  else Ok (it, s).

(* A caller's loop: for (it = begin; it != end; ++it) record *it  (not a function of
   the library) *)
Definition ci_visit {T} (fuel : nat) (lt : T -> T -> bool) (k : nat) (s : list T)
  : outcome (list (list T) * list T) :=
  loop fuel
    (fun '(it, s, acc) =>
       if ci_equal it (ci_end s) then Ok (inr (acc, s))
       else
         let acc := acc ++ [sub s (0, k)] in
         ' (it, s) <- ci_next lt it s ;; Ok (inl (it, s, acc)))
    (ci_start k, s, []).

(* ------------------------------------------------------------------ *)
(* Random selection.  The products of a size and a random number in [0,1) are
   doubles; the model takes the truncated index as the random draw. *)

(* deque::erase(begin() + idx) *)
Definition erase_at {T} (s : list T) (i : nat) : outcome (list T) :=
  if i <? length s then Ok (firstn i s ++ skipn (S i) s) else UB.

(* random_permutation, 11984-12002; draw n = the n-th value of idx on 11997 *)
Definition random_permutation {T} (draw : nat -> nat) (s : list T) : outcome (list T) :=
  loop (S (length s))
    (fun '(index, out, n) =>
       if length index =? 0 then Ok (inr out)
       else
         let idx := draw n in
         p <- rd index idx ;; e <- rd s p ;;
         index <- erase_at index idx ;;
         Ok (inl (index, out ++ [e], S n)))
    (seq 0 (length s), [], 0).

(* random_combination, 12030-12051; None: returns false *)
Definition random_combination {T} (draw : nat -> nat) (s : list T) (set_size : nat) : outcome (option (list T)) :=
  if length s <? set_size then Ok None
  else
    loop (S set_size)
      (fun '(index, out, n, set_size) =>
         if set_size =? 0 then Ok (inr (Some out))
         else
           let idx := draw n in
           p <- rd index idx ;; e <- rd s p ;;
           index <- erase_at index idx ;;
           Ok (inl (index, out ++ [e], S n, set_size - 1)))
      (seq 0 (length s), [], 0, set_size).

(* select_k_randomly, 12081-12127: [keep n] is the outcome of the comparison on 12115
   and [draw n] the index on 12117 for the n-th element after the first k;
   [d] is the value elements get from resize on 12092.  Returns the elements
   written and the count. *)
Definition select_k_randomly {T} (d : T) (keep : nat -> bool) (draw : nat -> nat) (s : list T) (k : nat)
  : outcome (list T * nat) :=
  ' (sel, index) <- loop (S (length s))
      (fun '(sel, index) =>
         if (index <? k) && negb (index =? length s) then
           e <- rd s index ;; sel <- wr sel index e ;; Ok (inl (sel, S index))
         else Ok (inr (sel, index)))
      (repeat d k, 0) ;;
  if index =? 0 then Ok ([], 0)
  else if index <? k then Ok (firstn index sel, index)
  else
    sel <- for_up index (length s - index)
      (fun itr sel =>
         if keep (itr - k) then e <- rd s itr ;; wr sel (draw (itr - k)) e else Ok sel) sel ;;
    Ok (sel, k).

(* select_1_randomly, 12129-12157: [keep n] is the comparison on 12147 for the n-th
   element; selection is indeterminate until first assigned. *)
Definition select_1_randomly {T} (keep : nat -> bool) (s : list T) : outcome (list T) :=
  if length s =? 0 then Ok []
  else
    sel <- for_up 0 (length s)
      (fun itr sel => if keep itr then e <- rd s itr ;; Ok (Some e) else Ok sel) None ;;
    match sel with Some e => Ok [e] | None => UB end.
