(* Enumeration of permutations and combinations by rearranging the range:
   strtk.hpp 12217-12455. *)
From Verif Require Import Base Comb_Model.

(* std::reverse(first,last) *)
Definition reverse_range {T} (s : list T) (first last : nat) : outcome (list T) :=
  if (first <=? last) && (last <=? length s)
  then Ok (firstn first s ++ rev (sub s (first, last)) ++ skipn last s)
  else UB.

(* std::next_permutation on the whole range, the usual implementation (libstdc++,
   bits/stl_algo.h); the result has to be what the standard says, which Enum_Props.v shows. *)
Definition next_permutation {T} (lt : T -> T -> bool) (s : list T) : outcome (list T * bool) :=
  if (length s =? 0) || (length s =? 1) then Ok (s, false)
  else
    loop (length s)
      (fun ii =>
         let i := ii - 1 in
         x <- rd s i ;; y <- rd s ii ;;
         if lt x y then
           j <- loop (length s)
                  (fun j => let j := j - 1 in
                            y <- rd s j ;;
                            if negb (lt x y) then Ok (inl j) else Ok (inr j)) (length s) ;;
           s <- iter_swap s i j ;;
           s <- reverse_range s ii (length s) ;;
           Ok (inr (s, true))
         else if i =? 0 then s <- reverse_range s 0 (length s) ;; Ok (inr (s, false))
         else Ok (inl i))
      (length s - 1).

(* The function given by the user sees the range and may keep state of type St.  It is assumed
   not to modify the range. *)
Section Visit.
Context {T St : Type}.

(* for_each_permutation, 12217-12225 *)
Definition for_each_permutation (fuel : nat) (lt : T -> T -> bool) (f : list T -> St -> St)
    (s : list T) (st : St) : outcome (list T * St) :=
  loop fuel
    (fun '(s, st) =>
       let st := f s st in
       ' (s, b) <- next_permutation lt s ;;
       if b then Ok (inl (s, st)) else Ok (inr (s, st)))
    (s, st).

(* for_each_permutation_conditional, 12227-12238 *)
Definition for_each_permutation_conditional (fuel : nat) (lt : T -> T -> bool)
    (f : list T -> St -> St * bool) (s : list T) (st : St) : outcome (list T * St * bool) :=
  loop fuel
    (fun '(s, st) =>
       let '(st, ok) := f s st in
       if negb ok then Ok (inr (s, st, false))
       else
         ' (s, b) <- next_permutation lt s ;;
         if b then Ok (inl (s, st)) else Ok (inr (s, st, true)))
    (s, st).

(* std::swap_ranges(first1,last1,first2): the range and the iterator returned *)
Definition swap_ranges (s : list T) (first1 last1 first2 : nat) : outcome (list T * nat) :=
  ' s <- for_up 0 (last1 - first1) (fun i s => iter_swap s (first1 + i) (first2 + i)) s ;;
  Ok (s, first2 + (last1 - first1)).

(* rotate_discontinuous, 12249-12269 *)
Definition rotate_discontinuous (s : list T) (first1 last1 d1 first2 last2 d2 : nat) : outcome (list T) :=
  if d1 <=? d2 then
    ' (s, m) <- swap_ranges s first1 last1 first2 ;;
    rotate s first2 m last2
  else
    ' (s, i1) <- loop (S (last2 - first2))
      (fun '(s, i1, last2) =>
         if first2 =? last2 then Ok (inr (s, i1))
         else
           if (i1 =? 0) || (last2 =? 0) then UB
           else
             s <- iter_swap s (i1 - 1) (last2 - 1) ;;
             Ok (inl (s, i1 - 1, last2 - 1)))
      (s, last1, last2) ;;
    rotate s first1 i1 last1.

(* bound_range, 12371-12394: the function is called with the fixed range [0,k) *)
Definition bound_range (f : list T -> St -> St) (k : nat) (s : list T) (st : St) : St := f (sub s (0, k)) st.

(* combine_discontinuous, 12271-12318; fuel bounds the depth of the recursion *)
Fixpoint combine_discontinuous (fuel : nat) (f : list T -> St -> St) (s : list T)
    (first1 last1 d1 first2 last2 d2 d : nat) (st : St) : outcome (list T * St) :=
  match fuel with
  | 0 => OutOfFuel
  | S fuel =>
      if (d1 =? 0) || (d2 =? 0) then Ok (s, f s st)
      else
        ' (s, st) <-
          (if d1 =? 1 then
             loop (S (last2 - first2))
               (fun '(s, st, i2) =>
                  if i2 =? last2 then Ok (inr (s, st))
                  else
                    let st := f s st in
                    s <- iter_swap s first1 i2 ;;
                    Ok (inl (s, st, S i2)))
               (s, st, first2)
           else
             let f1p := S first1 in
             loop (S (last2 - first2))
               (fun '(s, st, i2, d22) =>
                  if i2 =? last2 then Ok (inr (s, st))
                  else
                    ' (s, st) <- combine_discontinuous fuel f s f1p last1 (d1 - 1) i2 last2 d22 (d + 1) st ;;
                    s <- iter_swap s first1 i2 ;;
                    Ok (inl (s, st, S i2, d22 - 1)))
               (s, st, first2, d2)) ;;
        let st := f s st in
        s <- (if negb (d =? 0)
              then rotate_discontinuous s first1 last1 d1 (S first2) last2 (d2 - 1)
              else rotate_discontinuous s first1 last1 d1 first2 last2 d2) ;;
        Ok (s, st)
  end.

(* combine_discontinuous_conditional, 12320-12369 *)
Fixpoint combine_discontinuous_conditional (fuel : nat) (f : list T -> St -> St * bool) (s : list T)
    (first1 last1 d1 first2 last2 d2 d : nat) (st : St) : outcome (list T * St * bool) :=
  match fuel with
  | 0 => OutOfFuel
  | S fuel =>
      if (d1 =? 0) || (d2 =? 0) then let '(st, b) := f s st in Ok (s, st, b)
      else
        ' (s, st, b) <-
          (if d1 =? 1 then
             loop (S (last2 - first2))
               (fun '(s, st, i2) =>
                  if i2 =? last2 then Ok (inr (s, st, true))
                  else
                    let '(st, b) := f s st in
                    if negb b then Ok (inr (s, st, false))
                    else
                      s <- iter_swap s first1 i2 ;;
                      Ok (inl (s, st, S i2)))
               (s, st, first2)
           else
             let f1p := S first1 in
             loop (S (last2 - first2))
               (fun '(s, st, i2, d22) =>
                  if i2 =? last2 then Ok (inr (s, st, true))
                  else
                    ' (s, st, b) <- combine_discontinuous_conditional fuel f s f1p last1 (d1 - 1) i2 last2 d22 (d + 1) st ;;
                    if negb b then Ok (inr (s, st, false))
                    else
                      s <- iter_swap s first1 i2 ;;
                      Ok (inl (s, st, S i2, d22 - 1)))
               (s, st, first2, d2)) ;;
        if negb b then Ok (s, st, false)
        else
          let '(st, b) := f s st in
          if negb b then Ok (s, st, false)
          else
            s <- (if negb (d =? 0)
                  then rotate_discontinuous s first1 last1 d1 (S first2) last2 (d2 - 1)
                  else rotate_discontinuous s first1 last1 d1 first2 last2 d2) ;;
            Ok (s, st, true)
  end.

(* size_t converted to difference_type (two's complement) *)
Definition as_difference (n : N) : Z :=
  if (n <? 2 ^ 63)%N then Z.of_N n else (Z.of_N n - 2 ^ 64)%Z.

(* for_each_combination, 12423-12438; begin + size must stay in the range *)
Definition for_each_combination (f : list T -> St -> St) (size : N) (s : list T) (st : St)
  : outcome (list T * St) :=
  if (Z.of_nat (length s) <? as_difference size)%Z then Ok (s, st)
  else if (N.of_nat (length s) <? size)%N then UB
  else
    let mid := N.to_nat size in
    combine_discontinuous (S mid) (bound_range f mid) s 0 mid mid mid (length s) (length s - mid) 0 st.

(* bound_range_conditional, 12396-12419 *)
Definition bound_range_conditional (f : list T -> St -> St * bool) (k : nat) (s : list T) (st : St) : St * bool :=
  f (sub s (0, k)) st.

(* for_each_combination_conditional, 12440-12455: the result of
   combine_discontinuous_conditional is dropped *)
Definition for_each_combination_conditional (f : list T -> St -> St * bool) (size : N) (s : list T) (st : St)
  : outcome (list T * St) :=
  if (Z.of_nat (length s) <? as_difference size)%Z then Ok (s, st)
  else if (N.of_nat (length s) <? size)%N then UB
  else
    let mid := N.to_nat size in
    ' (s, st, _) <- combine_discontinuous_conditional (S mid) (bound_range_conditional f mid) s
                      0 mid mid mid (length s) (length s - mid) 0 st ;;
    Ok (s, st).

End Visit.
