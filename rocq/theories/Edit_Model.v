(* In-place removal, trimming, replacement and searching:
   /repo/strtk.hpp 1147-1184, 1194-1875, 2054-2305. *)
From Verif Require Import Base Split_Model.

(* std::string::resize(n) / Sequence::resize(n) with n <= size(): keeps the first n.
   n > size() would append default characters; never happens at the call sites below. *)
Definition resize_down {A} (s : list A) (n : nat) : list A := firstn n s.

Section Remove.
  Context {A : Type}.
  Variable predicate : A -> bool.

  (* strtk.hpp 1194-1221 remove_inplace(Predicate, Iterator begin, Iterator end).
     State: the range, itr1, itr2, removal_count.  Result: range and count. *)
  Definition remove_inplace (s : list A) : outcome (list A * nat) :=
    loop (S (length s))
      (fun '(s, itr1, itr2, cnt) =>
         if length s =? itr1 then Ok (inr (s, cnt))
         else x <- rd s itr1 ;;
              if predicate x then Ok (inl (s, S itr1, itr2, S cnt))
              else
                s' <- (if negb (itr1 =? itr2) then y <- rd s itr1 ;; wr s itr2 y else Ok s) ;;
                Ok (inl (s', S itr1, S itr2, cnt)))
      (s, 0, 0, 0).

  (* strtk.hpp 1229-1238 and 1251-1261: sequence / std::string version, resizes *)
  Definition remove_inplace_seq (s : list A) : outcome (list A * nat) :=
    '(s', cnt) <- remove_inplace s ;;
    Ok (resize_down s' (length s' - cnt), cnt).
End Remove.

Section Consecutives.
  Context {A : Type}.
  (* The two overloads share one shape and differ only in the two loop conditions:
     [go1 prev x]: the first inner while keeps x;  [go2 prev x]: the second inner
     while drops x. *)
  Variables go1 go2 : A -> A -> bool.

  (* first inner while: state (s, itr1, itr2, prev) *)
  Definition rc_keep (s : list A) (itr1 itr2 : nat) (prev : A)
    : outcome (list A * nat * nat * A) :=
    loop (S (length s))
      (fun '(s, itr1, itr2, prev) =>
         if length s =? itr1 then Ok (inr (s, itr1, itr2, prev))
         else x <- rd s itr1 ;;
              if go1 prev x then
                s' <- (if negb (itr1 =? itr2) then y <- rd s itr1 ;; wr s itr2 y else Ok s) ;;
                y <- rd s' itr1 ;;
                Ok (inl (s', S itr1, S itr2, y))
              else Ok (inr (s, itr1, itr2, prev)))
      (s, itr1, itr2, prev).

  (* second inner while *)
  Definition rc_drop (s : list A) (itr1 : nat) (prev : A) (cnt : nat) : outcome (nat * nat) :=
    loop (S (length s))
      (fun '(itr1, cnt) =>
         if length s =? itr1 then Ok (inr (itr1, cnt))
         else x <- rd s itr1 ;;
              if go2 prev x then Ok (inl (S itr1, S cnt)) else Ok (inr (itr1, cnt)))
      (itr1, cnt).

  Definition remove_consecutives_gen (s : list A) : outcome (list A * nat) :=
    if length s =? 0 then Ok (s, 0)
    else
    prev <- rd s 0 ;;
    loop (S (length s))
      (fun '(s, itr1, itr2, prev, cnt) =>
         if length s =? itr1 then Ok (inr (s, cnt))
         else
           '(s1, i1, i2, pv) <- rc_keep s itr1 itr2 prev ;;
           '(i1', cnt') <- rc_drop s1 i1 pv cnt ;;
           Ok (inl (s1, i1', i2, pv, cnt')))
      (s, 1, 1, prev, 0).
End Consecutives.

(* strtk.hpp 1263-1296 remove_consecutives_inplace(Predicate, begin, end) *)
Definition remove_consecutives_inplace_pred {A} (p : A -> bool) (s : list A)
  : outcome (list A * nat) :=
  remove_consecutives_gen (fun prev x => negb (p x) || negb (p prev)) (fun prev x => p x) s.

(* strtk.hpp 1374-1405 remove_consecutives_inplace(begin, end) *)
Definition remove_consecutives_inplace_eq {A} (eqb : A -> A -> bool) (s : list A)
  : outcome (list A * nat) :=
  remove_consecutives_gen (fun prev x => negb (eqb prev x)) (fun prev x => eqb prev x) s.

(* strtk.hpp 1304-1314, 1361-1372 and 1413-1431: string / sequence versions *)
Definition resized {A} (r : outcome (list A * nat)) : outcome (list A) :=
  '(s, cnt) <- r ;; Ok (resize_down s (length s - cnt)).

(* strtk.hpp 1433-1449 remove_duplicates.  char is signed, so
   static_cast<size_t>(c) of a character >= 0x80 is far outside table[0xFF];
   the table itself has 255 entries. *)
Definition char_as_index (c : ascii) : option nat :=
  let n := nat_of_ascii c in if n <? 128 then Some n else None.

Definition remove_duplicates (s : list ascii) : outcome (list ascii) :=
  '(_, res) <-
    for_up 0 (length s)
      (fun i '(table, result) =>
         c <- rd s i ;;
         match char_as_index c with
         | None => UB
         | Some k =>
             seen <- rd table k ;;
             if (seen : bool) then Ok (table, result)
             else t' <- wr table k true ;; Ok (t', result ++ [c])
         end)
      (repeat false 255, []) ;;
  Ok res.

Section Trim.
  Context {A : Type}.
  Variable predicate : A -> bool.

  (* strtk.hpp 1456-1475 remove_trailing(Predicate, begin, end): returns the count *)
  Definition remove_trailing (s : list A) : outcome nat :=
    if length s =? 0 then Ok 0
    else
      loop (S (length s))
        (fun '(itr, cnt) =>
           if itr =? 0 then Ok (inr cnt)
           else x <- rd s itr ;;
                if predicate x then Ok (inl (itr - 1, S cnt)) else Ok (inr cnt))
        (length s - 1, 0).

  (* strtk.hpp 1483-1531 string versions: resize by the count *)
  Definition remove_trailing_str (s : list A) : outcome (list A) :=
    if length s =? 0 then Ok s
    else cnt <- remove_trailing s ;; Ok (resize_down s (length s - cnt)).

  (* std::copy(begin+from, end, begin) on one range, ascending element copies.
     (libstdc++ memmove has the same effect; copying a range onto itself, when
     nothing is removed, is treated as harmless.) *)
  Definition copy_down (s : list A) (from : nat) : outcome (list A) :=
    for_up 0 (length s - from)
      (fun k s => x <- rd s (from + k) ;; wr s k x) s.

  (* strtk.hpp 1533-1553 remove_leading(Predicate, begin, end) *)
  Definition remove_leading (s : list A) : outcome (list A * nat) :=
    if length s =? 0 then Ok (s, 0)
    else
      itr <- loop (S (length s))
        (fun itr =>
           if length s =? itr then Ok (inr itr)
           else x <- rd s itr ;;
                if predicate x then Ok (inl (S itr)) else Ok (inr itr)) 0 ;;
      s' <- copy_down s itr ;;
      Ok (s', itr).

  (* strtk.hpp 1561-1597, 1605-1616 string versions *)
  Definition remove_leading_str (s : list A) : outcome (list A) :=
    if length s =? 0 then Ok s
    else '(s', cnt) <- remove_leading s ;; Ok (resize_down s' (length s' - cnt)).

  (* strtk.hpp 1599-1603 remove_leading_trailing *)
  Definition remove_leading_trailing (s : list A) : outcome (list A) :=
    s1 <- remove_leading_str s ;; remove_trailing_str s1.
End Trim.

(* ---------------- searching ---------------- *)
Section Search.
  Context {A : Type}.
  Variable eqv : A -> A -> bool.   (* data element, pattern element *)

  Fixpoint prefixb (pat s : list A) : bool :=
    match pat, s with
    | [], _ => true
    | y :: pat', x :: s' => eqv x y && prefixb pat' s'
    | _ :: _, [] => false
    end.

  (* first offset at which pat occurs in s *)
  Fixpoint search (pat s : list A) : option nat :=
    if prefixb pat s then Some 0
    else match s with
         | [] => None
         | _ :: s' => option_map S (search pat s')
         end.

  (* std::search(begin+i, end, p_begin, p_end[, eqv]) as an offset; "not found" is end.
     This is the contract of the standard algorithm, not library code of /repo. *)
  Definition std_search (s pat : list A) (i : nat) : nat :=
    match search pat (skipn i s) with
    | Some k => i + k
    | None => length s
    end.

  (* strtk.hpp 2054-2072 find_all and 2102-2122 ifind_all (eqv = imatch_char).
     The empty pattern makes no progress: OutOfFuel. *)
  Definition find_all_step (pat s : list A) (st : nat * list (nat * nat) * nat)
    : outcome (nat * list (nat * nat) * nat + list (nat * nat) * nat) :=
    let '(itr, out, cnt) := st in
    let itr := std_search s pat itr in
    if length s =? itr then Ok (inr (out, cnt))
    else Ok (inl (itr + length pat, out ++ [(itr, itr + length pat)], S cnt)).

  Definition find_all (pat s : list A) : outcome (list (nat * nat) * nat) :=
    loop (S (length s)) (find_all_step pat s) (0, [], 0).

  (* strtk.hpp 2289-2305 index_of; None is npos *)
  Definition index_of (pat s : list A) : option nat :=
    if length pat =? 0 then None
    else if length s =? 0 then None
    else if length s <? length pat then None
    else let itr := std_search s pat 0 in
         if length s =? itr then None else Some itr.

  (* std::equal(p_begin, p_end, begin + i) : compares |p| elements *)
  Definition std_equal_at (pat s : list A) (i : nat) : outcome bool :=
    loop (S (length pat))
      (fun k =>
         if k =? length pat then Ok (inr true)
         else y <- rd pat k ;;
              x <- rd s (i + k) ;;
              if eqv x y then Ok (inl (S k)) else Ok (inr false)) 0.

  (* strtk.hpp 2164-2189 begins_with / 2191-2218 ibegins_with *)
  Definition begins_with (pat s : list A) : outcome bool :=
    if length pat <=? length s then std_equal_at pat s 0 else Ok false.

  (* strtk.hpp 2220-2252 ends_with / 2254-2287 iends_with *)
  Definition ends_with (pat s : list A) : outcome bool :=
    if length pat <=? length s then std_equal_at pat s (length s - length pat) else Ok false.
End Search.

(* ---------------- replacement ---------------- *)
Section Replace.
  Context {A : Type}.
  Variable eqb : A -> A -> bool.

  (* strtk.hpp 1665-1678 replace(c1, c2, begin, end) *)
  Definition replace (c1 c2 : A) (s : list A) : outcome (list A) :=
    for_up 0 (length s)
      (fun i s => x <- rd s i ;; if eqb c1 x then wr s i c2 else Ok s) s.

  (* std::string::find(p, pos): npos if pos > size() *)
  Definition str_find (s p : list A) (pos : nat) : option nat :=
    if length s <? pos then None
    else option_map (fun k => pos + k) (search eqb p (skipn pos s)).

  (* std::copy(src + a, src + b, dst + d) between different buffers *)
  Definition copy_to (src : list A) (a b : nat) (dst : list A) (d : nat) : outcome (list A) :=
    for_up 0 (b - a) (fun k dst => x <- rd src (a + k) ;; wr dst (d + k) x) dst.

  Fixpoint list_eqb (a b : list A) : bool :=
    match a, b with
    | [], [] => true
    | x :: a', y :: b' => eqb x y && list_eqb a' b'
    | _, _ => false
    end.

  (* strtk.hpp 1713-1720: positions of the occurrences *)
  Definition delta_list (s p : list A) : outcome (list nat) :=
    loop (S (length s))
      (fun '(pos, deltas) =>
         match str_find s p pos with
         | None => Ok (inr deltas)
         | Some k => Ok (inl (k + length p, deltas ++ [k]))
         end)
      (0, []).

  (* strtk.hpp 1695-1760 replace_pattern(s, p, r, n); the value of n on entry is
     irrelevant (it is assigned or resized).  [zero] is the fill character.  The
     size computation is done on integers; int overflow for sizes >= 2^31 is not
     modelled. *)
  Definition replace_pattern (zero : A) (s p r : list A) : outcome (list A) :=
    if (length p =? 0) || list_eqb p r then Ok s
    else
      deltas <- delta_list s p ;;
      match deltas with
      | [] => Ok s
      | d0 :: _ =>
          let n0 := repeat zero (Z.to_nat (Z.of_nat (length deltas)
                       * (Z.of_nat (length r) - Z.of_nat (length p)) + Z.of_nat (length s))) in
          '(s_itr, n_itr, n) <-
            loop (S (length deltas))
              (fun '(i, delta, s_itr, n_itr, n) =>
                 n1 <- copy_to s s_itr (s_itr + delta) n n_itr ;;
                 let s_itr := s_itr + (length p + delta) in
                 let n_itr := n_itr + delta in
                 n2 <- copy_to r 0 (length r) n1 n_itr ;;
                 let n_itr := n_itr + length r in
                 let i := S i in
                 if length deltas <=? i then Ok (inr (s_itr, n_itr, n2))
                 else
                   di <- rd deltas i ;;
                   dp <- rd deltas (i - 1) ;;
                   Ok (inl (i, di - (dp + length p), s_itr, n_itr, n2)))
              (0, d0, 0, 0, n0) ;;
          if negb (length s =? s_itr) then copy_to s s_itr (length s) n n_itr else Ok n
      end.

  (* strtk.hpp 1869-1875 remove_pattern *)
  Definition remove_pattern (zero : A) (s p : list A) : outcome (list A) :=
    replace_pattern zero s p [].

  (* strtk.hpp 1806-1813: compare the pattern at temp_s_itr; result
     (found, temp_s_itr, p_itr) *)
  Definition scan_here (s p : list A) (t : nat) : outcome (bool * nat * nat) :=
    loop (S (length p))
      (fun '(t, pi) =>
         if (length p =? pi) || (length s =? t) then Ok (inr (true, t, pi))
         else x <- rd s t ;; y <- rd p pi ;;
              if negb (eqb x y) then Ok (inr (false, S t, S pi)) else Ok (inl (S t, S pi)))
      (t, 0).

  (* strtk.hpp 1795-1823: count the occurrences and accumulate new_size *)
  Definition count_occurrences (s p r : list A) : outcome (nat * Z) :=
    loop (S (length s))
      (fun '(s_itr, count, new_size) =>
         if length s =? s_itr then Ok (inr (count, new_size))
         else
           '(found, t, pi) <- scan_here s p s_itr ;;
           if found && (pi =? length p)
           then Ok (inl (t, S count, (new_size + (Z.of_nat (length r) - Z.of_nat (length p)))%Z))
           else Ok (inl (S s_itr, count, new_size)))
      (0, 0, Z.of_nat (length s)).

  (* strtk.hpp 1762-1867 replace_pattern(s_begin,...,out).
     [emit out xs] is the effect of std::copy(xs..., out) where out is passed by
     value each time: appending for an insert iterator, see replace_pattern_out
     and replace_pattern_ptr. *)
  Definition replace_pattern_itr {O : Type} (emit : O -> list A -> O) (o : O)
      (s p r : list A) : outcome (O * Z) :=
    if (length p =? 0) || ((length p =? length r) && list_eqb p r)
    then Ok (emit o s, Z.of_nat (length s))
    else
      '(count, new_size) <- count_occurrences s p r ;;
      '(s_itr, o) <-
        loop (S (length s))
          (fun '(count, s_itr, temp, prev_pos, o) =>
             if count =? 0 then Ok (inr (s_itr, o))
             else
               '(found, t, pi) <- scan_here s p temp ;;
               if negb found then Ok (inl (count, s_itr, S temp, prev_pos, o))
               else if negb (pi =? length p) then Ok (inl (count, s_itr, t, prev_pos, o))
               else
                 let pos := t - length p in
                 let diff := pos - prev_pos in
                 if length s <? s_itr + diff then UB
                 else
                 let o := emit o (sub s (s_itr, s_itr + diff)) in
                 let o := emit o r in
                 Ok (inl (count - 1, t, t, pos + length p, o)))
          (count, 0, 0, 0, o) ;;
      Ok (emit o (sub s (s_itr, length s)), new_size).

  (* out = std::back_inserter: every copy appends *)
  Definition replace_pattern_out (s p r : list A) : outcome (list A * Z) :=
    replace_pattern_itr (fun o xs => o ++ xs) [] s p r.

  (* out = T*: std::copy's returned position is discarded (lines 1855, 1857, 1864),
     so each copy starts again at the same position and overwrites *)
  Definition replace_pattern_ptr (buf s p r : list A) : outcome (list A * Z) :=
    replace_pattern_itr (fun o xs => xs ++ skipn (length xs) o) buf s p r.
End Replace.
