(* Splitting at offsets and whole-range scans: /repo/strtk.hpp 3871-4052, 4131-4382. *)
From Verif Require Import Base Num_Model.
Local Open Scope nat_scope.

(* ---------------- offset_predicate and offset_splitter ---------------- *)
(* strtk.hpp 3871-3916: the offsets (an int array with one extra element 0), rotate_, and
   current_index_.  The functions offsets(v1,...) of 3918-4012 build it from 1..12 values. *)
Record offset_predicate := Offsets { offset_list : list Z; rotate : bool; current_index : nat }.
Definition make_offsets (l : list Z) (r : bool) : offset_predicate := Offsets l r 0.
(* strtk.hpp 3889-3892 *)
Definition reset_offsets (o : offset_predicate) : offset_predicate := Offsets (offset_list o) (rotate o) 0.

(* strtk.hpp 3899-3909 *)
Definition next_offset (o : offset_predicate) : outcome (Z * offset_predicate) :=
  result <- rd (offset_list o ++ [0%Z]) (current_index o) ;;
  let i := S (current_index o) in
  let i := if rotate o && (length (offset_list o) <=? i) then 0 else i in
  Ok (result, Offsets (offset_list o) (rotate o) i).

(* strtk.hpp 4014-4043 on a range of n elements: the pairs written through out, the returned
   count, and the predicate object afterwards (its index is mutable).
   std::min<std::size_t>(length,offset_length) is taken of the positive offset. *)
Definition offset_splitter (n : nat) (o : offset_predicate)
  : outcome (list (nat * nat) * nat * offset_predicate) :=
  if n =? 0 then Ok ([], 0, o)
  else
    loop (S n)
      (fun '(second, len, out, match_count, o) =>
         if n =? second then Ok (inr (out, match_count, o))
         else
           ' (offset_length, o) <- next_offset o ;;
           if negb (0 <? offset_length)%Z then Ok (inr (out, match_count, o))
           else
             let increment := Z.to_nat (Z.min (Z.of_nat len) offset_length) in
             let first := second in
             let second := second + increment in
             Ok (inl (second, len - increment, out ++ [(first, second)], S match_count, o)))
      (0, n, [], 0, o).

(* ---------------- counting and extremes ---------------- *)
Section Ordered.
  Context {A : Type}.
  Variables eqb ltb : A -> A -> bool.     (* operator== and operator< of the element type *)

  (* strtk.hpp 4131-4149 *)
  Definition count_consecutive_duplicates (s : list A) : outcome nat :=
    if length s <? 2 then Ok 0
    else
      loop (S (length s))
        (fun '(prev, itr, count) =>
           let itr := S itr in
           if itr =? length s then Ok (inr count)
           else
             a <- rd s prev ;; b <- rd s itr ;;
             if eqb a b then Ok (inl (prev, itr, S count)) else Ok (inl (itr, itr, count)))
        (0, 0, 0).

  (* strtk.hpp 4199-4214; x > y is y < x *)
  Definition min_max_of_range (s : list A) : outcome (A * A) :=
    x <- rd s 0 ;;
    loop (S (length s))
      (fun '(itr, mn, mx) =>
         let itr := S itr in
         if itr =? length s then Ok (inr (mn, mx))
         else
           y <- rd s itr ;;
           if ltb y mn then Ok (inl (itr, y, mx))
           else if ltb mx y then Ok (inl (itr, mn, y))
           else Ok (inl (itr, mn, mx)))
      (0, x, x).

  (* *std::min_element(begin,end): the first smallest element (used at 4156 and 4258) *)
  Definition min_element (s : list A) : outcome A :=
    x <- rd s 0 ;;
    for_up 1 (length s - 1) (fun i m => y <- rd s i ;; Ok (if ltb y m then y else m)) x.
  (* *std::max_element(begin,end), 4180 *)
  Definition max_element (s : list A) : outcome A :=
    x <- rd s 0 ;;
    for_up 1 (length s - 1) (fun i m => y <- rd s i ;; Ok (if ltb m y then y else m)) x.

  (* ---------------- lexicographically_canonicalize, 4250-4307 ---------------- *)
  (* An element (first,second) of itr_list.  Erasing while walking a std::list is a filter. *)
  Fixpoint smallest_of (s : list A) (l : list (nat * nat)) (smallest : A) : outcome A :=
    match l with
    | [] => Ok smallest
    | (f, _) :: l => x <- rd s f ;; smallest_of s l (if ltb x smallest then x else smallest)
    end.
  Fixpoint keep_equal (s : list A) (l : list (nat * nat)) (smallest : A) : outcome (list (nat * nat)) :=
    match l with
    | [] => Ok []
    | (f, p) :: l =>
        x <- rd s f ;; r <- keep_equal s l smallest ;;
        Ok (if negb (eqb x smallest) then r else (f, p) :: r)
    end.
  Definition not_at_end (s : list A) (l : list (nat * nat)) : list (nat * nat) :=
    filter (fun q => negb (fst q =? length s)) l.

  (* strtk.hpp 4265-4304, one round *)
  Definition canon_round (s : list A) (l : list (nat * nat)) : outcome (list (nat * nat)) :=
    let l := not_at_end s (map (fun q => (S (fst q), snd q)) l) in
    match l with
    | [] => UB                                   (* *itr_list.begin() of an empty list *)
    | (f, p) :: l' =>
        x <- rd s f ;;
        smallest <- smallest_of s l' x ;;
        l <- keep_equal s l smallest ;;
        Ok (not_at_end s l)
    end.

  (* strtk.hpp 4250-4307; std::rotate(begin, middle, end) *)
  Definition lexicographically_canonicalize (s : list A) : outcome (list A) :=
    smallest <- min_element s ;;
    l <- keep_equal s (map (fun i => (i, i)) (seq 0 (length s))) smallest ;;
    loop (S (length s))
      (fun l =>
         if 1 <? length l then l <- canon_round s l ;; Ok (inl l)
         else match l with
              | [] => UB
              | (_, middle) :: _ => Ok (inr (skipn middle s ++ firstn middle s))
              end) l.
End Ordered.

(* ---------------- first_non_repeated_char, 4323-4382 ---------------- *)
Definition not_yet_encountered : N := 18446744073709551615.
Definition repeated : N := 18446744073709551614.

(* strtk.hpp 4323-4361: the returned position (the length for end).
   static_cast<unsigned int>( *itr) of a negative char is 2^32 minus something. *)
Definition first_non_repeated_pos (s : list ascii) : outcome nat :=
  ' (lut, _) <-
    for_up 0 (length s)
      (fun i '(lut, position) =>
         c <- rd s i ;;
         let ix := Z.to_N (schar c mod 2 ^ 32) in
         if (256 <=? ix)%N then UB
         else
           element <- rd lut (N.to_nat ix) ;;
           lut <- (if (element =? not_yet_encountered)%N then wr lut (N.to_nat ix) position
                   else if (element <? repeated)%N then wr lut (N.to_nat ix) repeated
                   else Ok lut) ;;
           Ok (lut, (position + 1)%N))
      (repeat not_yet_encountered 256, 0%N) ;;
  position <-
    for_up 0 256 (fun i position => e <- rd lut i ;; Ok (if (e <? position)%N then e else position)) repeated ;;
  Ok (if negb (position =? repeated)%N then N.to_nat position else length s).

(* strtk.hpp 4371-4382; None is npos.  The unsigned char version (4363-4369) is the same
   after a reinterpret_cast to char*. *)
Definition first_non_repeated_char (s : list ascii) : outcome (option nat) :=
  if length s =? 0 then Ok None
  else itr <- first_non_repeated_pos s ;;
       Ok (if negb (itr =? length s) then Some itr else None).
