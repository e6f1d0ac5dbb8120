(* Fixed-size memory helpers: memcmp_n, make_string, clear_array, set_array,
   reverse, fill (strtk.hpp 23767-24010) and range::adapter (903-1011). *)
From Coq Require Import List Arith NArith Ascii Bool.
From Verif Require Import Base Binary_Model.
Import ListNotations.
Local Open Scope nat_scope.

(* Memory as the pointer arguments of memcmp_n see it: an array of bytes and
   the address of its first byte.  A pointer is an offset into the array. *)
Record block : Type := Block { addr : N; bytes : list ascii }.

(* strtk.hpp 23771-23772, cmpimpl, one operand: the load of a w-byte integer
   through reinterpret_cast.  Undefined when the access leaves the array and,
   if [strict], when the address is no multiple of w.  (That the standard
   also forbids the access because the bytes are no object of that integer
   type is ignored: with that reading the function is never defined.) *)
Definition fetch (strict le : bool) (w : nat) (b : block) (o : nat) : outcome N :=
  if strict && negb ((addr b + N.of_nat o) mod N.of_nat w =? 0)%N then UB
  else if length (bytes b) <? o + w then UB
  else Ok (load le (sub (bytes b) (o, o + w))).

(* 23789-23790, next_size *)
Definition next_size (n : nat) : nat :=
  if 8 <=? n then 8 else if 4 <=? n then 4 else if 2 <=? n then 2 else 1.

(* 23774-23787, size_impl<K>::cmp: the primary template answers true, the
   specialisations for 8, 4, 2 and 1 compare. *)
Definition size_cmp (strict le : bool) (k : nat) (b1 : block) (o1 : nat) (b2 : block) (o2 : nat) : outcome bool :=
  if (k =? 8) || (k =? 4) || (k =? 2) || (k =? 1) then
    x <- fetch strict le k b1 o1 ;;
    y <- fetch strict le k b2 o2 ;;
    Ok (x =? y)%N
  else Ok true.

(* 23792-23813, memcmp_n_impl<N>::process; the template recursion on N. *)
Fixpoint memcmp_n_impl (strict le : bool) (fuel n : nat) (b1 : block) (o1 : nat) (b2 : block) (o2 : nat)
  : outcome bool :=
  match fuel with
  | O => OutOfFuel
  | S fuel' =>
      if n =? 0 then Ok true
      else
        let size := next_size n in
        c <- size_cmp strict le size b1 o1 b2 o2 ;;
        if c then memcmp_n_impl strict le fuel' (n - size) b1 (o1 + size) b2 (o2 + size)
        else Ok false
  end.

(* 23816-23832, memcmp_n<N>: pointer and array overloads. *)
Definition memcmp_n (strict le : bool) (n : nat) (b1 : block) (o1 : nat) (b2 : block) (o2 : nat) : outcome bool :=
  memcmp_n_impl strict le (S n) n b1 o1 b2 o2.

(* std::fill_n(&a[from], n, t): writes one element after the other. *)
Definition fill_n {T} (a : list T) (from n : nat) (t : T) : outcome (list T) :=
  for_up 0 n (fun i a => wr a (from + i) t) a.
(* std::copy(src, src + n, dest) between two arrays *)
Definition copy_arr {T} (src : list T) (n : nat) (dest : list T) : outcome (list T) :=
  for_up 0 n (fun i d => x <- rd src i ;; wr d i x) dest.
(* std::string(first, last) from an array *)
Definition string_of {T} (s : list T) (r : nat * nat) : outcome (list T) :=
  let (a, b) := r in
  if b <? a then UB
  else for_up a (b - a) (fun i out => x <- rd s i ;; Ok (out ++ [x])) [].

(* 23884-23902, make_string from an array of N = length s characters *)
Definition make_string (s : list ascii) (len : nat) : outcome (list ascii) :=
  if length s <? len then Ok [] else string_of s (0, len).
(* 23904-23907, make_string from a pair of pointers into [s]; also
   range::adapter<const char>::operator std::string and range::as_string,
   942-945, 966-969, 1003-1011. *)
Definition make_string_range (s : list ascii) (r : nat * nat) : outcome (list ascii) := string_of s r.

(* 23909-23917, clear_array on an array of N = length a elements *)
Definition clear_array {T} (a : list T) (t : T) (len : nat) : outcome (bool * list T) :=
  if length a <? len then Ok (false, a)
  else a' <- fill_n a 0 len t ;; Ok (true, a').

(* 23919-23931, set_array from a std::string *)
Definition set_array_string (a s : list ascii) (pad : bool) (padding : ascii) : outcome (bool * list ascii) :=
  if length a <? length s then Ok (false, a)
  else
    a1 <- copy_arr s (length s) a ;;
    if (length s <? length a) && pad then
      a2 <- fill_n a1 (length s) (length a - length s) padding ;; Ok (true, a2)
    else Ok (true, a1).

(* 23933-23945, set_array from an array: copies N, not M, elements of src *)
Definition set_array_array (dest src : list ascii) (pad : bool) (padding : ascii) : outcome (bool * list ascii) :=
  if length dest <? length src then Ok (false, dest)
  else
    d1 <- copy_arr src (length dest) dest ;;
    if (length src <? length dest) && pad then
      d2 <- fill_n d1 (length src) (length dest - length src) padding ;; Ok (true, d2)
    else Ok (true, d1).

(* The object a range refers to: its elements and whether it was defined
   const, in which case a write through const_cast is undefined. *)
Record object (T : Type) : Type := Object { is_const : bool; cells : list T }.
Arguments Object {T}. Arguments is_const {T}. Arguments cells {T}.
Definition put {T} (o : object T) (i : nat) (v : T) : outcome (object T) :=
  if is_const o then UB else c <- wr (cells o) i v ;; Ok (Object false c).

(* 23947-23973, reverse of a character range, an adapter or a string:
   std::reverse on random access iterators exchanges the ends and moves
   inwards. *)
Definition reverse {T} (o : object T) (r : nat * nat) : outcome (object T) :=
  let (a, b) := r in
  if b <? a then UB
  else
    loop (S (b - a))
         (fun '(o, first, last) =>
            if (first =? last) || (first =? last - 1) then Ok (inr o)
            else
              x <- rd (cells o) first ;;
              y <- rd (cells o) (last - 1) ;;
              o1 <- put o first y ;;
              o2 <- put o1 (last - 1) x ;;
              Ok (inl (o2, first + 1, last - 1)))
         (o, a, b).

(* 23975-24000, fill of a string, a character range or an adapter:
   std::fill *)
Definition fill {T} (o : object T) (r : nat * nat) (v : T) : outcome (object T) :=
  let (a, b) := r in
  if b <? a then UB else for_up a (b - a) (fun i o => put o i v) o.
(* 24002-24010, fill of a sequence *)
Definition fill_sequence {T} (seq : list T) (t : T) : outcome (list T) :=
  if length seq =? 0 then Ok seq else fill_n seq 0 (length seq) t.
