(* Token filters, size predicates and converting inserters.

   Simplifications.
   - A predicate or output iterator a filter forwards to is represented by the
     list of values it has been given, oldest first.
   - A token range is a pair of offsets into the array [mem] it points into.
     For a std::string the array has the terminating NUL as its last element.
   - The list of patterns [begin_,end_) of filter_on_match is a list. *)
From Verif Require Import Base Match_Model.
Local Open Scope nat_scope.

(* std::equal(first1,last1,first2) with three iterators: p is read in full
   unless a difference is met, mem from offset a on as far as that takes;
   there is no test for the end of mem. *)
Definition std_equal3 (p mem : list ascii) (a : nat) : outcome bool :=
  loop (S (length p))
       (fun i =>
          if i =? length p then Ok (inr true)
          else
            x <- rd p i ;;
            y <- rd mem (a + i) ;;
            if Ascii.eqb x y then Ok (inl (S i)) else Ok (inr false))
       0.

(* The condition of filter_on_match for one pattern, strtk.hpp:7727-7731 (range)
   and 7752-7756 (string: mem is s with its NUL, the range all of s). *)
Definition pattern_matches (case_insensitive : bool) (p mem : list ascii) (r : nat * nat) : outcome bool :=
  if case_insensitive then imatch p (sub mem r)
  else std_equal3 p mem (fst r).

(* filter_on_match::operator()(range), strtk.hpp:7722-7746. *)
Definition filter_on_match_range (pats : list (list ascii)) (case_insensitive allow_through_on_match : bool)
  (mem : list ascii) (r : nat * nat) (out : list (nat * nat)) : outcome (list (nat * nat)) :=
  loop (S (length pats))
       (fun itr =>
          if length pats =? itr then
            Ok (inr (if negb allow_through_on_match then out ++ [r] else out))
          else
            p <- rd pats itr ;;
            b <- pattern_matches case_insensitive p mem r ;;
            if b : bool then Ok (inr (if allow_through_on_match then out ++ [r] else out))
            else Ok (inl (S itr)))
       0.

(* filter_on_match::operator()(std::string), strtk.hpp:7748-7771.  On a match
   the function returns only if allow_through_on_match. *)
Definition filter_on_match_string (pats : list (list ascii)) (case_insensitive allow_through_on_match : bool)
  (s : list ascii) (out : list (list ascii)) : outcome (list (list ascii)) :=
  loop (S (length pats))
       (fun itr =>
          if length pats =? itr then
            Ok (inr (if negb allow_through_on_match then out ++ [s] else out))
          else
            p <- rd pats itr ;;
            b <- pattern_matches case_insensitive p (s ++ [zero]) (0, length s) ;;
            if b : bool then
              if allow_through_on_match then Ok (inr (out ++ [s]))
              else Ok (inl (S itr))
            else Ok (inl (S itr)))
       0.

(* filter_on_wildcard_match::operator()(std::string), strtk.hpp:7688-7694. *)
Definition filter_on_wildcard_match_string (match_pattern : list ascii) (allow_through_on_match : bool)
  (s : list ascii) (out : list (list ascii)) : outcome (list (list ascii)) :=
  b <- match_str match_pattern s ;;
  Ok (if xorb b allow_through_on_match then out ++ [s] else out).

(* filter_on_wildcard_match::operator()(range), strtk.hpp:7679-7686: the data of
   the match is the rest of the array from the start of the range on. *)
Definition filter_on_wildcard_match_range (match_pattern : list ascii) (allow_through_on_match : bool)
  (mem : list ascii) (r : nat * nat) (out : list (nat * nat)) : outcome (list (nat * nat)) :=
  b <- match_impl Ascii.eqb Ascii.eqb "*"%char "?"%char match_pattern (skipn (fst r) mem) (snd r - fst r) ;;
  Ok (if xorb b allow_through_on_match then out ++ [r] else out).

(* filter_non_empty_range::operator(), strtk.hpp:7652-7659. *)
Definition filter_non_empty_range (r : nat * nat) (out : list (nat * nat)) : outcome (list (nat * nat)) :=
  Ok (if negb (fst r =? snd r) then out ++ [r] else out).

(* A filter called for each token in turn, as for_each_token (strtk.hpp:92-110, 4111-4129)
   and the like do. *)
Fixpoint for_tokens {R} (f : R -> list R -> outcome (list R)) (toks : list R) (out : list R) : outcome (list R) :=
  match toks with
  | [] => Ok out
  | r :: toks => out <- f r out ;; for_tokens f toks out
  end.

(* skip_while_matching, strtk.hpp:7786-7798; [itr] and [end_] are offsets in mem. *)
Definition skip_while_matching {A} (predicate : A -> bool) (mem : list A) (itr end_ : nat) : outcome nat :=
  loop (S (length mem))
       (fun itr =>
          if end_ =? itr then Ok (inr itr)
          else
            x <- rd mem itr ;;
            if predicate x then Ok (inl (S itr)) else Ok (inr itr))
       itr.

(* empty_range, nonempty_range, strtk.hpp:7621-7641; d is std::distance(begin,end). *)
Definition empty_range (d : Z) : bool := (0 =? d)%Z.
Definition nonempty_range (d : Z) : bool := negb (0 =? d)%Z.

(* std::size_t and its signed counterpart, 64 bits. *)
Definition to_size_t (z : Z) : Z := (z mod 2 ^ 64)%Z.
Definition to_ptrdiff (z : Z) : Z :=
  let u := to_size_t z in if (u <? 2 ^ 63)%Z then u else (u - 2 ^ 64)%Z.

(* size_equal_to<length>, strtk.hpp:7800-7843: on ranges (7803-7813) a size_t is
   compared with the signed d, which is converted; on containers and strings
   (7815-7842) two size_t are compared. *)
Definition size_equal_to_range (len d : Z) : bool := (len =? to_size_t d)%Z.
Definition size_equal_to (len size : Z) : bool := (len =? size)%Z.
(* size_less_than<length>, strtk.hpp:7845-7888: the range overloads (7848-7858)
   convert length to the signed difference type. *)
Definition size_less_than_range (len d : Z) : bool := (d <? to_ptrdiff len)%Z.
Definition size_less_than (len size : Z) : bool := (size <? len)%Z.
(* size_greater_than<length>, strtk.hpp:7890-7933. *)
Definition size_greater_than_range (len d : Z) : bool := (d >? to_ptrdiff len)%Z.
Definition size_greater_than (len size : Z) : bool := (size >? len)%Z.
(* size_is_even, size_is_odd, strtk.hpp:7935-8021: % of C++ takes the sign of the dividend. *)
Definition size_is_even (d : Z) : bool := (0 =? Z.rem d 2)%Z.
Definition size_is_odd (d : Z) : bool := negb (0 =? Z.rem d 2)%Z.

(* ------------------------------------------------------------------ *)
Section Inserters.
Context {T C : Type}.
(* string_to_type_converter(begin,end,t) on a fresh t: None if it fails
   (strtk.hpp:372-379); a converter that leaves t unset on success is not covered. *)
Variable convert : list ascii -> option T.
(* push_back, insert or push of the container *)
Variable put : C -> T -> C.

(* range_to_type_back_inserter_iterator::operator=(pair) and operator()(pair),
   strtk.hpp:2638-2666; range_to_type_inserter_iterator, 2729-2745;
   range_to_type_push_inserter_iterator, 2801-2818. *)
Definition insert_converted (c : C) (tok : list ascii) : C :=
  match convert tok with
  | Some t => put c t
  | None => c
  end.

(* range_to_type_back_inserter_iterator::operator()(begin,end), strtk.hpp:2668-2672,
   with string_to_type_converter<T>(begin,end), 387-400: None is the exception
   std::invalid_argument. *)
Definition insert_converted_or_throw (c : C) (tok : list ascii) : option C :=
  match convert tok with
  | Some t => Some (put c t)
  | None => None
  end.

(* Writing each token of a list through the iterator, as *out++ = token does:
   operator*, ++ and the copies all refer to the same container
   (strtk.hpp:2674-2687, 2747-2760, 2820-2833). *)
Definition write_through (c : C) (toks : list (list ascii)) : C := fold_left insert_converted toks c.

(* Two inserters on containers with the numbers a and b in a store of
   containers; assigning the first from the second, strtk.hpp:2628-2636 and
   likewise 2719-2727, 2792-2799, 2863-2870, 2926-2934, 2986-2994: the reference
   member stays bound, the container it refers to is assigned. *)
Definition assign_inserter (store : nat -> C) (a b : nat) : nat -> C :=
  if a =? b then store else fun n => if n =? a then store b else store n.

(* range_to_ptr_type_iterator::operator=, strtk.hpp:3058-3085: [mem] is the array
   pointer_ points into, p the offset of pointer_, n insert_count_. *)
Definition ptr_insert (tok : list ascii) (st : list T * nat * nat) : outcome (list T * nat * nat) :=
  let '(mem, p, n) := st in
  match convert tok with
  | Some t => mem <- wr mem p t ;; Ok (mem, S p, S n)
  | None => Ok (mem, p, n)
  end.
Fixpoint ptr_write_through (toks : list (list ascii)) (st : list T * nat * nat) : outcome (list T * nat * nat) :=
  match toks with
  | [] => Ok st
  | tok :: toks => st <- ptr_insert tok st ;; ptr_write_through toks st
  end.
End Inserters.

(* counting_back_inserter_iterator::operator=(const T&), strtk.hpp:3168-3177, on
   a std::size_t counter. *)
Definition count_insert {T} (counter : N) (x : T) : N := ((counter + 1) mod 2 ^ 64)%N.

(* functional_inserter_iterator, strtk.hpp:3205-3263: it holds its own copy of
   the function object.  [f] is the call operator with the state of the object;
   *out++ = x writes through a temporary copy made by ++(int), strtk.hpp:3255-3258,
   so the state changed is the copy's; ( *out) = x; ++out writes through out. *)
Definition functional_post {S T} (f : S -> T -> S) (st : S) (x : T) : S :=
  let tmp := st in let _ := f tmp x in st.
Definition functional_pre {S T} (f : S -> T -> S) (st : S) (x : T) : S := f st x.

(* extract_unique, strtk.hpp:872-880: copy, std::sort with operator<, then
   std::unique_copy with operator==.  [sort] is the library's std::sort. *)
Section Unique.
Context {T : Type}.
Variable sort : list T -> list T.
Variable eqb : T -> T -> bool.
(* keeps an element unless equal to the last one kept *)
Fixpoint unique_from (last : T) (l : list T) : list T :=
  match l with
  | [] => []
  | x :: l' => if eqb last x then unique_from last l' else x :: unique_from x l'
  end.
Definition unique_copy (l : list T) : list T :=
  match l with [] => [] | x :: l' => x :: unique_from x l' end.
Definition extract_unique (l out : list T) : list T := out ++ unique_copy (sort l).
End Unique.
