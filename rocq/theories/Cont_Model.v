(* Helpers on containers of namespace strtk::util: deleting the objects a
   container of pointers owns, listing the keys of a map and the values a
   multimap holds under one key.

   Simplifications.
   - A std container is the list of its elements in iteration order; an
     iterator is an offset; end() is the length; erase(itr) of the standard
     containers returns the iterator following the erased element, which has
     the same offset in the shorter list.
   - A pointer is [None] (null) or the address of an object; the heap maps an
     address to the object living there.  [delete] of an address where no
     object lives is undefined.  Destructors do not touch the container or
     other objects of the heap.
   - std::set and std::multiset hold [delete]d pointers only as keys of nodes
     that clear() frees without calling the comparator. *)
From Verif Require Import Base.
Local Open Scope nat_scope.

Section Heap.
Context {V : Type}.

Definition ptr := option nat.
Definition heap := nat -> option V.

(* The delete expression, as used at strtk.hpp:21442, 21460, 21478, 21495,
   21512, 21532, 21554 and 21576. *)
Definition delete (p : ptr) (h : heap) : outcome heap :=
  match p with
  | None => Ok h
  | Some a =>
      match h a with
      | Some _ => Ok (fun b => if b =? a then None else h b)
      | None => UB
      end
  end.

Context {E : Type}.
(* The pointer of an element: the element itself for sequences and sets, its
   second component for maps and multimaps. *)
Variable proj : E -> ptr.

(* delete_all, strtk.hpp:21432-21447 (sequences), 21449-21465 (map),
   21467-21483 (multimap), 21485-21500 (set), 21502-21517 (multiset): the five
   bodies differ only in [proj]. *)
Definition delete_all (cont : list E) (h : heap) : outcome (list E * heap) :=
  let end_ := length cont in
  h' <- loop (S (length cont))
             (fun '(itr, h) =>
                if end_ =? itr then Ok (inr h)
                else
                  e <- rd cont itr ;;
                  h' <- delete (proj e) h ;;
                  Ok (inl (S itr, h')))
             (0, h) ;;
  Ok ([], h').

(* erase(itr) *)
Definition erase (cont : list E) (itr : nat) : outcome (list E) :=
  if itr <? length cont then Ok (firstn itr cont ++ skipn (S itr) cont) else UB.

(* delete_if, strtk.hpp:21519-21538 (sequences), 21540-21560 (map),
   21562-21582 (multimap).  The set and multiset overloads (21584-21624) apply
   .second to a pointer and compile for no set; they are not modelled.
   The predicate may look at the object the element points to, so it is given
   the heap. *)
Definition delete_if (p : heap -> E -> outcome bool) (cont : list E) (h : heap)
  : outcome (list E * heap) :=
  loop (S (length cont))
       (fun '(itr, cont, h) =>
          if length cont =? itr then Ok (inr (cont, h))
          else
            e <- rd cont itr ;;
            b <- p h e ;;
            if b : bool then
              h' <- delete (proj e) h ;;
              cont' <- erase cont itr ;;
              Ok (inl (itr, cont', h'))
            else Ok (inl (S itr, cont, h)))
       (0, cont, h).

End Heap.

Section Keys.
Context {K T Out : Type}.

(* make_key_list_impl, strtk.hpp:21337-21356.  [out] is what the output
   iterator writes to and [put] the effect of writing one value through it:
   push_back for std::back_inserter, insert for std::inserter. *)
Definition make_key_list_impl (put : Out -> K -> Out) (map_ : list (K * T)) (out : Out) : outcome Out :=
  if length map_ =? 0 then Ok out
  else
    loop (S (length map_))
         (fun '(itr, out) =>
            if length map_ =? itr then Ok (inr out)
            else
              kv <- rd map_ itr ;;
              Ok (inl (S itr, put out (fst kv))))
         (0, out).

(* push_back of a sequence. *)
Definition push_back (s : list K) (k : K) : list K := s ++ [k].

(* insert of std::set: position by the comparator, nothing if an equivalent
   key is there. *)
Fixpoint set_insert (lt : K -> K -> bool) (s : list K) (k : K) : list K :=
  match s with
  | [] => [k]
  | x :: s' =>
      if lt k x then k :: x :: s'
      else if lt x k then x :: set_insert lt s' k
      else x :: s'
  end.

(* insert of std::multiset: after the equivalent keys. *)
Fixpoint multiset_insert (lt : K -> K -> bool) (s : list K) (k : K) : list K :=
  match s with
  | [] => [k]
  | x :: s' => if lt k x then k :: x :: s' else x :: multiset_insert lt s' k
  end.

End Keys.

Section Keys2.
Context {K T : Type}.
(* make_key_list: strtk.hpp:21359-21368 (set), 21370-21379 (multiset),
   21381-21396 (vector, deque, list; the std::queue instance compiles for no
   queue, a queue having no push_back). *)
Definition make_key_list_set lt (map_ : list (K * T)) (s : list K) : outcome (list K) :=
  make_key_list_impl (set_insert lt) map_ s.
Definition make_key_list_multiset lt (map_ : list (K * T)) (s : list K) : outcome (list K) :=
  make_key_list_impl (multiset_insert lt) map_ s.
Definition make_key_list_seq (map_ : list (K * T)) (s : list K) : outcome (list K) :=
  make_key_list_impl push_back map_ s.

(* std::multimap::find: an iterator to an element whose key is equivalent to
   [key], end() if there is none.  The standard leaves open which one when
   there are several: [choose] is the number of the one the implementation
   picks among [n] (the first one if out of range). *)
Definition equivalent (lt : K -> K -> bool) (a b : K) : bool := negb (lt a b) && negb (lt b a).

Fixpoint first_equivalent (lt : K -> K -> bool) (m : list (K * T)) (key : K) : nat :=
  match m with
  | [] => 0
  | (k, _) :: m' => if equivalent lt k key then 0 else S (first_equivalent lt m' key)
  end.

Definition count_equivalent (lt : K -> K -> bool) (m : list (K * T)) (key : K) : nat :=
  length (filter (fun kv => equivalent lt (fst kv) key) m).

Definition multimap_find (lt : K -> K -> bool) (choose : nat -> nat) (m : list (K * T)) (key : K) : nat :=
  let n := count_equivalent lt m key in
  let i := first_equivalent lt m key in
  if choose n <? n then i + choose n else i.

(* make_value_list, strtk.hpp:21400-21417 and, writing through a
   std::back_inserter, 21419-21430.  [eqb] is operator== of the key type. *)
Definition make_value_list (lt eqb : K -> K -> bool) (choose : nat -> nat)
  (m : list (K * T)) (key : K) (out : list T) : outcome (list T) :=
  if length m =? 0 then Ok out
  else
    loop (S (length m))
         (fun '(itr, out) =>
            if length m =? itr then Ok (inr out)
            else
              kv <- rd m itr ;;
              if eqb key (fst kv) then Ok (inl (S itr, out ++ [snd kv]))
              else Ok (inr out))
         (multimap_find lt choose m key, out).
End Keys2.

(* clear, strtk.hpp:21956-21971 (vector, deque, list, priority_queue, stack,
   queue) and 21973-21986 (set, multiset; the multimap instance names a
   three-parameter multimap, which the template parameters make a multimap
   from T to Comparator): swap with a new empty container. *)
Definition clear {T} (cont : list T) : list T :=
  let null_cont := [] in
  let (cont', _) := (null_cont, cont) : list T * list T in cont'.

(* push_back of 1 to 11 values, strtk.hpp:21626-21758 (sequences), 21760-21856
   (set), 21858-21954 (multiset): the values in argument order. *)
Fixpoint push_back_all {T C} (put : C -> T -> C) (c : C) (vs : list T) : C :=
  match vs with
  | [] => c
  | v :: vs' => push_back_all put (put c v) vs'
  end.
