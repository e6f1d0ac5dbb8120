(* Filling containers: iota (strtk.hpp 11629-11716), min_of_cont and
   max_of_cont (4151-4197), random data and values (11832-11982). *)
From Coq Require Import List Arith NArith ZArith Ascii Bool.
From Verif Require Import Base Binary_Model Mem_Model Cont_Model.
Import ListNotations.
Local Open Scope nat_scope.

(* value++ on an integer type with the values lo..hi.  Signed types as wide
   as int or wider overflow, which is undefined; unsigned types wrap, and so
   do signed types narrower than int, where int is converted back
   (implementation-defined before C++20, modulo on all compilers). *)
Record int_type : Type := IntType { lo : Z; hi : Z; overflows : bool }.
Definition post_inc (ty : int_type) (z : Z) : outcome Z :=
  if (z =? hi ty)%Z then (if overflows ty then UB else Ok (lo ty)) else Ok (z + 1)%Z.

(* strtk.hpp 11629-11639, iota(begin,end,value), also 11641-11645 (adapter)
   and 11694-11700 (sequence).  The overloads for set and multiset with one
   value (11702-11716) assign to const elements and compile for no type. *)
Definition iota_range (ty : int_type) (s : list Z) (r : nat * nat) (value : Z) : outcome (list Z) :=
  let (begin_, end_) := r in
  loop (S (length s))
       (fun '(s, itr, value) =>
          if end_ =? itr then Ok (inr s)
          else
            s' <- wr s itr value ;;
            value' <- post_inc ty value ;;
            Ok (inl (s', S itr, value')))
       (s, begin_, value).

(* 11647-11692, iota(container,count,value) for sequences, sets and multisets
   and iota(count,value,out): [put] is push_back, insert or *out++ =. *)
Fixpoint iota_count {C} (ty : int_type) (put : C -> Z -> C) (c : C) (count : nat) (value : Z) : outcome C :=
  match count with
  | O => Ok c
  | S count' =>
      value' <- post_inc ty value ;;
      iota_count ty put (put c value) count' value'
  end.

(* ------------------------------------------------------------------ *)
Section MinMax.
Context {T : Type}.
Variable lt : T -> T -> bool.     (* operator< of T *)

(* std::min_element and std::max_element: positions *)
Definition min_element (s : list T) : outcome nat :=
  if length s =? 0 then Ok 0
  else
    for_up 1 (length s - 1)
           (fun i smallest =>
              x <- rd s i ;;
              y <- rd s smallest ;;
              Ok (if lt x y then i else smallest)) 0.
Definition max_element (s : list T) : outcome nat :=
  if length s =? 0 then Ok 0
  else
    for_up 1 (length s - 1)
           (fun i largest =>
              x <- rd s i ;;
              y <- rd s largest ;;
              Ok (if lt y x then i else largest)) 0.

(* 4151-4157 and 4175-4181, sequences: the iterator is dereferenced whatever
   it is *)
Definition min_of_cont (s : list T) : outcome T := i <- min_element s ;; rd s i.
Definition max_of_cont (s : list T) : outcome T := i <- max_element s ;; rd s i.
End MinMax.
(* 4159-4173 and 4183-4197, set and multiset (elements in the order of the
   comparator): *begin() and *rbegin() *)
Definition min_of_set {T} (s : list T) : outcome T := rd s 0.
Definition max_of_set {T} (s : list T) : outcome T := if length s =? 0 then UB else rd s (length s - 1).

(* ------------------------------------------------------------------ *)
(* *reinterpret_cast<unsigned int*>(itr) = v for itr at offset o of a block:
   undefined outside the block and, if [strict], at an address that is no
   multiple of four. *)
Definition store4 (strict le : bool) (b : block) (o : Z) (v : N) : outcome block :=
  if (o <? 0)%Z then UB
  else if strict && negb ((addr b + Z.to_N o) mod 4 =? 0)%N then UB
  else if (Z.of_nat (length (bytes b)) <? o + 4)%Z then UB
  else let n := Z.to_nat o in
       Ok (Block (addr b) (firstn n (bytes b) ++ store le 4 v ++ skipn (n + 4) (bytes b))).

(* 11832-11864, generate_random_data(data + start, length, pre_gen_cnt, seed):
   [rnd k] is the number the generator made from [seed] gives at call k. *)
Definition generate_random_data (strict le : bool) (rnd : nat -> N) (b : block) (start length_ pre_gen_cnt : nat) : outcome block :=
  ' (b, k, itr, len) <-
    loop (S length_)
         (fun '(b, k, itr, len) =>
            if 4 <=? len then
              b' <- store4 strict le b itr (rnd k) ;;
              Ok (inl (b', S k, (itr + 4)%Z, len - 4))
            else Ok (inr (b, k, itr, len)))
         (b, pre_gen_cnt, Z.of_nat start, length_) ;;
  if 0 <? len then store4 strict le b (itr - (4 - Z.of_nat len))%Z (rnd k) else Ok b.

(* A generator: its state and one step; [draw] is a distribution on top of
   it, which may take several steps. *)
Section Random.
Context {G T C : Type}.
Variable step : G -> G.
Variable draw : G -> T * G.

Fixpoint steps (n : nat) (g : G) : G := match n with O => g | S n' => steps n' (step g) end.
(* 11896-11922, generate_random_values_impl: ++i, *out++ = rnd() *)
Fixpoint values_impl (put : C -> T -> C) (c : C) (count : nat) (g : G) : C :=
  match count with
  | O => c
  | S count' => let (v, g') := draw g in values_impl put (put c v) count' g'
  end.
(* 11954-11982, generate_random_values *)
Definition generate_random_values (put : C -> T -> C) (c : C) (count : nat) (seeded : G) (pregen : nat) : C :=
  values_impl put c count (steps pregen seeded).

(* 11926-11952, uniform_real_rng: variate_type is a variate_generator over
   rng_type, not rng_type&, so rnd_ holds its own copy of the generator, made
   before pregen steps are taken with rng_. *)
Record real_rng : Type := RealRng { rng_ : G; rnd_ : G }.
Definition uniform_real_rng (seeded : G) (pregen : nat) : real_rng :=
  let r := RealRng seeded seeded in RealRng (steps pregen (rng_ r)) (rnd_ r).
Definition real_call (r : real_rng) : T * real_rng :=
  let (v, g) := draw (rnd_ r) in (v, RealRng (rng_ r) g).
Fixpoint real_calls (n : nat) (r : real_rng) : list T :=
  match n with
  | O => []
  | S n' => let (v, r') := real_call r in v :: real_calls n' r'
  end.
End Random.
