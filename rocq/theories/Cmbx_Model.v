(* combination_iterator: advancing by a distance and ranges that are not sorted
   (strtk.hpp 12713-12842), and the program of strtk_combinator_example.cpp. *)
From Verif Require Import Base Num_Model Text_Model Comb_Model.
From Verif Require Gen_Model.
Local Open Scope nat_scope.

(* std::sort over elements of which no two different ones are equivalent; only the result is modelled *)
Fixpoint sort_insert {T} (lt : T -> T -> bool) (x : T) (s : list T) : list T :=
  match s with
  | [] => [x]
  | y :: s' => if lt y x then y :: sort_insert lt x s' else x :: s
  end.
Definition std_sort {T} (lt : T -> T -> bool) (s : list T) : list T := fold_right (sort_insert lt) [] s.

(* The constructors with k, strtk.hpp 12713-12725, 12727-12742 (sequence) and 12744-12756
   (string): the iterator and the range afterwards.  begin + k behind the end is undefined. *)
Definition ci_construct {T} (lt : T -> T -> bool) (k : nat) (s : list T) (sorted : bool)
  : outcome (comb_iter * list T) :=
  if length s <? k then UB
  else Ok (ci_start k, if sorted then s else std_sort lt s).

(* operator+=(int), strtk.hpp 12809-12817 *)
Definition ci_advance {T} (lt : T -> T -> bool) (inc : Z) (it : comb_iter) (s : list T)
  : outcome (comb_iter * list T) :=
  if (0 <? inc)%Z then
    for_up 0 (Z.to_nat inc) (fun _ '(it, s) => ci_next lt it s) (it, s)
  else Ok (it, s).

(* join(delimiter,range) over numbers, strtk.hpp 11185-11195 and 11101-11116 *)
Fixpoint join_numbers (output delimiter : list ascii) (xs : list Z) : outcome (list ascii) :=
  match xs with
  | [] => Ok output
  | x :: xs' =>
      t <- format_unsigned x ;;
      match xs' with
      | [] => Ok (output ++ t)
      | _ => join_numbers (output ++ t ++ delimiter) delimiter xs'
      end
  end.

(* unsigned int *)
Definition counting : Gen_Model.int_type := Gen_Model.IntType 0 (2 ^ 32 - 1) false.

(* main, strtk_combinator_example.cpp 36-62, for any n and k (6 and 4 there): what std::cout
   receives.  count is of type std::size_t (unsigned long). *)
Definition combinator (fuel n k : nat) : outcome (list ascii) :=
  uint_list <- Gen_Model.iota_count counting (fun c x => c ++ [x]) [] n 0%Z ;;
  ' (itr, uint_list) <- ci_construct Z.ltb k uint_list true ;;
  loop fuel
    (fun '(itr, s, count, out) =>
       if ci_equal (ci_end s) itr then Ok (inr out)
       else
         t <- format_unsigned count ;;
         line <- join_numbers [] (str " ") (sub s (0, k)) ;;
         let out := out ++ right_align 4 "0" t ++ [ascii_of_nat 9] ++ line ++ [ascii_of_nat 10] in
         ' (itr, s) <- ci_next Z.ltb itr s ;;
         Ok (inl (itr, s, cast t_ulong (count + 1), out)))
    (itr, uint_list, 0%Z, []).
