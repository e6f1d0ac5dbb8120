(* Programs of strtk_examples.cpp that enumerate combinations, for any text, and the
   combination_iterator that sorts first. *)
From Verif Require Import Base Comb_Model Parse_Model Tour_Model.
Local Open Scope nat_scope.

(* operator< for char, which is signed *)
Definition signed_char (c : ascii) : Z := let n := Z.of_nat (nat_of_ascii c) in if (n <? 128)%Z then n else (n - 256)%Z.
Definition char_less (a b : ascii) : bool := (signed_char a <? signed_char b)%Z.
Definition tab : ascii := ascii_of_nat 9.

(* combination_example01, 1369-1380, with the text and set_size as arguments: what std::cout receives
   after the title line, and the text afterwards *)
Definition combination_example01 (fuel set_size : nat) (s : list ascii) : outcome (list ascii * list ascii) :=
  loop fuel
    (fun '(s, combination_index, out) =>
       t <- size_text combination_index ;;
       let out := out ++ t ++ [tab] ++ firstn set_size s ++ [newline] in
       ' (s, b) <- next_combination char_less set_size s ;;
       if b then Ok (inl (s, S combination_index, out)) else Ok (inr (out, s)))
    (s, 0, []).

(* combination_iterator(k,begin,end,sorted), strtk.hpp 12713-12725, and a loop over it; sort is std::sort *)
Definition iterate_combinations {T} (sort : list T -> list T) (fuel : nat) (lt : T -> T -> bool) (k : nat) (s : list T) (sorted : bool)
  : outcome (list (list T) * list T) :=
  ci_visit fuel lt k (if sorted then s else sort s).

(* combination_example02, 1382-1416: its loops, with text for the line of one combination: join(" ",range), and the
   characters of the range *)
Definition combination_block {T} (text : list T -> list ascii) (fuel : nat) (lt : T -> T -> bool) (k : nat) (s : list T) : outcome (list ascii) :=
  ' (cs, _) <- ci_visit fuel lt k s ;; Ok (concat (map (fun c => text c ++ [newline]) cs)).
