(* Random selection with the doubles it computes with, and strtk_randomizer.cpp.  The numbers
   the generator returns are an argument: a list of doubles, used from the front.  The range
   checks on min() and max() (11992, 12039) hold for the generators of the library. *)
From Verif Require Import Base Parse_Model IO_Model Stl_Model Comb_Model Real_Spec.
From Coq Require Import ZArith SpecFloat.
Local Open Scope nat_scope.

(* one call of the generator *)
Definition next (us : list spec_float) : outcome (spec_float * list spec_float) :=
  match us with
  | [] => OutOfFuel
  | u :: us => Ok (u, us)
  end.
(* conversion of std::size_t to double *)
Definition of_size (n : nat) : spec_float := b64 (Z.of_nat n) 0.
(* static_cast<std::size_t> of a double: undefined outside of the range of std::size_t *)
Definition to_size (d : spec_float) : outcome nat :=
  match d with
  | S754_zero _ => Ok 0
  | S754_finite neg m e =>
      let n := (if 0 <=? e then Zpos m * 2 ^ e else Zpos m / 2 ^ (- e))%Z in
      if (n =? 0)%Z then Ok 0 else if neg then UB else if (n <? 2 ^ 64)%Z then Ok (Z.to_nat n) else UB
  | _ => UB
  end.
Definition dmul : spec_float -> spec_float -> spec_float := SFmul 53 1024.
Definition ddiv : spec_float -> spec_float -> spec_float := SFdiv 53 1024.
Definition dadd : spec_float -> spec_float -> spec_float := SFadd 53 1024.

(* random_permutation, 11984-12002 *)
Definition random_permutation_r {T} (us : list spec_float) (s : list T) : outcome (list T) :=
  loop (S (length s))
    (fun '(index, out, us) =>
       if length index =? 0 then Ok (inr out)
       else
         ' (u, us) <- next us ;;
         idx <- to_size (dmul (of_size (length index)) u) ;;
         p <- rd index idx ;; e <- rd s p ;;
         index <- erase_at index idx ;;
         Ok (inl (index, out ++ [e], us)))
    (seq 0 (length s), [], us).

(* random_combination, 12030-12051; None: returns false *)
Definition random_combination_r {T} (us : list spec_float) (s : list T) (set_size : nat) : outcome (option (list T)) :=
  if length s <? set_size then Ok None
  else
    loop (S set_size)
      (fun '(index, out, us, set_size) =>
         if set_size =? 0 then Ok (inr (Some out))
         else
           ' (u, us) <- next us ;;
           idx <- to_size (dmul (of_size (length index)) u) ;;
           p <- rd index idx ;; e <- rd s p ;;
           index <- erase_at index idx ;;
           Ok (inl (index, out ++ [e], us, set_size - 1)))
      (seq 0 (length s), [], us, set_size).

(* select_k_randomly, 12081-12127; [d] is the value elements get from resize on 12092.
   k + 1 on 12111 is taken not to wrap. *)
Definition select_k_randomly_r {T} (d : T) (us : list spec_float) (s : list T) (k : nat)
  : outcome (list T * nat) :=
  ' (sel, index) <- loop (S (length s))
      (fun '(sel, index) =>
         if (index <? k) && negb (index =? length s) then
           e <- rd s index ;; sel <- wr sel index e ;; Ok (inl (sel, S index))
         else Ok (inr (sel, index)))
      (repeat d k, 0) ;;
  if index =? 0 then Ok ([], 0)
  else if index <? k then Ok (firstn index sel, index)
  else
    ' (sel, _, _) <- for_up index (length s - index)
      (fun itr '(sel, n, us) =>
         ' (u, us) <- next us ;;
         ' (sel, us) <-
           (if SFltb u (ddiv (of_size k) n) then
              ' (u, us) <- next us ;;
              i <- to_size (dmul u (of_size k)) ;;
              e <- rd s itr ;; sel <- wr sel i e ;; Ok (sel, us)
            else Ok (sel, us)) ;;
         Ok (sel, dadd n (b64 1 0), us)) (sel, of_size (S k), us) ;;
    Ok (sel, k).

(* select_1_randomly, 12129-12157 *)
Definition select_1_randomly_r {T} (us : list spec_float) (s : list T) : outcome (list T) :=
  if length s =? 0 then Ok []
  else
    ' (sel, _) <- for_up 0 (length s)
      (fun itr '(sel, us) =>
         ' (u, us) <- next us ;;
         if SFltb u (ddiv (b64 1 0) (of_size (S itr))) then e <- rd s itr ;; Ok (Some e, us)
         else Ok (sel, us)) (None, us) ;;
    match sel with Some e => Ok [e] | None => UB end.

(* main of strtk_randomizer.cpp, 37-71: what is written and the exit status, with
   strtk_enable_random; args is argv[1] .. argv[argc - 1] as files of the file system.  A
   std::ostream_iterator with separator writes the separator after every element. *)
Definition permute_lines (us : list spec_float) (str_lst : list (list ascii)) : outcome (list ascii * nat) :=
  if length str_lst =? 0 then Ok ([], 0)
  else
    p <- random_permutation_r us str_lst ;;
    Ok (concat (map (fun l => l ++ [newline]) p), 0).
Definition randomizer (us : list spec_float) (fs : fsys) (args : list nat) (input : list ascii) : outcome (list ascii * nat) :=
  match args with
  | [] =>
      ' (_, _, str_lst, _) <- load_from_text_file Some (Stream input true) [] ;;
      permute_lines us str_lst
  | [f] =>
      ' (_, _, str_lst) <- load_from_file (fun l x => l ++ [x]) Some fs f [] ;;
      permute_lines us str_lst
  | _ => Ok (str "usage: strtk_randomizer <file name>" ++ newline :: str "usage: cat data.txt | strtk_randomizer" ++ [newline], 1)
  end.
