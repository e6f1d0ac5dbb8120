(* Wildcard and case-insensitive matching: /repo/strtk.hpp 1882-2052, 2087-2122. *)
From Verif Require Import Base Edit_Model.

Section Match.
  Context {A : Type}.
  Variable eqb : A -> A -> bool.   (* operator== of the character type *)
  Variable cmp : A -> A -> bool.   (* Comparator::cmp, strtk.hpp 1884-1900 *)
  Variables zm zo : A.             (* match_zero_or_more, match_zero_or_one *)

  (* ++d_itr: the data lives in the array buf; a pointer may be moved up to one past
     the end of the array, further is undefined. *)
  Definition advance (buf : list A) (d : nat) : outcome nat :=
    if d <? length buf then Ok (S d) else UB.

  (* strtk.hpp 1915-1918 *)
  Definition skip_wild (pt : list A) (p : nat) : outcome nat :=
    loop (S (length pt))
      (fun p =>
         if p =? length pt then Ok (inr p)
         else x <- rd pt p ;;
              if eqb x zm || eqb x zo then Ok (inl (S p)) else Ok (inr p)) p.

  (* strtk.hpp 1925-1928 *)
  Definition skip_to (buf : list A) (dend : nat) (c : A) (d : nat) : outcome nat :=
    loop (S (length buf))
      (fun d =>
         if d =? dend then Ok (inr d)
         else x <- rd buf d ;;
              if cmp c x then Ok (inr d)
              else d <- advance buf d ;; Ok (inl d)) d.

  (* strtk.hpp 1941-1948 *)
  Definition match_end (pt : list A) (dend p d : nat) : outcome bool :=
    if negb (d =? dend) then Ok false
    else if p =? length pt then Ok true
    else x <- rd pt p ;;
         let p := if eqb zm x || eqb zo x then S p else p in
         Ok (length pt =? p).

  (* strtk.hpp 1911-1939, one iteration *)
  Definition match_step (pt buf : list A) (dend : nat) (st : nat * nat)
    : outcome (nat * nat + bool) :=
    let '(p, d) := st in
    if (p =? length pt) || (d =? dend) then r <- match_end pt dend p d ;; Ok (inr r)
    else
      x <- rd pt p ;;
      if eqb zm x then
        p <- skip_wild pt p ;;
        if p =? length pt then Ok (inr true)
        else
          c <- rd pt p ;;
          d <- skip_to buf dend c d ;;
          d <- advance buf d ;;
          Ok (inl (S p, d))
      else if eqb x zo then
        d <- advance buf d ;; Ok (inl (S p, d))
      else
        y <- rd buf d ;;
        if cmp x y then d <- advance buf d ;; Ok (inl (S p, d))
        else Ok (inr false).

  (* strtk.hpp 1902-1949 on pattern pt and the data buf[0..dend) *)
  Definition match_impl (pt buf : list A) (dend : nat) : outcome bool :=
    loop (S (length pt)) (match_step pt buf dend) (0, 0).

  (* match on a range that is a whole array: nothing beyond data_end is ours *)
  Definition match_array (pt data : list A) : outcome bool := match_impl pt data (length data).
End Match.

(* strtk.hpp 1964-1975: std::string data is followed by its terminating NUL *)
Definition match_str (wild_card s : list ascii) : outcome bool :=
  match_impl Ascii.eqb Ascii.eqb "*"%char "?"%char wild_card (s ++ [zero]) (length s).

(* std::toupper(c) for a (signed) char: the argument must be representable as unsigned
   char or be EOF (-1).  "C" locale. *)
Definition toupper_char (c : ascii) : outcome Z :=
  let n := Z.of_N (N_of_ascii c) in
  if (n <? 128)%Z then Ok (if (97 <=? n)%Z && (n <=? 122)%Z then n - 32 else n)%Z
  else if (n =? 255)%Z then Ok (-1)%Z
  else UB.

(* strtk.hpp 1977-1980 *)
Definition imatch_char (c1 c2 : ascii) : outcome bool :=
  u1 <- toupper_char c1 ;; u2 <- toupper_char c2 ;; Ok (u1 =? u2)%Z.

(* strtk.hpp 1982-2020 *)
Definition imatch (s1 s2 : list ascii) : outcome bool :=
  if negb (length s1 =? length s2) then Ok false
  else
    loop (S (length s1))
      (fun '(i1, i2) =>
         if length s1 =? i1 then Ok (inr true)
         else
           a <- rd s1 i1 ;; u1 <- toupper_char a ;;
           b <- rd s2 i2 ;; u2 <- toupper_char b ;;
           if negb (u1 =? u2)%Z then Ok (inr false)
           else Ok (inl (S i1, S i2))) (0, 0).

(* strtk.hpp 2022-2040: position of the first element imatching s, or end *)
Definition imatch_any (s : list ascii) (seq : list (list ascii)) : outcome nat :=
  loop (S (length seq))
    (fun i =>
       if i =? length seq then Ok (inr i)
       else t <- rd seq i ;; b <- imatch s t ;;
            if b : bool then Ok (inr i) else Ok (inl (S i))) 0.

Definition toupper_defined (c : ascii) : bool :=
  match toupper_char c with Ok _ => true | _ => false end.
Definition imatch_charb (c1 c2 : ascii) : bool :=
  match imatch_char c1 c2 with Ok b => b | _ => false end.

(* strtk.hpp 2087-2100 ifind; None is npos.  std::search may compare any of the characters,
   so a single one outside the domain of toupper makes the call undefined (the standard does
   not say which pairs are compared). *)
Definition ifind (pt data : list ascii) : outcome (option nat) :=
  if length data <? length pt then Ok None
  else if forallb toupper_defined (pt ++ data) then
    let r := std_search imatch_charb data pt 0 in
    Ok (if length data =? r then None else Some r)
  else UB.

(* strtk.hpp 2102-2122 ifind_all: the loop of find_all with imatch_char *)
Definition ifind_all (pt data : list ascii) : outcome (list (nat * nat) * nat) :=
  if forallb toupper_defined (pt ++ data) then find_all imatch_charb pt data else UB.
