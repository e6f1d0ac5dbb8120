(* Text helpers, consecutive-value searches and the field checkers of parse:
   /repo/strtk.hpp 15419-16043 and 16248-16665. *)
From Verif Require Import Base Split_Model Edit_Model Codec_Model Match_Model Num_Model Parse_Model.
Local Open Scope nat_scope.

(* ---------------- alignment, 15421-15487 ---------------- *)
(* The versions for a type T (15447-15487) apply these to type_to_string(t), with ' ' as the
   pad when none is given.  std::string(count,pad) is repeat. *)

(* strtk.hpp 15421-15429 *)
Definition center (width : nat) (pad : ascii) (s : list ascii) : list ascii :=
  if width <=? length s then s
  else
    let pad_count := width - length s in
    let pad_count_2 := Nat.div2 pad_count + (if Nat.odd pad_count then 1 else 0) in
    repeat pad (Nat.div2 pad_count) ++ s ++ repeat pad pad_count_2.

(* strtk.hpp 15431-15437 *)
Definition right_align (width : nat) (pad : ascii) (s : list ascii) : list ascii :=
  if width <=? length s then s else repeat pad (width - length s) ++ s.

(* strtk.hpp 15439-15445 *)
Definition left_align (width : nat) (pad : ascii) (s : list ascii) : list ascii :=
  if width <=? length s then s else s ++ repeat pad (width - length s).

(* strtk.hpp 15489-15508 remaining_string; substr(index, size-index) *)
Definition remaining_string (index : nat) (s : list ascii) (return_empty : bool) : list ascii :=
  if index <? length s then firstn (length s - index) (skipn index s)
  else if return_empty then [] else s.

(* ---------------- character classes, 15510-15560 ---------------- *)
(* comparisons of (signed) char values *)
Definition between (a b c : ascii) : bool := ((schar a <=? schar c) && (schar c <=? schar b))%Z.
(* strtk.hpp 15510-15513 *)
Definition is_letter (c : ascii) : bool := between "A" "Z" c || between "a" "z" c.
(* strtk.hpp 15515-15518 *)
Definition is_lowercase_letter (c : ascii) : bool := between "a" "z" c.
(* strtk.hpp 15520-15523 *)
Definition is_uppercase_letter (c : ascii) : bool := between "A" "Z" c.
(* strtk.hpp 15525-15528 *)
Definition is_digit (c : ascii) : bool := between "0" "9" c.
(* strtk.hpp 15530-15535 *)
Definition is_hex_digit (c : ascii) : bool := between "0" "9" c || between "A" "F" c || between "a" "f" c.
(* strtk.hpp 15537-15540 *)
Definition is_letter_or_digit (c : ascii) : bool := is_letter c || is_digit c.

(* strtk.hpp 15542-15560 is_all_letters and is_all_digits: the same loop *)
Definition is_all (p : ascii -> bool) (s : list ascii) : outcome bool :=
  loop (S (length s))
    (fun i => if i <? length s then c <- rd s i ;; if negb (p c) then Ok (inr false) else Ok (inl (S i))
              else Ok (inr true)) 0.
Definition is_all_letters := is_all is_letter.
Definition is_all_digits := is_all is_digit.

(* ---------------- swap, remove, insert, 15562-15603 ---------------- *)
(* strtk.hpp 15562-15567; swap (15569-15574) is this on a copy *)
Definition swap_inplace (s : list ascii) (i0 i1 : nat) : outcome (list ascii) :=
  if length s <=? i0 then Ok s
  else if length s <=? i1 then Ok s
  else a <- rd s i0 ;; b <- rd s i1 ;; s <- wr s i0 b ;; wr s i1 a.

(* std::memcpy(buf+dst, buf+src, n) inside one buffer.  The ranges must not overlap;
   [ov] = true follows the standard (overlap is undefined), [ov] = false is an
   implementation whose memcpy behaves like memmove. *)
Definition memcpy_within (ov : bool) (buf : list ascii) (dst src n : nat) : outcome (list ascii) :=
  if (length buf <? dst + n) || (length buf <? src + n) then UB
  else if ov && (dst <? src + n) && (src <? dst + n) && negb (n =? 0) then UB
  else Ok (firstn dst buf ++ firstn n (skipn src buf) ++ skipn (dst + n) buf).

(* strtk.hpp 15576-15582; remove (15584-15589) is this on a copy.  The buffer of a
   std::string is its characters and the terminating NUL. *)
Definition remove_inplace (ov : bool) (s : list ascii) (index : nat) : outcome (list ascii) :=
  if length s <=? index then Ok s
  else
    buf <- memcpy_within ov (s ++ [zero]) index (index + 1) (length s - index) ;;
    Ok (firstn (length s - 1) buf).

(* strtk.hpp 15591-15596; insert (15598-15603) is this on a copy.  resize appends a NUL;
   index > size makes the byte count wrap below zero (undefined), and s[size] may only be
   assigned a NUL. *)
Definition insert_inplace (ov : bool) (s : list ascii) (index : nat) (c : ascii) : outcome (list ascii) :=
  let s := s ++ [zero] in
  if length s <? index then UB
  else
    buf <- memcpy_within ov (s ++ [zero]) (index + 1) index (length s - index) ;;
    let s := firstn (length s) buf in
    if index <? length s then wr s index c
    else if Ascii.eqb c zero then Ok s else UB.

(* ---------------- consecutive values, 15636-16043 ---------------- *)
Section Consecutive.
  Context {A : Type}.
  Variable p : A -> bool.

  (* static_cast<unsigned int>(std::distance(itr,end)) *)
  Definition distance32 (s : list A) (itr : nat) : N := (N.of_nat (length s - itr) mod 2 ^ 32)%N.
  (* --count on std::size_t *)
  Definition dec64 (c : N) : N := (if c =? 0 then 2 ^ 64 - 1 else c - 1)%N.

  (* while ((end != itr) && !p( *itr)) ++itr;  15663-15664, 15704-15705 *)
  Definition skip_not (s : list A) (itr : nat) : outcome nat :=
    loop (S (length s))
      (fun itr => if itr =? length s then Ok (inr itr)
                  else c <- rd s itr ;; if p c then Ok (inr itr) else Ok (inl (S itr))) itr.

  (* strtk.hpp 15636-15676.  Moving the iterator before the first or past the end of the
     range is undefined (advance at 15656, ++itr at 15670). *)
  Definition find_exactly_n (n : N) (s : list A) (itr : nat) (stateful_predicate : bool)
    : outcome (nat * nat) :=
    if (distance32 s itr <? n)%N then Ok (length s, length s)
    else
      loop (S (length s))
        (fun '(itr, count) =>
           if itr =? length s then Ok (inr (length s, length s))
           else
             c <- rd s itr ;;
             if p c then
               let count := dec64 count in
               if negb (count =? 0)%N then Ok (inl (S itr, count))
               else if (N.of_nat itr + 1 <? n)%N then UB
               else let i := S itr - N.to_nat n in Ok (inr (i, i + N.to_nat n))
             else
               itr <- skip_not s (S itr) ;;
               if negb stateful_predicate then Ok (inl (itr, n))
               else if itr =? length s then UB
               else Ok (inl (S itr, dec64 count)))
        (itr, n).

  (* std::advance(itr,-static_cast<int>(count)) and the range (itr, itr + count): for a
     count of 2^31 or more the conversion to int no longer yields count, and the range built
     from it leaves the buffer. *)
  Definition back_range (itr : nat) (count : N) : outcome (nat * nat) :=
    if (count <? 2 ^ 31)%N && (N.to_nat count <=? itr) then
      Ok (itr - N.to_nat count, itr - N.to_nat count + N.to_nat count)
    else UB.

  (* strtk.hpp 15678-15717 *)
  Definition find_atleast_n (n : N) (s : list A) (itr : nat) : outcome (nat * nat) :=
    if (distance32 s itr <? n)%N then Ok (length s, length s)
    else
      loop (S (length s))
        (fun '(itr, count) =>
           if itr =? length s then
             if (n <=? count)%N then r <- back_range itr count ;; Ok (inr r)
             else Ok (inr (length s, length s))
           else
             c <- rd s itr ;;
             if p c then Ok (inl (S itr, (count + 1)%N))
             else if (n <=? count)%N then r <- back_range itr count ;; Ok (inr r)
             else itr <- skip_not s itr ;; Ok (inl (itr, 0%N)))
        (itr, 0%N).

  (* strtk.hpp 15751-15776 *)
  Definition match_exactly_n (n : N) (s : list A) (itr : nat) : outcome bool :=
    if (distance32 s itr <? n)%N then Ok false
    else
      loop (S (length s))
        (fun '(itr, count) =>
           if itr =? length s then Ok (inr false)
           else
             c <- rd s itr ;;
             if p c then
               let count := dec64 count in
               if (count =? 0)%N then Ok (inr true) else Ok (inl (S itr, count))
             else Ok (inr false))
        (itr, n).

  (* strtk.hpp 15778-15803 *)
  Definition match_atleast_n (n : N) (s : list A) (itr : nat) : outcome bool :=
    if (distance32 s itr <? n)%N then Ok false
    else
      loop (S (length s))
        (fun '(itr, count) =>
           if itr =? length s then Ok (inr false)
           else
             c <- rd s itr ;;
             if p c then Ok (inl (S itr, (count + 1)%N))
             else if (n <=? count)%N then Ok (inr true) else Ok (inr false))
        (itr, 0%N).
End Consecutive.

(* strtk.hpp 15607-15628 *)
Inductive find_mode := exactly_n | atleast_n.
Inductive find_type := digits | letters | lowercase_letters | uppercase_letters | letters_digits.

(* the predicates chosen at 15828-15853 and 15865-15890 *)
Definition type_pred (t : find_type) : ascii -> bool :=
  match t with
  | digits => is_digit
  | letters => is_letter
  | lowercase_letters => is_lowercase_letter
  | uppercase_letters => is_uppercase_letter
  | letters_digits => is_letter_or_digit
  end.

(* strtk.hpp 15736-15749 *)
Definition find_n_values {A} (n : N) (m : find_mode) (p : A -> bool) (s : list A) (itr : nat) :=
  match m with
  | exactly_n => find_exactly_n p n s itr false
  | atleast_n => find_atleast_n p n s itr
  end.
(* strtk.hpp 15805-15818 *)
Definition match_n_values {A} (n : N) (m : find_mode) (p : A -> bool) (s : list A) (itr : nat) :=
  match m with
  | exactly_n => match_exactly_n p n s itr
  | atleast_n => match_atleast_n p n s itr
  end.
(* strtk.hpp 15822-15857 (the default cases need an invalid enum value and are left out) *)
Definition find_n_consecutive (n : N) (t : find_type) (m : find_mode) (s : list ascii) (itr : nat) :=
  find_n_values n m (type_pred t) s itr.
(* strtk.hpp 15859-15894 *)
Definition match_n_consecutive (n : N) (t : find_type) (m : find_mode) (s : list ascii) (itr : nat) :=
  match_n_values n m (type_pred t) s itr.

Section SplitConsecutive.
  Context {A : Type}.
  (* the search called from the loop *)
  Variable find : list A -> nat -> outcome (nat * nat).

  (* the loop of 15912-15931 and 15988-16003 *)
  Definition split_found (s : list A) : outcome (list (nat * nat) * nat) :=
    loop (S (length s))
      (fun '(first, out, match_count) =>
         if first =? length s then Ok (inr (out, match_count))
         else
           f <- find s first ;;
           if (fst f =? length s) && (fst f =? snd f) then Ok (inr (out, match_count))
           else Ok (inl (snd f, out ++ [f], S match_count)))
      (0, [], 0).

  (* the loop of 15953-15967 and 16025-16040, at most n rounds expected *)
  Definition split_found_n (n : N) (s : list A) : outcome (list (nat * nat) * nat) :=
    loop (S (length s))
      (fun '(first, out, match_count) =>
         if (first =? length s) || negb (N.of_nat match_count <=? n)%N then Ok (inr (out, match_count))
         else
           f <- find s first ;;
           if (fst f =? length s) && (fst f =? snd f) then Ok (inr (out, match_count))
           else Ok (inl (snd f, out ++ [f], S match_count)))
      (0, [], 0).
End SplitConsecutive.

(* strtk.hpp 15896-15934 *)
Definition split_on_consecutive {A} (n : N) (p : A -> bool) (s : list A) (stateful_predicate : bool) :=
  if (n =? 0)%N then Ok ([], 0)
  else split_found (fun s i => find_exactly_n p n s i stateful_predicate) s.
(* strtk.hpp 15936-15970 *)
Definition split_on_consecutive_nm {A} (n m : N) (p : A -> bool) (s : list A) :=
  if (n =? 0)%N then Ok ([], 0)
  else split_found_n (fun s i => find_exactly_n p m s i false) n s.
(* strtk.hpp 15972-16006 *)
Definition split_on_consecutive_type (n : N) (t : find_type) (m : find_mode) (s : list ascii) :=
  if (n =? 0)%N then Ok ([], 0)
  else split_found (find_n_consecutive n t m) s.
(* strtk.hpp 16008-16043 *)
Definition split_on_consecutive_n (n m : N) (t : find_type) (mode : find_mode) (s : list ascii) :=
  if (n =? 0)%N then Ok ([], 0)
  else split_found_n (find_n_consecutive m t mode) n s.

(* ---------------- field checkers, 16248-16665 ---------------- *)
(* They are used as targets of parse: each is a converter from the text of a field. *)

(* std::equal(a, a + |a|, b) with a predicate that may be undefined; b has the same length *)
Definition std_equal (eqv : ascii -> ascii -> outcome bool) (a b : list ascii) : outcome bool :=
  loop (S (length a))
    (fun i => if i =? length a then Ok (inr true)
              else x <- rd a i ;; y <- rd b i ;; r <- eqv x y ;;
                   if r : bool then Ok (inl (S i)) else Ok (inr false)) 0.

(* strtk.hpp 16248-16278 *)
Definition expect (s : list ascii) : converter unit := fun x t =>
  if negb (length x =? length s) then Ok (false, t)
  else b <- std_equal (fun c d => Ok (Ascii.eqb c d)) s x ;; Ok (b, t).
(* strtk.hpp 16280-16310 *)
Definition iexpect (s : list ascii) : converter unit := fun x t =>
  if negb (length x =? length s) then Ok (false, t)
  else b <- std_equal imatch_char s x ;; Ok (b, t).
(* strtk.hpp 16312-16342; the field is a part of a longer text, [after] is what follows it *)
Definition like (pt after : list ascii) : converter unit := fun x t =>
  b <- match_impl Ascii.eqb Ascii.eqb "*"%char "?"%char pt (x ++ after) (length x) ;; Ok (b, t).

(* strtk.hpp 16344-16385; [temp] is the value of the uninitialised local *)
Definition inrange {T} (conv : converter T) (ltb : T -> T -> bool) (temp low hi : T) : converter T := fun x t =>
  ' (b, temp) <- conv x temp ;;
  if negb b then Ok (false, t)
  else if ltb temp low then Ok (false, t)
  else if ltb hi temp then Ok (false, t)
  else Ok (true, temp).

(* the switch at 16401-16407 and 16425-16431; None is the default case *)
Definition trim_switch (mode : nat) (rem_chars s : list ascii) : outcome (option (list ascii)) :=
  let q := multiple_char_delimiter_predicate rem_chars in
  match mode with
  | 0 => s <- remove_leading_trailing q s ;; Ok (Some s)
  | 1 => s <- remove_leading_str q s ;; Ok (Some s)
  | 2 => s <- remove_trailing_str q s ;; Ok (Some s)
  | _ => Ok None
  end.
(* strtk.hpp 16389-16411; trim, trim_leading, trim_trailing (16607-16623) are modes 0, 1, 2 *)
Definition trim_to {T} (conv : converter T) (mode : nat) (rem_chars : list ascii) : converter T := fun x t =>
  ' (b, s) <- conv_string x [] ;;
  if negb b then Ok (false, t)
  else o <- trim_switch mode rem_chars s ;;
       match o with None => Ok (false, t) | Some s => conv s t end.
(* strtk.hpp 16413-16435 *)
Definition trim_string (mode : nat) (rem_chars : list ascii) : converter (list ascii) := fun x t =>
  ' (b, t) <- conv_string x t ;;
  if negb b then Ok (false, t)
  else o <- trim_switch mode rem_chars t ;;
       match o with None => Ok (false, t) | Some s => Ok (true, s) end.

(* strtk.hpp 16469-16494 and 16496-16521 *)
Definition as_lcase : converter (list ascii) := fun x _ =>
  s <- convert_to_lowercase x ;; Ok (true, s).
Definition as_ucase : converter (list ascii) := fun x _ =>
  s <- convert_to_uppercase x ;; Ok (true, s).

(* strtk.hpp 16523-16583 fill_array(data,size): the target is the array behind data; the
   versions of 16645-16665 take the size of the array or string itself *)
Definition fill_array (size : nat) : converter (list ascii) := fun x data =>
  if negb (length x =? size) then Ok (false, data)
  else if length data <? size then UB
  else Ok (true, x ++ skipn size data).
