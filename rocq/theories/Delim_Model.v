(* Delimiters given as C strings, delimiter predicates with storage of their own, and
   remove_empty_strings: /repo/strtk.hpp 1015-1103, 1304-1372, 1483-1531, 1561-1663,
   3400-3552, 3621-3708. *)
From Verif Require Import Base Split_Model Edit_Model.
Local Open Scope nat_scope.

(* A const char* is the list of the bytes that may be read from it on; reading further is UB. *)

(* details::strnlength(s,n), 1328-1345: strnlen, or memchr on some systems *)
Definition strnlength (s : list ascii) (n : nat) : outcome nat :=
  loop (S n)
    (fun i => if i =? n then Ok (inr i)
              else c <- rd s i ;; if Ascii.eqb c zero then Ok (inr i) else Ok (inl (S i))) 0.

(* the implicit std::string(const char* ): reads up to the terminating NUL *)
Definition std_string (s : list ascii) : outcome (list ascii) :=
  loop (S (length s))
    (fun i => c <- rd s i ;; if Ascii.eqb c zero then Ok (inr (sub s (0, i))) else Ok (inl (S i))) 0.

(* split(const char* delimiters, range or string, out), 3415-3433, 3455-3471, 3503-3520 *)
Definition split_cstr (delims s : list ascii) (opt : N) : outcome (list token * nat) :=
  n <- strnlength delims 256 ;;
  if 1 =? n then d <- rd delims 0 ;; split (single_delimiter_predicate d) s opt
  else ds <- std_string delims ;; split (multiple_char_delimiter_predicate ds) s opt.

(* split(char, string, out), 3491-3501 *)
Definition split_char (d : ascii) (s : list ascii) (opt : N) : outcome (list token * nat) :=
  split (single_delimiter_predicate d) s opt.

(* split_n(const char* delimiters, string, n, out), 3621-3634: no special case *)
Definition split_n_cstr (delims s : list ascii) (n : nat) (opt : N) : outcome (list token * nat) :=
  ds <- std_string delims ;; split_n (multiple_char_delimiter_predicate ds) s n opt.

(* split_n(std::string delimiters, ...), 3636-3679, and split_n(char, ...), 3681-3693 *)
Definition split_n_str (delims s : list ascii) (n : nat) (opt : N) : outcome (list token * nat) :=
  if 1 =? length delims then d <- rd delims 0 ;; split_n (single_delimiter_predicate d) s n opt
  else split_n (multiple_char_delimiter_predicate delims) s n opt.

(* multiple_char_delimiter_predicate(rem_chars, rem_chars + strnlength(rem_chars,256)) *)
Definition rem_predicate (rem_chars : list ascii) : outcome (ascii -> bool) :=
  n <- strnlength rem_chars 256 ;; Ok (multiple_char_delimiter_predicate (sub rem_chars (0, n))).

(* remove_consecutives_inplace(const char*, string), 1347-1359 *)
Definition remove_consecutives_cstr (rem_chars s : list ascii) : outcome (list ascii) :=
  if length s =? 0 then Ok s
  else p <- rem_predicate rem_chars ;; resized (remove_consecutives_inplace_pred p s).
(* remove_trailing(const char*, string), 1507-1518: no test for an empty string here, but
   remove_trailing has one *)
Definition remove_trailing_cstr (rem_chars s : list ascii) : outcome (list ascii) :=
  p <- rem_predicate rem_chars ;;
  removal_count <- remove_trailing p s ;;
  if 0 <? removal_count then Ok (resize_down s (length s - removal_count)) else Ok s.
(* remove_leading(const char*, string), 1585-1597 *)
Definition remove_leading_cstr (rem_chars s : list ascii) : outcome (list ascii) :=
  if length s =? 0 then Ok s
  else p <- rem_predicate rem_chars ;;
       ' (s, removal_count) <- remove_leading p s ;;
       if 0 <? removal_count then Ok (resize_down s (length s - removal_count)) else Ok s.

(* ---- multiple_delimiter_predicate<T>, 1037-1103 ----
   The copy of the delimiters is in the object's own array of 32 or in an array from the
   heap.  A heap is the list of the arrays in use; None: released.  Cells that were never
   written are None. *)
Section Predicate.
Context {T : Type}.
Variable eqb : T -> T -> bool.

Definition cells := list (option T).
Definition heap := list (option cells).
Definition sbo_size : nat := 32.
(* length_, sbo_buffer, and delimiter_: the number of the array on the heap if it does not
   point to sbo_buffer *)
Record mdp : Type := Mdp { m_length : nat; m_sbo : cells; m_array : option nat }.

(* std::copy(d, d + length, delimiter_) *)
Definition copy_cells (ds : list T) (a : cells) : outcome cells :=
  for_up 0 (length ds) (fun i a => x <- rd ds i ;; wr a i (Some x)) a.

(* the constructors, 1044-1078 *)
Definition mdp_new (h : heap) (ds : list T) : outcome (mdp * heap) :=
  if length ds <=? sbo_size then
    a <- copy_cells ds (repeat None sbo_size) ;; Ok (Mdp (length ds) a None, h)
  else
    a <- copy_cells ds (repeat None (length ds)) ;;
    Ok (Mdp (length ds) (repeat None sbo_size) (Some (length h)), h ++ [Some a]).

Definition mdp_cells (h : heap) (m : mdp) : outcome cells :=
  match m_array m with
  | None => Ok (m_sbo m)
  | Some k => o <- rd h k ;; match o with Some a => Ok a | None => UB end
  end.

(* operator(), 1088-1091: std::find over [delimiter_,delimiter_end_); comparing a cell that
   was never written is UB *)
Definition mdp_test (h : heap) (m : mdp) (d : T) : outcome bool :=
  a <- mdp_cells h m ;;
  loop (S (m_length m))
    (fun i => if i =? m_length m then Ok (inr false)
              else o <- rd a i ;;
                   match o with
                   | None => UB
                   | Some x => if eqb x d then Ok (inr true) else Ok (inl (S i))
                   end) 0.

(* the destructor, 1080-1086: delete[] of an array not in use is UB, so is delete[] of
   sbo_buffer *)
Definition mdp_delete (h : heap) (m : mdp) : outcome heap :=
  if sbo_size <? m_length m then
    match m_array m with
    | None => UB
    | Some k => o <- rd h k ;; match o with Some _ => wr h k None | None => UB end
    end
  else Ok h.
End Predicate.

(* remove_empty_strings(set or multiset), 1633-1663: itr is the offset of the element;
   erase(itr++) leaves itr at the next one *)
Definition remove_empty_set (c : list (list ascii)) : outcome (list (list ascii)) :=
  loop (S (length c))
    (fun '(c, itr) =>
       if itr =? length c then Ok (inr c)
       else x <- rd c itr ;;
            if length x =? 0 then Ok (inl (sub c (0, itr) ++ sub c (S itr, length c), itr))
            else Ok (inl (c, S itr))) (c, 0).
(* remove_empty_strings(sequence), 1618-1624: std::remove_if moves the others to the front
   and seq.erase cuts off the rest; remove_if as in Edit_Model.remove_inplace (the standard
   prescribes its effect).  std::list::remove_if, 1626-1631, has the same effect. *)
Definition remove_empty_seq (c : list (list ascii)) : outcome (list (list ascii)) :=
  ' (c, removed) <- remove_inplace (fun x => length x =? 0) c ;; Ok (resize_down c (length c - removed)).
