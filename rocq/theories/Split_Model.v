(* split, split_n and the tokenizer: /repo/strtk.hpp 1015-1145, 2307-2585, 3271-3620.
   A range [begin,end) is a list [s]; an iterator into it is its offset; a token
   std::pair<Iterator,Iterator> is a pair of offsets.  The output iterator is
   modelled by the list of values assigned through it, in order. *)
From Verif Require Import Base.

Notation token := (nat * nat)%type (only parsing).

(* strtk.hpp 1015-1035 single_delimiter_predicate::operator() for char *)
Definition single_delimiter_predicate (d : ascii) : ascii -> bool :=
  fun c => Ascii.eqb d c.

(* strtk.hpp 1134-1142 setup_delimiter_table: a 256-entry table, all false, then
   set to true at the unsigned value of each delimiter. *)
Definition setup_delimiter_table (delims : list ascii) : list bool :=
  fold_left (fun t c => upd t (nat_of_ascii c) true) delims (repeat false 256).

(* strtk.hpp 1105-1145 multiple_char_delimiter_predicate::operator()(char): the
   table is indexed by the unsigned char value.  The table read is in range
   because the index is below 256 (lemma mcdp_in_table). *)
Definition multiple_char_delimiter_predicate (delims : list ascii) : ascii -> bool :=
  fun c => nth (nat_of_ascii c) (setup_delimiter_table delims) false.

(* strtk.hpp 1085-1088 multiple_delimiter_predicate::operator(): std::find over
   a private copy of the delimiters. *)
Definition multiple_delimiter_predicate (delims : list ascii) : ascii -> bool :=
  fun c => existsb (fun d => Ascii.eqb d c) delims.

(* strtk.hpp 3271-3297 split_options and 2307-2333 tokenize_options (identical) *)
Definition perform_compress_delimiters (o : N) : bool := (N.land o 1 =? 1)%N.
Definition perform_include_1st_delimiter (o : N) : bool := (N.land o 2 =? 2)%N.
Definition perform_include_all_delimiters (o : N) : bool := (N.land o 4 =? 4)%N.

Section Split.
  Context {A : Type}.
  Variable delimiter : A -> bool.

  (* while ((end != range.second) && delimiter( *range.second)) ++range.second; *)
  Definition skip_delims (s : list A) (i : nat) : outcome nat :=
    loop (S (length s))
      (fun i => if i =? length s then Ok (inr i)
                else c <- rd s i ;;
                     if delimiter c then Ok (inl (S i)) else Ok (inr i)) i.

  (* while ((end != ++range.second) && delimiter( *range.second)) ; *)
  Definition skip_delims_pre (s : list A) (i : nat) : outcome nat :=
    loop (S (length s))
      (fun i => let j := S i in
                if j =? length s then Ok (inr j)
                else c <- rd s j ;;
                     if delimiter c then Ok (inl j) else Ok (inr j)) i.

  (* if ((range.first != range.second) || delimiter( *(range.second - 1)))
     { *out = range; ++out; ++token_count; }       (3328-3333, 3391-3396, 3612-3617)
     range.second - 1 with range.second = begin is outside the range. *)
  Definition last_token (s : list A) (f i : nat) (out : list token) (n : nat)
    : outcome (list token * nat) :=
    if negb (f =? i) then Ok (out ++ [(f,i)], S n)
    else match i with
         | 0 => UB
         | S j => c <- rd s j ;;
                  if delimiter c then Ok (out ++ [(f,i)], S n) else Ok (out, n)
         end.

  (* strtk.hpp 3301-3336 details::split_compress_delimiters *)
  Definition split_compress_delimiters (s : list A) : outcome (list token * nat) :=
    '(f, i, out, n) <-
      loop (S (length s))
        (fun '(f, i, out, n) =>
           if i =? length s then Ok (inr (f, i, out, n))
           else c <- rd s i ;;
                if delimiter c then
                  j <- skip_delims_pre s i ;;
                  Ok (inl (j, (if j =? length s then j else S j), out ++ [(f,i)], S n))
                else Ok (inl (f, S i, out, n)))
        (0, 0, [], 0) ;;
    last_token s f i out n.

  (* strtk.hpp 3339-3399 split *)
  Definition split (s : list A) (opt : N) : outcome (list token * nat) :=
    if length s =? 0 then Ok ([], 0)
    else
    let compress := perform_compress_delimiters opt in
    let inc_1st := perform_include_1st_delimiter opt in
    let inc_all := negb inc_1st && perform_include_all_delimiters opt in
    let inc := inc_1st || inc_all in
    if compress && negb inc then split_compress_delimiters s
    else
      '(f, i, out, n) <-
        loop (S (length s))
          (fun '(f, i, out, n) =>
             if i =? length s then Ok (inr (f, i, out, n))
             else c <- rd s i ;;
                  if delimiter c then
                    if inc then
                      j <- (if inc_1st then Ok (S i)
                            else if inc_all then skip_delims s i else Ok i) ;;
                      k <- (if negb inc_all && compress then skip_delims s j else Ok j) ;;
                      Ok (inl (k, k, out ++ [(f,j)], S n))
                    else Ok (inl (S i, S i, out ++ [(f,i)], S n))
                  else Ok (inl (f, S i, out, n)))
          (0, 0, [], 0) ;;
      last_token s f i out n.

  (* strtk.hpp 3554-3620 split_n; cnt is the parameter token_count *)
  Definition split_n (s : list A) (cnt : nat) (opt : N) : outcome (list token * nat) :=
    if cnt =? 0 then Ok ([], 0)
    else if length s =? 0 then Ok ([], 0)
    else
    let compress := perform_compress_delimiters opt in
    let inc_1st := perform_include_1st_delimiter opt in
    let inc_all := negb inc_1st && perform_include_all_delimiters opt in
    let inc := inc_1st || inc_all in
    r <-
      loop (S (length s))
        (fun '(f, i, out, n) =>
           if i =? length s then Ok (inr (inl (f, i, out, n)))
           else c <- rd s i ;;
                if delimiter c then
                  if inc then
                    let j := S i in
                    let out' := out ++ [(f,j)] in
                    let n' := S n in
                    if cnt <=? n' then Ok (inr (inr (out', n')))
                    else
                      k <- (if compress then skip_delims s j else Ok j) ;;
                      Ok (inl (k, k, out', n'))
                  else
                    let out' := out ++ [(f,i)] in
                    let n' := S n in
                    if cnt <=? n' then Ok (inr (inr (out', n')))
                    else
                      k <- (if compress then skip_delims_pre s i else Ok (S i)) ;;
                      Ok (inl (k, k, out', n'))
                else Ok (inl (f, S i, out, n)))
        (0, 0, [], 0) ;;
    match r with
    | inl (f, i, out, n) => last_token s f i out n
    | inr res => Ok res
    end.

  (* strtk.hpp 2340-2500 tokenizer_iterator.  The data members end_, predicate_
     and the option flags are constant and kept outside the state. *)
  Record tok_iter := TokIter {
    range_first : nat;           (* range_.first *)
    range_second : nat;          (* range_.second *)
    current_token : token;       (* current_token_ *)
    last_token_done : bool       (* last_token_done_ *)
  }.

  (* strtk.hpp 2373-2430 tokenizer_iterator::operator++() *)
  Definition tok_incr (s : list A) (opt : N) (it : tok_iter) : outcome tok_iter :=
    let compress := perform_compress_delimiters opt in
    let inc_1st := perform_include_1st_delimiter opt in
    let inc_all := perform_include_all_delimiters opt in
    let inc := inc_1st || inc_all in
    if last_token_done it then
      Ok (TokIter (range_second it) (range_second it) (current_token it) true)
    else
      let f := if negb (length s =? range_second it) then range_second it else range_first it in
      r <-
        loop (S (length s))
          (fun i =>
             if i =? length s then Ok (inr (inl i))
             else c <- rd s i ;;
                  if delimiter c then
                    if inc then
                      j <- (if inc_1st then Ok (S i)
                            else if inc_all then skip_delims s i else Ok i) ;;
                      k <- (if negb inc_all && compress then skip_delims s j else Ok j) ;;
                      Ok (inr (inr (TokIter f k (f,j) false)))
                    else
                      k <- (if compress then skip_delims_pre s i else Ok (S i)) ;;
                      Ok (inr (inr (TokIter f k (f,i) false)))
                  else Ok (inl (S i)))
          (range_second it) ;;
      match r with
      | inr it' => Ok it'
      | inl i =>
          (* the loop ran to the end: 2413-2427 (last_token_done_ is false here) *)
          if negb (f =? i) then
            match i with
            | 0 => UB
            | S j => c <- rd s j ;;
                     Ok (TokIter f i (if delimiter c then i else f, i) true)
            end
          else Ok (TokIter f i (current_token it) false)
      end.

  (* strtk.hpp 2353-2371 constructor: range_(begin,begin), current_token_(end,end),
     then operator++ if the range is not empty *)
  Definition tok_make (s : list A) (opt : N) (b : nat) : outcome tok_iter :=
    let it := TokIter b b (length s, length s) false in
    if negb (length s =? b) then tok_incr s opt it else Ok it.

  (* strtk.hpp 2459-2462 operator== (end_ is the same object for both) *)
  Definition tok_eq (a b : tok_iter) : bool :=
    (range_first a =? range_first b) && (range_second a =? range_second b).

  (* for (itr = tok.begin(); itr != tok.end(); ++itr) emit( *itr);
     with tokenizer construction 2513-2523 *)
  Definition tokenize (s : list A) (opt : N) : outcome (list token) :=
    bg <- tok_make s opt 0 ;;
    ed <- tok_make s opt (length s) ;;
    loop (length s + 3)
      (fun '(it, out) =>
         if tok_eq it ed then Ok (inr out)
         else it' <- tok_incr s opt it ;;
              Ok (inl (it', out ++ [current_token it])))
      (bg, []).
End Split.

(* strtk.hpp 3473-3489 split(const std::string& delimiters, const std::string& str, ...):
   picks the predicate by the number of delimiter characters. *)
Definition split_str (delims s : list ascii) (opt : N) : outcome (list token * nat) :=
  match delims with
  | [d] => split (single_delimiter_predicate d) s opt
  | _ => split (multiple_char_delimiter_predicate delims) s opt
  end.
