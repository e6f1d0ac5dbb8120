(* token_grid: /repo/strtk.hpp 1147-1192 (index_remover) and 5195-7611.
   The text is a list [buf]; a token (pair of pointers into the buffer) is a pair of offsets.
   std::deque is a list.  Index arithmetic of type index_t (unsigned int) is modulo 2^32.
   Not modelled: store::max_column, remove_row_range and remove_column, which no public
   member reaches; std::string::reserve (no observable effect, but
   the two tokens its argument looks at are read here too).  The ownership of the buffer is
   modelled in Life_Model.v. *)
From Verif Require Import Base Split_Model.
Local Open Scope nat_scope.

Definition u32 (x : N) : N := (x mod 2 ^ 32)%N.
Definition sub32 (a b : N) : N := u32 (a + 2 ^ 32 - u32 b).
Definition sub64 (a b : N) : N := ((a + 2 ^ 64 - b) mod 2 ^ 64)%N.
(* *(begin + i) and container[i] *)
Definition at_ {A} (l : list A) (i : N) : outcome A :=
  if (i <? N.of_nat (length l))%N then rd l (N.to_nat i) else UB.
Definition set_ {A} (l : list A) (i : N) (v : A) : outcome (list A) :=
  if (i <? N.of_nat (length l))%N then wr l (N.to_nat i) v else UB.
(* deque::erase of n elements from position i *)
Definition erase_at {A} (l : list A) (i n : N) : outcome (list A) :=
  if (i + n <=? N.of_nat (length l))%N
  then Ok (firstn (N.to_nat i) l ++ skipn (N.to_nat i + N.to_nat n) l)
  else UB.
(* for (std::size_t i = a; i < b; ++i) *)
Definition for_range {S} (a b : N) (body : N -> S -> outcome S) (st : S) : outcome S :=
  for_up (N.to_nat a) (N.to_nat b - N.to_nat a) (fun i => body (N.of_nat i)) st.

Definition tok := (nat * nat)%type.
Definition row_ix := (N * N)%type.
(* store, 5210-5218, with min_column_count_ and max_column_count_, 7606-7607 *)
Record grid := Grid { tokens : list tok; rows : list row_ix; min_c : N; max_c : N }.
Definition with_store (g : grid) (t : list tok) (r : list row_ix) : grid := Grid t r (min_c g) (max_c g).
Definition empty_grid : grid := Grid [] [] 0 0.

(* store::token_count, 5267-5270 *)
Definition token_count (r : row_ix) : N := u32 (sub32 (snd r) (fst r) + 1).
(* std::numeric_limits<std::size_t>::max() *)
Definition size_max : N := 18446744073709551615%N.
Definition row_count (g : grid) : N := N.of_nat (length (rows g)).

(* ------------------------------------------------------------------ *)
(* Loading *)

(* row_processor::operator(), 5439-5457.  [splitter] is split(token_predicate_,...) on the
   characters of the row; Q is the state of the token predicate. *)
Definition shift (b : nat) (t : tok) : tok := (b + fst t, b + snd t).
Definition row_process {Q} (splitter : Q -> list ascii -> outcome (Q * (list tok * nat)))
    (buf : list ascii) (st : list tok * list row_ix * Q) (range : tok) : outcome (list tok * list row_ix * Q) :=
  let '(tl, ix, q) := st in
  if fst range =? snd range then Ok st
  else
    let start := u32 (N.of_nat (length tl)) in
    ' (q, r) <- splitter q (sub buf range) ;;
    let '(toks, n) := r in
    let last := sub32 (u32 (start + N.of_nat n)) 1 in
    Ok (tl ++ map (shift (fst range)) toks, ix ++ [(start, last)], q).
Fixpoint process_rows {Q} (splitter : Q -> list ascii -> outcome (Q * (list tok * nat)))
    (buf : list ascii) (st : list tok * list row_ix * Q) (ranges : list tok) : outcome (list tok * list row_ix * Q) :=
  match ranges with
  | [] => Ok st
  | r :: rs => st <- row_process splitter buf st r ;; process_rows splitter buf st rs
  end.

(* update_minmax_columns, 7583-7598 *)
Definition update_minmax_columns (g : grid) : outcome grid :=
  ' (mn, mx) <- for_range 0 (row_count g)
    (fun i '(mn, mx) =>
       r <- at_ (rows g) i ;;
       let n := token_count r in
       let mx := if (mx <? n)%N then n else mx in
       let mn := if (n <? mn)%N then n else mn in
       Ok (mn, mx)) (size_max, 0%N) ;;
  Ok (Grid (tokens g) (rows g) mn mx).

(* options, 5489-5544; row_split_option is never used *)
Record options := Options {
  column_split_option : N; row_delimiters : list ascii; column_delimiters : list ascii;
  support_dquotes : bool; trim_dquotes : bool }.

(* double_quotes_predicate::operator(), 7451-7462: new in_bracket_range_ and result *)
Definition dquote : ascii := ascii_of_nat 34.
Definition dq_step (mdp : ascii -> bool) (q : bool) (c : ascii) : bool * bool :=
  if Ascii.eqb dquote c then (negb q, false)
  else if q then (q, false)
  else (q, mdp c).

(* split, 3301-3399, with a predicate that has a state: Split_Model.split with the state
   handed on from call to call. *)
Section Stateful.
Context {Q A : Type}.
Variable step : Q -> A -> Q * bool.
Definition skip_delims_s (s : list A) (q : Q) (i : nat) : outcome (Q * nat) :=
  loop (S (length s))
    (fun '(q, i) => if i =? length s then Ok (inr (q, i))
              else c <- rd s i ;;
                   let '(q, b) := step q c in
                   if b : bool then Ok (inl (q, S i)) else Ok (inr (q, i))) (q, i).
Definition skip_delims_pre_s (s : list A) (q : Q) (i : nat) : outcome (Q * nat) :=
  loop (S (length s))
    (fun '(q, i) => let j := S i in
              if j =? length s then Ok (inr (q, j))
              else c <- rd s j ;;
                   let '(q, b) := step q c in
                   if b : bool then Ok (inl (q, j)) else Ok (inr (q, j))) (q, i).
Definition last_token_s (s : list A) (q : Q) (f i : nat) (out : list tok) (n : nat) : outcome (Q * (list tok * nat)) :=
  if negb (f =? i) then Ok (q, (out ++ [(f,i)], S n))
  else match i with
       | 0 => UB
       | S j => c <- rd s j ;;
                let '(q, b) := step q c in
                if b : bool then Ok (q, (out ++ [(f,i)], S n)) else Ok (q, (out, n))
       end.
Definition split_compress_s (q : Q) (s : list A) : outcome (Q * (list tok * nat)) :=
  ' (q, f, i, out, n) <-
    loop (S (length s))
      (fun '(q, f, i, out, n) =>
         if i =? length s then Ok (inr (q, f, i, out, n))
         else c <- rd s i ;;
              let '(q, b) := step q c in
              if b : bool then
                ' (q, j) <- skip_delims_pre_s s q i ;;
                Ok (inl (q, j, (if j =? length s then j else S j), out ++ [(f,i)], S n))
              else Ok (inl (q, f, S i, out, n)))
      (q, 0, 0, [], 0) ;;
  last_token_s s q f i out n.
Definition split_s (opt : N) (q : Q) (s : list A) : outcome (Q * (list tok * nat)) :=
  if length s =? 0 then Ok (q, ([], 0))
  else
  let compress := perform_compress_delimiters opt in
  let inc_1st := perform_include_1st_delimiter opt in
  let inc_all := negb inc_1st && perform_include_all_delimiters opt in
  let inc := inc_1st || inc_all in
  if compress && negb inc then split_compress_s q s
  else
    ' (q, f, i, out, n) <-
      loop (S (length s))
        (fun '(q, f, i, out, n) =>
           if i =? length s then Ok (inr (q, f, i, out, n))
           else c <- rd s i ;;
                let '(q, b) := step q c in
                if b : bool then
                  if inc then
                    ' (q, j) <- (if inc_1st then Ok (q, S i)
                          else if inc_all then skip_delims_s s q i else Ok (q, i)) ;;
                    ' (q, k) <- (if negb inc_all && compress then skip_delims_s s q j else Ok (q, j)) ;;
                    Ok (inl (q, k, k, out ++ [(f,j)], S n))
                  else Ok (inl (q, S i, S i, out ++ [(f,i)], S n))
                else Ok (inl (q, f, S i, out, n)))
        (q, 0, 0, [], 0) ;;
    last_token_s s q f i out n.
End Stateful.

(* trim_dquotes, 7509-7519 *)
Definition trim_token (buf : list ascii) (t : tok) : outcome tok :=
  a <- rd buf (fst t) ;;
  if Ascii.eqb a dquote then
    match snd t with
    | 0 => UB
    | S e => b <- rd buf e ;; if Ascii.eqb b dquote then Ok (S (fst t), e) else Ok t
    end
  else Ok t.
Fixpoint trim_tokens (buf : list ascii) (l : list tok) : outcome (list tok) :=
  match l with
  | [] => Ok []
  | t :: l => t <- trim_token buf t ;; l <- trim_tokens buf l ;; Ok (t :: l)
  end.

(* load(), 7475-7526, on a buffer.  The rows come from split with compress_delimiters
   whatever row_split_option says; each is handed to the row processor as it is found. *)
Definition load (o : options) (buf : list ascii) : outcome grid :=
  ' (ranges, _) <- split (multiple_char_delimiter_predicate (row_delimiters o)) buf 1 ;;
  if negb (support_dquotes o) then
    ' (tl, ix, _) <- process_rows
        (fun (_ : unit) s => r <- split (multiple_char_delimiter_predicate (column_delimiters o)) s (column_split_option o) ;; Ok (tt, r))
        buf ([], [], tt) ranges ;;
    update_minmax_columns (Grid tl ix 0 0)
  else
    ' (tl, ix, _) <- process_rows
        (fun q s => split_s (dq_step (multiple_char_delimiter_predicate (column_delimiters o))) (column_split_option o) q s)
        buf ([], [], false) ranges ;;
    tl <- (if trim_dquotes o then trim_tokens buf tl else Ok tl) ;;
    update_minmax_columns (Grid tl ix 0 0).

(* ------------------------------------------------------------------ *)
(* Cells and rows *)

(* store::operator(), 5226-5239, and token_grid::token, 6460-6463; None is null_range() *)
Definition token (g : grid) (row col : N) : outcome (option tok) :=
  if (row <? row_count g)%N then
    r <- at_ (rows g) row ;;
    if (col <? token_count r)%N then t <- at_ (tokens g) (fst r + col) ;; Ok (Some t)
    else Ok None
  else Ok None.

(* row_type, 5546-5564, 6293-6295; row(index), 6472-6475 *)
Record row_type := Row { r_index : N; r_size : N; r_begin : N }.
Definition row (g : grid) (i : N) : outcome row_type :=
  r <- at_ (rows g) i ;; Ok (Row i (token_count r) (fst r)).
(* row_type::token, 5595-5598 *)
Definition row_token (g : grid) (rw : row_type) (i : N) : outcome tok := at_ (tokens g) (r_begin rw + i).
(* is_null, 5566-5570 *)
Definition is_null (g : grid) (rw : row_type) (i : N) : outcome bool :=
  t <- row_token g rw i ;; Ok (fst t =? snd t).
(* the tokens of the row, as a predicate or function object sees them *)
Definition row_tokens (g : grid) (rw : row_type) : outcome (list tok) :=
  for_range 0 (r_size rw) (fun i out => t <- row_token g rw i ;; Ok (out ++ [t])) [].
(* range(), 5590-5593 *)
Definition row_range (g : grid) (rw : row_type) : outcome tok :=
  a <- row_token g rw 0 ;; b <- (if (r_size rw =? 0)%N then UB else row_token g rw (r_size rw - 1)) ;;
  Ok (fst a, snd b).
(* raw_length, 5610-5622 *)
Definition raw_length (g : grid) (rw : row_type) : outcome nat :=
  for_range 0 (r_size rw) (fun i n => t <- row_token g rw i ;; Ok (n + (snd t - fst t))) 0.
(* as_string, 5630-5643 *)
Definition as_string (buf : list ascii) (g : grid) (rw : row_type) : outcome (list ascii) :=
  _ <- row_range g rw ;;
  for_range 0 (r_size rw) (fun i s => t <- row_token g rw i ;; Ok (s ++ sub buf t)) [].

Section Conv.
Context {T : Type}.
(* parse_with_index(col0,col1,...,t0,t1,...), 5650-5802; parse(t0,t1,...), 5804-5932, is the
   case of columns 0,1,...: result and the values assigned.  Each target has its own
   converter (string_to_type_converter); what a failed conversion leaves in its own target is
   not modelled. *)
Fixpoint parse_with_index (buf : list ascii) (g : grid) (rw : row_type) (cols : list N)
    (convs : list (list ascii -> option T)) : outcome (bool * list T) :=
  match cols, convs with
  | c :: cols, f :: convs =>
      t <- row_token g rw c ;;
      match f (sub buf t) with
      | None => Ok (false, [])
      | Some v => ' (b, vs) <- parse_with_index buf g rw cols convs ;; Ok (b, v :: vs)
      end
  | _, _ => Ok (true, [])
  end.
Definition parse_row (buf : list ascii) (g : grid) (rw : row_type) (convs : list (list ascii -> option T))
  : outcome (bool * list T) :=
  parse_with_index buf g rw (map N.of_nat (seq 0 (length convs))) convs.
(* validate_column_range, 5948-5956 *)
Definition validate_column_range (rw : row_type) (r : N * N) : bool :=
  if ((r_size rw <? fst r) || (r_size rw <? snd r))%N then false
  else if (snd r <? fst r)%N then false else true.
(* parse(range,sequence), 5967-5991; the set, multiset, queue, stack and priority_queue
   versions 5993-6117 differ in the insertion only *)
Definition parse_range (conv : list ascii -> option T) (buf : list ascii) (g : grid) (rw : row_type) (r : N * N) (sq : list T)
  : outcome (bool * list T) :=
  if negb (validate_column_range rw r) then Ok (false, sq)
  else
    loop (S (N.to_nat (snd r)))
      (fun '(i, sq) =>
         if (i =? snd r)%N then Ok (inr (true, sq))
         else t <- row_token g rw i ;;
              match conv (sub buf t) with
              | Some v => Ok (inl (i + 1, sq ++ [v]))%N
              | None => Ok (inr (false, sq))
              end) (fst r, sq).
(* row_type::range(lower,upper), 5958-5965; parse(sequence), 6119-6161 *)
Definition col_range (rw : row_type) (lower upper : N) : N * N :=
  if negb (upper =? 2 ^ 32 - 1)%N then (lower, upper) else (lower, u32 (r_size rw)).
Definition parse_all (conv : list ascii -> option T) (buf : list ascii) (g : grid) (rw : row_type) (sq : list T)
  : outcome (bool * list T) := parse_range conv buf g rw (col_range rw 0 (2 ^ 32 - 1)) sq.
(* parse_n, 6163-6190: false becomes 0 *)
Definition parse_n (conv : list ascii -> option T) (buf : list ascii) (g : grid) (rw : row_type) (n : N) (sq : list T)
  : outcome (N * list T) :=
  if (n =? 0)%N then Ok (0%N, sq)
  else
    loop (S (N.to_nat (r_size rw)))
      (fun '(i, sq) =>
         if (i =? r_size rw)%N then Ok (inr (i, sq))
         else t <- row_token g rw i ;;
              match conv (sub buf t) with
              | None => Ok (inr (0%N, sq))
              | Some v => if (n =? i + 1)%N then Ok (inr (i + 1, sq ++ [v]))%N else Ok (inl (i + 1, sq ++ [v]))%N
              end) (0%N, sq).
(* parse_checked, 6192-6218 *)
Definition parse_checked (conv : list ascii -> option T) (buf : list ascii) (g : grid) (rw : row_type) (sq : list T)
  : outcome (list T) :=
  for_range 0 (r_size rw)
    (fun i sq => t <- row_token g rw i ;;
       Ok (match conv (sub buf t) with Some v => sq ++ [v] | None => sq end)) sq.
(* for_each_column, 6256-6281; x is the state of the function object *)
Definition for_each_column (f : T -> tok -> T) (g : grid) (rw : row_type) (r : N * N) (x : T) : outcome (N * T) :=
  if negb (validate_column_range rw r) then Ok (0%N, x)
  else for_range (fst r) (snd r) (fun i '(n, x) => t <- row_token g rw i ;; Ok ((n + 1)%N, f x t)) (0%N, x).
End Conv.

(* ------------------------------------------------------------------ *)
(* Rows and columns of the grid *)

(* row_range_invalid, 7571-7581; all_rows, 6477-6480 *)
Definition row_range_invalid (g : grid) (r : N * N) : bool :=
  if (row_count g <? fst r)%N then true
  else if (row_count g <? snd r)%N then true
  else if (snd r <? fst r)%N then true else false.
Definition all_rows (g : grid) : N * N := (0%N, u32 (row_count g)).
(* token_grid::range, 5470-5487: compares with the number of tokens *)
Definition range (g : grid) (lower upper : N) : N * N :=
  if (upper =? 2 ^ 32 - 1)%N then (lower, u32 (N.of_nat (length (tokens g))))
  else if (N.of_nat (length (tokens g)) <? upper)%N then (2 ^ 32 - 1, 2 ^ 32 - 1)%N
  else if (upper <? lower)%N then (2 ^ 32 - 1, 2 ^ 32 - 1)%N
  else (lower, upper).

Section Columns.
Context {T : Type}.
(* extract_column(row_range,index,out), 6540-6562, with an inserting iterator; the bool of
   the second component: process_token (7549-7555) threw std::invalid_argument *)
Definition extract_column (conv : list ascii -> option T) (buf : list ascii) (g : grid) (r : N * N) (index : N) (out : list T)
  : outcome (bool * (bool * list T)) :=
  if (max_c g <? index)%N then Ok (false, (false, out))
  else if row_range_invalid g r then Ok (false, (false, out))
  else
    x <- for_range (fst r) (snd r)
      (fun i '(thrown, out) =>
         if thrown : bool then Ok (thrown, out)
         else
           rw <- at_ (rows g) i ;;
           if (index <? token_count rw)%N then
             t <- at_ (tokens g) (fst rw + index) ;;
             Ok (match conv (sub buf t) with Some v => (false, out ++ [v]) | None => (true, out) end)
           else Ok (false, out)) (false, out) ;;
    Ok (true, x).
(* extract_column_checked, 6482-6504, with an inserting iterator *)
Definition extract_column_checked (conv : list ascii -> option T) (buf : list ascii) (g : grid) (r : N * N) (index : N) (out : list T)
  : outcome (bool * list T) :=
  if (max_c g <? index)%N then Ok (false, out)
  else if row_range_invalid g r then Ok (false, out)
  else
    out <- for_range (fst r) (snd r)
      (fun i out =>
         rw <- at_ (rows g) i ;;
         if (index <? token_count rw)%N then
           t <- at_ (tokens g) (fst rw + index) ;;
           Ok (match conv (sub buf t) with Some v => out ++ [v] | None => out end)
         else Ok out) out ;;
    Ok (true, out).
(* the same with a pointer as output iterator: process_token_checked (7557-7569) takes it by
   value, so the increment is lost *)
Definition extract_column_checked_ptr (conv : list ascii -> option T) (buf : list ascii) (g : grid) (r : N * N) (index : N) (out : list T)
  : outcome (bool * list T) :=
  if (max_c g <? index)%N then Ok (false, out)
  else if row_range_invalid g r then Ok (false, out)
  else
    out <- for_range (fst r) (snd r)
      (fun i out =>
         rw <- at_ (rows g) i ;;
         if (index <? token_count rw)%N then
           t <- at_ (tokens g) (fst rw + index) ;;
           match conv (sub buf t) with Some v => wr out 0 v | None => Ok out end
         else Ok out) out ;;
    Ok (true, out).
(* extract_column with several columns, 6571-6720: rows that have all of them; the values are
   the texts here, one list per column *)
Definition extract_columns (buf : list ascii) (g : grid) (r : N * N) (indices : list N) (outs : list (list (list ascii)))
  : outcome (bool * list (list (list ascii))) :=
  if existsb (fun i => max_c g <? i)%N indices then Ok (false, outs)
  else if row_range_invalid g r then Ok (false, outs)
  else
    let max_index := fold_right N.max 0%N indices in
    outs <- for_range (fst r) (snd r)
      (fun i outs =>
         rw <- at_ (rows g) i ;;
         if (max_index <? token_count rw)%N then
           (fix go (indices : list N) (outs : list (list (list ascii))) :=
              match indices, outs with
              | c :: indices, o :: outs =>
                  t <- at_ (tokens g) (fst rw + c) ;;
                  outs <- go indices outs ;; Ok ((o ++ [sub buf t]) :: outs)
              | _, _ => Ok outs
              end) indices outs
         else Ok outs) outs ;;
    Ok (true, outs).
(* accumulate_row, 6959-6987 *)
Definition accumulate_row (add : T -> T -> T) (conv : list ascii -> option T) (buf : list ascii) (g : grid) (i : N) (result : T)
  : outcome (N * T) :=
  if (row_count g <=? i)%N then Ok (0%N, result)
  else
    rw <- at_ (rows g) i ;;
    loop (S (S (N.to_nat (snd rw))))
      (fun '(itr, n, result) =>
         if (itr =? snd rw + 1)%N then Ok (inr (n, result))
         else t <- at_ (tokens g) itr ;;
              match conv (sub buf t) with
              | Some v => Ok (inl (itr + 1, n + 1, add result v))%N
              | None => Ok (inr (0%N, result))
              end) (fst rw, 0%N, result).
(* accumulate_column, 6989-7020 *)
Definition accumulate_column (add : T -> T -> T) (conv : list ascii -> option T) (buf : list ascii) (g : grid) (col : N) (r : N * N) (result : T)
  : outcome (N * T) :=
  if (max_c g <? col)%N then Ok (0%N, result)
  else if row_range_invalid g r then Ok (0%N, result)
  else
    loop (S (N.to_nat (snd r)))
      (fun '(i, n, result) =>
         if negb (i <? snd r)%N then Ok (inr (n, result))
         else
           rw <- at_ (rows g) i ;;
           if (col <? token_count rw)%N then
             t <- at_ (tokens g) (fst rw + col) ;;
             match conv (sub buf t) with
             | Some v => Ok (inl (i + 1, n + 1, add result v))%N
             | None => Ok (inr (0%N, result))
             end
           else Ok (inl (i + 1, n + 1, result))%N) (fst r, 0%N, result).
(* accumulate_column with a row predicate, 7028-7066 *)
Definition accumulate_column_if (add : T -> T -> T) (conv : list ascii -> option T) (p : N -> list tok -> bool)
    (buf : list ascii) (g : grid) (col : N) (r : N * N) (result : T) : outcome (N * T) :=
  if (max_c g <? col)%N then Ok (0%N, result)
  else if row_range_invalid g r then Ok (0%N, result)
  else
    loop (S (N.to_nat (snd r)))
      (fun '(i, n, result) =>
         if negb (i <? snd r)%N then Ok (inr (n, result))
         else
           rix <- at_ (rows g) i ;;
           if (col <? token_count rix)%N then
             rw <- row g i ;; ts <- row_tokens g rw ;;
             if p i ts then
               t <- row_token g rw col ;;
               match conv (sub buf t) with
               | Some v => Ok (inl (i + 1, n + 1, add result v))%N
               | None => Ok (inr (0%N, result))
               end
             else Ok (inl (i + 1, n, result))%N
           else Ok (inl (i + 1, n, result))%N) (fst r, 0%N, result).
(* for_each_row, 7306-7327; the function sees the row's index and tokens *)
Definition for_each_row (f : T -> N -> list tok -> T) (g : grid) (r : N * N) (x : T) : outcome (N * T) :=
  if row_range_invalid g r then Ok (0%N, x)
  else for_range (fst r) (snd r)
         (fun i '(n, x) => rw <- row g i ;; ts <- row_tokens g rw ;; Ok ((n + 1)%N, f x i ts)) (0%N, x).
(* sequential_partition, 7258-7293; f returns its new state and whether to go on *)
Definition sequential_partition (p : N -> list tok -> bool) (f : T -> N * N -> T * bool) (g : grid) (rr : N * N) (x : T)
  : outcome (bool * T) :=
  if row_range_invalid g rr then Ok (false, x)
  else
    q <- loop (S (N.to_nat (snd rr)))
      (fun '(i, r, x) =>
         if negb (i <? snd rr)%N then Ok (inr (Some r, x))
         else
           rw <- row g i ;; ts <- row_tokens g rw ;;
           if p i ts then
             if negb (fst r =? snd r)%N then
               let '(x, b) := f x (fst r, i) in
               if negb b then Ok (inr (None, x)) else Ok (inl (i + 1, (i, i), x))%N
             else Ok (inl (i + 1, (snd r, snd r), x))%N
           else Ok (inl (i + 1, (fst r, i), x))%N) (fst rr, (fst rr, fst rr), x) ;;
    match q with
    | (None, x) => Ok (false, x)
    | (Some r, x) =>
        if negb (fst r =? snd rr)%N then
          let '(x, b) := f x (fst r, snd rr) in
          if negb b then Ok (false, x) else Ok (true, x)
        else Ok (true, x)
    end.
End Columns.

(* column_width, 6909-6937 *)
Definition column_width (g : grid) (col : N) (r : N * N) : outcome nat :=
  if (max_c g <? col)%N then Ok 0
  else if row_range_invalid g r then Ok 0
  else for_range (fst r) (snd r)
    (fun i w =>
       rw <- at_ (rows g) i ;;
       if (col <? token_count rw)%N then
         t <- at_ (tokens g) (fst rw + col) ;; Ok (Nat.max (snd t - fst t) w)
       else Ok w) 0.
(* get_column_widths, 6939-6947 *)
Definition get_column_widths (g : grid) (columns : list nat) : outcome (list nat) :=
  for_range 0 (max_c g) (fun c out => w <- column_width g c (all_rows g) ;; Ok (out ++ [w])) columns.

(* one step of the joining loops, 7094-7103 and 7182-7191 *)
Definition join_step (delimiter text : list ascii) (st : list ascii * bool) : list ascii * bool :=
  let '(result, appended) := st in
  let result := if negb (length delimiter =? 0) && appended then result ++ delimiter else result in
  if negb (length text =? 0) then (result ++ text, true) else (result, false).
(* join_row, 7076-7109: in the last row, end is the last token itself *)
Definition join_row (buf : list ascii) (g : grid) (i : N) (delimiter result : list ascii) : outcome (bool * list ascii) :=
  if (row_count g <=? i)%N then Ok (false, result)
  else
    rw <- at_ (rows g) i ;;
    let e := (snd rw + (if i <? row_count g - 1 then 1 else 0))%N in
    _ <- at_ (tokens g) (fst rw) ;; _ <- at_ (tokens g) e ;;
    ' (result, _) <- for_range (fst rw) e
      (fun k st => t <- at_ (tokens g) k ;; Ok (join_step delimiter (sub buf t) st)) (result, false) ;;
    Ok (true, result).
(* join_column, 7160-7203 *)
Definition join_column (buf : list ascii) (g : grid) (col : N) (r : N * N) (delimiter result : list ascii) : outcome (bool * list ascii) :=
  if (max_c g <? col)%N then Ok (false, result)
  else if row_range_invalid g r then Ok (false, result)
  else
    ' (result, _) <- for_range (fst r) (snd r)
      (fun i st =>
         rix <- at_ (rows g) i ;;
         if (col <? token_count rix)%N then
           rw <- row g i ;; t <- row_token g rw col ;; Ok (join_step delimiter (sub buf t) st)
         else Ok st) (result, false) ;;
    Ok (true, result).

(* ------------------------------------------------------------------ *)
(* Removal *)

(* token_grid::remove_row, 6722-6728, with store::remove_row, 5241-5265 *)
Definition remove_row (g : grid) (i : N) : outcome grid :=
  if (i <? row_count g)%N then
    r <- at_ (rows g) i ;;
    let n := token_count r in
    tl <- erase_at (tokens g) (fst r) n ;;
    ix <- erase_at (rows g) i 1 ;;
    ix <- for_range i (N.of_nat (length ix))
      (fun k ix => c <- at_ ix k ;; set_ ix k (sub32 (fst c) n, sub32 (snd c) n)) ix ;;
    Ok (with_store g tl ix)
  else Ok g.

(* index_remover_impl::operator(), 1161-1178: itr_ is the list of the indices still to come *)
Record remover := Remover { rem_itr : list N; rem_index : N; rem_check : bool }.
Definition remover_step (r : remover) : outcome (remover * bool) :=
  if rem_check r then
    match rem_itr r with
    | [] => UB
    | k :: rest =>
        if (rem_index r =? k)%N
        then Ok (Remover rest (rem_index r + 1) (match rest with [] => false | _ => true end), true)
        else Ok (Remover (k :: rest) (rem_index r + 1) true, false)
    end
  else Ok (r, false).
(* remove_inplace(index_remover(list),sequence), 1194-1238 *)
Definition remove_indices {A} (ixs : list N) (s : list A) : outcome (list A) :=
  ' (s, n) <- loop (S (length s))
    (fun '(s, itr1, itr2, cnt, r) =>
       if length s =? itr1 then Ok (inr (s, cnt))
       else
         ' (r, b) <- remover_step r ;;
         if b : bool then Ok (inl (s, S itr1, itr2, S cnt, r))
         else
           s' <- (if negb (itr1 =? itr2) then y <- rd s itr1 ;; wr s itr2 y else Ok s) ;;
           Ok (inl (s', S itr1, S itr2, cnt, r)))
    (s, 0, 0, 0, Remover ixs 0 true) ;;
  Ok (firstn (length s - n) s).

(* the part both functions below end with, 6763-6779 and 6824-6839 *)
Definition finish_removal (g : grid) (ix : list row_ix) (b removed : N) (rl tl : list N) : outcome grid :=
  ix <- for_range b (N.of_nat (length ix))
    (fun k ix => c <- at_ ix k ;; set_ ix k (sub32 (fst c) removed, sub32 (snd c) removed)) ix ;;
  ix <- (match rl with [] => Ok ix | _ => remove_indices rl ix end) ;;
  t <- (match tl with [] => Ok (tokens g) | _ => remove_indices tl (tokens g) end) ;;
  Ok (with_store g t ix).

(* remove_row_if, 6730-6782; the predicate sees the row's index and tokens.  The row list is
   changed while the loop runs, the token list only afterwards. *)
Definition remove_row_if (p : N -> list tok -> bool) (g : grid) (rr : N * N) : outcome (bool * grid) :=
  if row_range_invalid g rr then Ok (false, g)
  else
    ' (ix, removed, rl, tl) <- for_range (fst rr) (snd rr)
      (fun i '(ix, removed, rl, tl) =>
         r <- at_ ix i ;;
         rw <- row (with_store g (tokens g) ix) i ;;
         ts <- row_tokens g rw ;;
         let hit := p i ts in
         let rl := if hit then rl ++ [i] else rl in
         let tl := if hit then tl ++ map N.of_nat (seq (N.to_nat (fst r)) (N.to_nat (snd r) + 1 - N.to_nat (fst r))) else tl in
         let temp_r_first := sub64 (fst r) removed in
         let removed := (if hit then removed + r_size rw else removed)%N in
         ix <- set_ ix i (u32 temp_r_first, sub32 (snd r) removed) ;;
         Ok (ix, removed, rl, tl)) (rows g, 0%N, [], []) ;;
    g' <- finish_removal g ix (snd rr) removed rl tl ;;
    Ok (true, g').

(* remove_token_if, 6790-6847 *)
Definition remove_token_if (p : tok -> bool) (g : grid) (rr : N * N) : outcome (N * grid) :=
  if row_range_invalid g rr then Ok (0%N, g)
  else
    ' (ix, removed, rl, tl) <- for_range (fst rr) (snd rr)
      (fun i '(ix, removed, rl, tl) =>
         r <- at_ ix i ;;
         rw <- row (with_store g (tokens g) ix) i ;;
         let temp_r_first := sub64 (fst r) removed in
         ' (removed, tl) <- for_range 0 (r_size rw)
           (fun j '(removed, tl) =>
              t <- row_token g rw j ;;
              Ok (if p t then ((removed + 1)%N, tl ++ [(fst r + j)%N]) else (removed, tl))) (removed, tl) ;;
         let r := (u32 temp_r_first, sub32 (snd r) removed) in
         ix <- set_ ix i r ;;
         Ok (ix, removed, (if (token_count r =? 0)%N then rl ++ [i] else rl), tl)) (rows g, 0%N, [], []) ;;
    g' <- finish_removal g ix (snd rr) removed rl tl ;;
    g' <- (match tl with [] => Ok g' | _ => update_minmax_columns g' end) ;;
    Ok (N.of_nat (length tl), g').
(* remove_empty_tokens, 6849-6857, with is_empty_token, 7404-7410 *)
Definition remove_empty_tokens (g : grid) (rr : N * N) : outcome (N * grid) :=
  remove_token_if (fun t => fst t =? snd t) g rr.

(* enforce_column_count, 6859-6869: the range is only checked; with
   insufficient_number_of_columns, 7412-7424 *)
Definition enforce_column_count (g : grid) (rr : N * N) (n : N) : outcome grid :=
  if row_range_invalid g rr then Ok g
  else
    ' (_, g) <- remove_row_if (fun _ ts => negb (n =? N.of_nat (length ts))%N) g (all_rows g) ;;
    Ok (Grid (tokens g) (rows g) n n).
(* enforce_min_max_column_count, 6876-6887, with 7426-7440 *)
Definition enforce_min_max_column_count (g : grid) (rr : N * N) (mn mx : N) : outcome grid :=
  if row_range_invalid g rr then Ok g
  else
    ' (_, g) <- remove_row_if (fun _ ts => (N.of_nat (length ts) <? mn) || (mx <? N.of_nat (length ts)))%N g (all_rows g) ;;
    Ok (Grid (tokens g) (rows g) mn mx).
(* clear, 6895-6907 *)
Definition clear (g : grid) : grid := Grid [] [] 0 0.
