(* Parsing into variables and containers, and joining: strtk.hpp 2609-2700,
   3637-3679, 8023-8745, 8837-9563, 10110-10260, 10410-10921, 10926-11099, 11101-11391.
   The overloads for 1..16 variables are the same text with a different count;
   the model takes the list of targets. *)
From Verif Require Import Base Split_Model Num_Model.
Local Open Scope nat_scope.

(* string_to_type_converter(begin,end,t) for one target type T: from the token's
   characters and the old value of t, the result and the new value of t. *)
Definition converter (T : Type) : Type := list ascii -> T -> outcome (bool * T).

(* one target variable: its type, its converter and its current value *)
Record target := Target { t_type : Type; t_conv : converter t_type; t_val : t_type }.

Definition run_target (t : target) (tok : list ascii) : outcome (bool * target) :=
  ' (b, v) <- t_conv t tok (t_val t) ;; Ok (b, Target (t_type t) (t_conv t) v).

(* The converters of the library for the built-in types. *)
(* unsigned integers, 17377-17433 and signed integers, 17435-17497: result is written
   only on success *)
Definition conv_unsigned (T : ity) (n : num) : converter Z := fun x t =>
  o <- parse_unsigned T n x ;; Ok (match o with Some v => (true, v) | None => (false, t) end).
Definition conv_signed (T : ity) (n : num) : converter Z := fun x t =>
  o <- parse_signed T n x ;; Ok (match o with Some v => (true, v) | None => (false, t) end).
(* char and unsigned char, 17782-17790 *)
Definition conv_byte : converter ascii := fun x t =>
  match x with [c] => Ok (true, c) | _ => Ok (false, t) end.
(* bool, 17792-17800 *)
Definition conv_bool : converter bool := fun x t =>
  match x with [c] => Ok (true, negb (Ascii.eqb c "0")) | _ => Ok (false, t) end.
(* std::string, 17289-17295 *)
Definition conv_string : converter (list ascii) := fun x _ => Ok (true, x).
(* ignore_token, 17802-17807 *)
Definition conv_ignore : converter unit := fun _ t => Ok (true, t).

(* the choice of predicate from the delimiter string: 3667-3678, 8634-8643 *)
Definition delim_pred (delims : list ascii) : ascii -> bool :=
  match delims with
  | [d] => single_delimiter_predicate d
  | _ => multiple_char_delimiter_predicate delims
  end.

(* strtk_cmpstmt(1) .. strtk_cmpstmt(n) over the tokens in token_list: 8051-8073.
   [i] is the offset of itr in token_list; a read past the filled part of
   the array (tokens that were never written) is undefined. *)
Fixpoint convert_all (s : list ascii) (token_list : list (nat * nat)) (i : nat) (ts : list target)
  : outcome (bool * list target) :=
  match ts with
  | [] => Ok (true, [])
  | t :: ts' =>
      r <- rd token_list i ;;
      ' (b, t) <- run_target t (sub s r) ;;
      if negb b then Ok (false, t :: ts')
      else ' (b, ts') <- convert_all s token_list (S i) ts' ;; Ok (b, t :: ts')
  end.

(* parse(begin,end,delimiters,t1..tn), 8023-8619 *)
Definition parse_values (delims s : list ascii) (ts : list target) : outcome (bool * list target) :=
  ' (token_list, parsed_token_count) <- split_n (delim_pred delims) s (length ts) 1 ;;
  if parsed_token_count <? length ts then Ok (false, ts)
  else convert_all s token_list 0 ts.

(* The element conversions of the inserters start from a fresh value t: [d] is what
   it contains. *)
Section Containers.
Context {T C : Type}.
Variable conv : converter T.
Variable d : T.
Variable add : C -> T -> C.       (* push_back / insert / push *)

(* range_to_type_back_inserter_iterator::operator=, 2638-2647 (and the variants for
   sets and queues) *)
Definition insert_range (s : list ascii) (c : C) (r : nat * nat) : outcome C :=
  ' (b, t) <- conv (sub s r) d ;; if b then Ok (add c t) else Ok c.

Definition insert_ranges (s : list ascii) (toks : list (nat * nat)) (c : C) : outcome C :=
  fold_left (fun o r => c <- o ;; insert_range s c r) toks (Ok c).

(* details::parse_impl with such an inserter, 8623-8745 *)
Definition parse_container (delims s : list ascii) (opt : N) (c : C) : outcome (C * nat) :=
  ' (toks, n) <- split (delim_pred delims) s opt ;;
  c <- insert_ranges s toks c ;;
  Ok (c, n).

(* parse_n, 9495-9563; [size] is the container's size() *)
Definition parse_n_container (size : C -> nat) (delims s : list ascii) (n : nat) (opt : N) (c : C)
  : outcome (C * nat) :=
  let original_size := size c in
  ' (toks, _) <- split_n (delim_pred delims) s n opt ;;
  c <- insert_ranges s toks c ;;
  Ok (c, size c - original_size).

(* container_adder::operator(), 9030-9042: stops at the first token that does not
   convert *)
Fixpoint add_all (s : list ascii) (toks : list (nat * nat)) (c : C) : outcome (bool * C) :=
  match toks with
  | [] => Ok (true, c)
  | r :: toks =>
      ' (b, t) <- conv (sub s r) d ;;
      if negb b then Ok (false, c) else add_all s toks (add c t)
  end.

(* parse(begin,end,delimiters,t1..tk,container_adder), 9058-9493 *)
Definition parse_values_rest (delims s : list ascii) (ts : list target) (c : C)
  : outcome (bool * list target * C) :=
  ' (token_list, _) <- split (delim_pred delims) s 1 ;;
  if length token_list <? S (length ts) then Ok (false, ts, c)
  else
    ' (b, ts) <- convert_all s token_list 0 ts ;;
    if negb b then Ok (false, ts, c)
    else ' (b, c) <- add_all s (skipn (length ts) token_list) c ;; Ok (b, ts, c).

(* parse(argc,argv,sequence,break_on_fail), 10107-10130.  tmp keeps its value from one
   round to the next. *)
Fixpoint parse_args_seq (break_on_fail : bool) (argv : list (list ascii)) (i argc : nat) (tmp : T) (c : C)
  : outcome (C * nat) :=
  match argv with
  | [] => Ok (c, argc)
  | a :: argv =>
      ' (b, tmp) <- conv a tmp ;;
      if negb b then
        if break_on_fail then Ok (c, i) else parse_args_seq break_on_fail argv (S i) argc tmp c
      else parse_args_seq break_on_fail argv (S i) argc tmp (add c tmp)
  end.
End Containers.

(* parse(argc,argv,t1..tn), 10132-10290: requires argc == n but reads argv[1] .. argv[n];
   argv[argc] is a null pointer, from which no std::string can be made. *)
Fixpoint parse_args_from (argv : list (list ascii)) (i : nat) (ts : list target) (result : nat)
  : outcome (nat * list target) :=
  match ts with
  | [] => Ok (result, [])
  | t :: ts' =>
      a <- rd argv i ;;
      ' (b, t) <- run_target t a ;;
      if negb b then Ok (result, t :: ts')
      else ' (n, ts') <- parse_args_from argv (S i) ts' (S result) ;; Ok (n, t :: ts')
  end.
Definition parse_args (argv : list (list ascii)) (ts : list target) : outcome (nat * list target) :=
  if negb (length ts =? length argv) then Ok (0, ts)
  else parse_args_from argv 1 ts 0.

(* An input stream: what is left of it, and whether it is still good. *)
Record stream := Stream { rest : list ascii; good : bool }.
Definition newline : ascii := ascii_of_nat 10.
(* std::getline(stream,data): None if it fails.  Reading to the end without a newline
   sets eofbit only. *)
Fixpoint take_line (s : list ascii) : list ascii * list ascii :=
  match s with
  | [] => ([], [])
  | c :: s' => if Ascii.eqb c newline then ([], s') else let '(l, r) := take_line s' in (c :: l, r)
  end.
Definition getline (st : stream) : option (list ascii) * stream :=
  if negb (good st) then (None, st)
  else match rest st with
       | [] => (None, Stream [] false)
       | s => let '(l, r) := take_line s in (Some l, Stream r true)
       end.

(* parse_line(stream,delimiters,t1..tn), 10410-10647 *)
Definition parse_line (st : stream) (delims : list ascii) (ts : list target)
  : outcome (bool * list target * stream) :=
  if negb (good st) then Ok (false, ts, st)
  else
    match getline st with
    | (None, st) => Ok (false, ts, st)
    | (Some data, st) =>
        if (length data =? 0) || (length delims =? 0) then Ok (false, ts, st)
        else ' (b, ts) <- parse_values delims data ts ;; Ok (b, ts, st)
    end.

(* ------------------------------------------------------------------ *)
(* join(output,delimiter,begin,end), 11101-11116, with f = type_to_string *)
Fixpoint join_onto {T} (f : T -> list ascii) (output delimiter : list ascii) (xs : list T) : list ascii :=
  match xs with
  | [] => output
  | x :: xs' =>
      let output := output ++ f x in
      match xs' with
      | [] => output
      | _ => join_onto f (output ++ delimiter) delimiter xs'
      end
  end.
Definition join {T} (f : T -> list ascii) (delimiter : list ascii) (xs : list T) : list ascii :=
  join_onto f [] delimiter xs.   (* 11176-11238 *)

(* join(output,delimiter,argc,argv), 11164-11174 *)
Definition join_args (output delimiter : list ascii) (argv : list (list ascii)) : outcome (list ascii) :=
  for_up 0 (length argv)
    (fun i output => a <- rd argv i ;;
       let output := output ++ a in
       Ok (if Z.of_nat i <? Z.of_nat (length argv) - 1 then output ++ delimiter else output)%Z) output.

(* join_if, 11248-11273 *)
Fixpoint join_if_onto {T} (f : T -> list ascii) (p : T -> bool) (delimiter : list ascii)
    (xs : list T) (first_time : bool) (output : list ascii) : list ascii :=
  match xs with
  | [] => output
  | x :: xs' =>
      if p x then
        let output := if negb first_time then output ++ delimiter else output in
        join_if_onto f p delimiter xs' false (output ++ f x)
      else join_if_onto f p delimiter xs' first_time output
  end.
Definition join_if {T} (f : T -> list ascii) (p : T -> bool) (delimiter : list ascii) (xs : list T) : list ascii :=
  join_if_onto f p delimiter xs true [].

(* construct(output,delimiter,t1..tn), 10923-11099; [texts] are the results of
   type_to_string *)
Fixpoint construct (output delimiter : list ascii) (texts : list (list ascii)) : list ascii :=
  match texts with
  | [] => output
  | [t] => output ++ t
  | t :: texts' => construct ((output ++ t) ++ delimiter) delimiter texts'
  end.

(* replicate, 11430-11460 *)
Definition replicate_onto (n : nat) (s output : list ascii) : list ascii :=
  if n =? 0 then output else fold_left (fun o _ => o ++ s) (seq 0 n) output.
Definition replicate (n : nat) (s : list ascii) : list ascii := replicate_onto n s [].
Definition replicate_inplace (n : nat) (s : list ascii) : list ascii :=
  fold_left (fun o _ => o ++ s) (seq 0 n) s.

(* bracketize, 11462-11482 *)
Definition bracketize {T} (f : T -> list ascii) (pre post : list ascii) (xs : list T) (output : list ascii)
  : list ascii := fold_left (fun o x => o ++ (pre ++ f x ++ post)) xs output.

(* interval_inserter and inserter, 11567-11627: count_ is a size_t *)
Fixpoint insert_interval {T} (interval : N) (v : T) (count : N) (xs : list T) (out : list T) (size : nat)
  : list T * nat :=
  match xs with
  | [] => (out, size)
  | x :: xs' =>
      let out := out ++ [x] in
      let count := ((count + 1) mod 2 ^ 64)%N in
      if (count =? interval)%N then insert_interval interval v 0 xs' (out ++ [v]) (size + 2)
      else insert_interval interval v count xs' out (S size)
  end.

(* std::string::substr(pos,count); pos > size() throws std::out_of_range *)
Definition substr (s : list ascii) (pos : nat) (count : N) : list ascii :=
  firstn (N.to_nat (N.min count (N.of_nat (length s - pos)))) (skipn pos s).
(* cut(r0,r1,begin,end,out), 11718-11735; the difference is a size_t *)
Definition cut (r0 r1 : nat) (xs : list (list ascii)) : list (list ascii) :=
  flat_map (fun s => if length s <? r0 then []
                     else [substr s r0 ((N.of_nat (Nat.min r1 (length s)) + 2 ^ 64 - N.of_nat r0) mod 2 ^ 64)%N]) xs.
(* cut_inplace, 11747-11762 *)
Definition cut_inplace (r0 r1 : nat) (xs : list (list ascii)) : list (list ascii) :=
  map (fun s => if r0 <=? length s
                then substr s r0 ((N.of_nat (Nat.min r1 (length s)) + 2 ^ 64 - N.of_nat r0) mod 2 ^ 64)%N
                else s) xs.

(* translation_table, 11786-11818: 256 entries, built by iota then overwritten in
   order.  The index is static_cast<unsigned int>(c) of a (signed) char, so characters
   from 128 on lead outside the table.  None: the constructor throws. *)
Definition tt_index (c : ascii) : outcome nat :=
  if nat_of_ascii c <? 128 then Ok (nat_of_ascii c) else UB.
Definition translation_table (itable otable : list ascii) : outcome (option (list ascii)) :=
  if negb (length itable =? length otable) then Ok None
  else
    t <- for_up 0 (length itable)
           (fun i t => a <- rd itable i ;; b <- rd otable i ;; k <- tt_index a ;; wr t k b)
           (map ascii_of_nat (seq 0 256)) ;;
    Ok (Some t).
(* translate / translate_inplace, 11820-11830 *)
Fixpoint translate (t : list ascii) (s : list ascii) : outcome (list ascii) :=
  match s with
  | [] => Ok []
  | c :: s' => k <- tt_index c ;; x <- rd t k ;; r <- translate t s' ;; Ok (x :: r)
  end.
