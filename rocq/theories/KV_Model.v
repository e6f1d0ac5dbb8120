(* Key-value parsing, column selection, split_pair and util::value:
   strtk.hpp 4054-4086, 21160-21333, 21990-22115, 22972-23766, 24012-24316.
   Variables given to register_keyvalue and to column selectors are the members of a
   list of targets; a reference to one is its index. *)
From Verif Require Import Base Split_Model Num_Model Parse_Model.
Local Open Scope nat_scope.

(* split_pair, 4054-4086.  v1 and v2 are the old contents of the output pairs; v1 is
   written even when the result is false. *)
Definition split_pair {A} (delimiter : A -> bool) (s : list A) (b e : nat) (v1 v2 : nat * nat)
  : outcome (bool * (nat * nat) * (nat * nat)) :=
  if e - b =? 0 then Ok (false, v1, v2)
  else
    loop (S (e - b))
      (fun itr =>
         if itr =? e then Ok (inr (false, v1, v2))
         else
           c <- rd s itr ;;
           if delimiter c then
             if S itr =? e then Ok (inr (false, (b, itr), v2))
             else Ok (inr (true, (b, itr), (S itr, e)))
           else Ok (inl (S itr)))
      b.

(* keyvalue::parser, 24028-24148.  [lookup] is the key map's step from the key text to
   the registered variable (null value or missing key: None). *)
Section Parser.
Variable lookup : list ascii -> outcome (option nat).
Variable block_delimiter pair_delimiter : ascii.

(* kv_map_(key_range,value_range): 24181-24193, 24280-24294 *)
Definition kv_assign (vars : list target) (k v : list ascii) : outcome (bool * list target) :=
  o <- lookup k ;;
  match o with
  | None => Ok (false, vars)
  | Some i =>
      t <- rd vars i ;;
      ' (b, t) <- run_target t v ;;
      vars <- wr vars i t ;;
      Ok (b, vars)
  end.

(* one range r of the pair list: 24072-24080 *)
Definition kv_pair (s : list ascii) (r : nat * nat) (vars : list target) : outcome (bool * list target) :=
  ' (b, kr, vr) <- split_pair (single_delimiter_predicate pair_delimiter) s (fst r) (snd r) (0, 0) (0, 0) ;;
  if negb b then Ok (false, vars)
  else kv_assign vars (sub s kr) (sub s vr).

(* the loop of operator()(data,false): 24070-24082 *)
Fixpoint kv_pairs (s : list ascii) (pair_list : list (nat * nat)) (vars : list target)
  : outcome (bool * list target) :=
  match pair_list with
  | [] => Ok (true, vars)
  | r :: rs =>
      if snd r - fst r =? 0 then kv_pairs s rs vars
      else
        ' (b, vars) <- kv_pair s r vars ;;
        if negb b then Ok (false, vars) else kv_pairs s rs vars
  end.

(* operator()(data,ignore_failures = false): 24056-24083 *)
Definition kv_parse (s : list ascii) (vars : list target) : outcome (bool * list target) :=
  ' (pair_list, pair_count) <- split (single_delimiter_predicate block_delimiter) s 0 ;;
  if pair_count =? 0 then Ok (false, vars)
  else kv_pairs s pair_list vars.

(* pair_token_processor, called for each token in turn: 24116-24131 *)
Fixpoint kv_pairs_ignore (s : list ascii) (pair_list : list (nat * nat)) (failures : nat) (vars : list target)
  : outcome (nat * list target) :=
  match pair_list with
  | [] => Ok (failures, vars)
  | r :: rs =>
      if fst r =? snd r then kv_pairs_ignore s rs failures vars
      else
        ' (b, vars) <- kv_pair s r vars ;;
        kv_pairs_ignore s rs (if (b : bool) then failures else S failures) vars
  end.

(* operator()(data,true), which always returns true; the result here is
   failure_count(): 24084-24093 *)
Definition kv_parse_ignore (s : list ascii) (vars : list target) : outcome (nat * list target) :=
  ' (pair_list, _) <- split (single_delimiter_predicate block_delimiter) s 0 ;;
  kv_pairs_ignore s pair_list 0 vars.
End Parser.

(* uintkey_map, 24150-24214: value_lut_ has key_count entries *)
Definition uintkey_lookup (lut : list (option nat)) (k : list ascii) : outcome (option nat) :=
  o <- numeric_convert t_ulong (length k) k true ;;
  match o with
  | None => Ok None
  | Some key =>
      if (Z.of_nat (length lut) <=? key)%Z then Ok None
      else rd lut (Z.to_nat key)
  end.
Definition uintkey_register (lut : list (option nat)) (key : nat) (i : nat) : bool * list (option nat) :=
  if key <? length lut then (true, upd lut key (Some i)) else (false, lut).

(* std::map as an association list *)
Definition map_find {K} (eqb : K -> K -> bool) (m : list (K * nat)) (k : K) : option nat :=
  match find (fun p => eqb (fst p) k) m with Some p => Some (snd p) | None => None end.
(* key_map::register_keyvalue, 24296-24305 *)
Definition map_register {K} (eqb : K -> K -> bool) (m : list (K * nat)) (k : K) (i : nat) : list (K * nat) :=
  (k, i) :: filter (fun p => negb (eqb (fst p) k)) m.
Definition string_eqb (a b : list ascii) : bool :=
  if list_eq_dec ascii_dec a b then true else false.
(* key_map<std::string>, 24227-24234 and 24280-24294, with the no_op_validators *)
Definition stringkey_lookup (m : list (list ascii * nat)) (k : list ascii) : outcome (option nat) :=
  Ok (map_find string_eqb m k).
(* keygen<Range,unsigned int>, 24236-24247 *)
Definition keygen_uint (k : list ascii) : outcome Z :=
  o <- numeric_convert t_uint (length k) k true ;;
  Ok (match o with Some v => v | None => hi t_uint end).
Definition uintmap_lookup (m : list (Z * nat)) (k : list ascii) : outcome (option nat) :=
  v <- keygen_uint k ;; Ok (map_find Z.eqb m v).

(* ------------------------------------------------------------------ *)
(* column_selector_iterator_impl, 22975-23033.  target_index_ None is
   std::numeric_limits<std::size_t>::max().  token_list starts as N pairs of null
   iterators, whose (empty) text is that of the range (0,0). *)
Record csii := CSII { cs_tokens : list (nat * nat); cs_current : nat; cs_target : option nat; cs_col : nat }.
Definition csii_next (cols : list nat) (col : nat) : option nat := nth_error cols col.
Definition csii_assign (cols : list nat) (st : csii) (r : nat * nat) : outcome csii :=
  match cs_target st with
  | Some t =>
      if cs_current st =? t then
        toks <- wr (cs_tokens st) (cs_col st) r ;;
        Ok (CSII toks (S (cs_current st)) (csii_next cols (S (cs_col st))) (S (cs_col st)))
      else Ok (CSII (cs_tokens st) (S (cs_current st)) (cs_target st) (cs_col st))
  | None => Ok (CSII (cs_tokens st) (S (cs_current st)) None (cs_col st))
  end.
Definition csii_run (cols : list nat) (rs : list (nat * nat)) : outcome csii :=
  fold_left (fun o r => st <- o ;; csii_assign cols st r) rs
    (Ok (CSII (repeat (0, 0) (length cols)) 0 (nth_error cols 0) 0)).

(* strtk_parse_columns_impl, 23043-23054: the tokens of the selected columns.  cols is
   not empty (N >= 1); index + 1 is taken not to wrap. *)
Definition parse_columns_tokens (delims s : list ascii) (cols : list nat) : outcome (option (list (nat * nat))) :=
  let token_count := S (last cols 0) in
  ' (rs, parsed_token_count) <- split_n (delim_pred delims) s token_count 1 ;;
  st <- csii_run cols rs ;;
  if parsed_token_count <? token_count then Ok None else Ok (Some (cs_tokens st)).

(* parse_columns(begin,end,delimiters,column_list,t0..), 23059-23256 *)
Definition parse_columns (delims s : list ascii) (cols : list nat) (ts : list target)
  : outcome (bool * list target) :=
  o <- parse_columns_tokens delims s cols ;;
  match o with
  | None => Ok (false, ts)
  | Some toks => convert_all s toks 0 ts
  end.
(* parse_columns(begin,end,delimiters,column_list,seq), 23258-23445: writes seq[Index] *)
Fixpoint convert_seq {T} (conv : converter T) (s : list ascii) (toks : list (nat * nat)) (i : nat) (sq : list T)
  : outcome (bool * list T) :=
  match toks with
  | [] => Ok (true, sq)
  | r :: toks =>
      t <- rd sq i ;;
      ' (b, t) <- conv (sub s r) t ;;
      sq <- wr sq i t ;;
      if negb b then Ok (false, sq) else convert_seq conv s toks (S i) sq
  end.
Definition parse_columns_seq {T} (conv : converter T) (delims s : list ascii) (cols : list nat) (sq : list T)
  : outcome (bool * list T) :=
  o <- parse_columns_tokens delims s cols ;;
  match o with
  | None => Ok (false, sq)
  | Some toks => convert_seq conv s toks 0 sq
  end.

(* column_selector_base, 21990-22115: state current_index_, target_index_,
   col_list_index_, error_count_ and the registered values with their flags *)
Record csel := CSel { sel_current : nat; sel_target : option nat; sel_col : nat; sel_errors : nat;
                      sel_values : list (target * bool) }.
Definition csel_init (cols : list nat) (ts : list target) : csel :=
  CSel 0 (nth_error cols 0) 0 0 (map (fun t => (t, false)) ts).
(* process, 22075-22098 *)
Definition csel_process (cols : list nat) (st : csel) (x : list ascii) : outcome csel :=
  let skip := Ok (CSel (S (sel_current st)) (sel_target st) (sel_col st) (sel_errors st) (sel_values st)) in
  match sel_target st with
  | None => skip
  | Some t =>
      if t <? sel_current st then Ok st
      else if sel_current st =? t then
        ' (v, _) <- rd (sel_values st) (sel_col st) ;;
        ' (b, v) <- run_target v x ;;
        vs <- wr (sel_values st) (sel_col st) (v, b) ;;
        Ok (CSel (S (sel_current st)) (nth_error cols (S (sel_col st))) (S (sel_col st))
                 (if (b : bool) then sel_errors st else S (sel_errors st)) vs)
      else skip
  end.
Definition csel_run (cols : list nat) (xs : list (list ascii)) (st : csel) : outcome csel :=
  fold_left (fun o x => st <- o ;; csel_process cols st x) xs (Ok st).
(* reset, 22037-22043 *)
Definition csel_reset (cols : list nat) (st : csel) : csel :=
  CSel 0 (nth_error cols 0) 0 0 (sel_values st).

(* ------------------------------------------------------------------ *)
(* util::value, 21162-21333.  An object lives at an address; its buffer holds a
   type_holder for a variable (by index), and type_holder_ points into the buffer of
   the object at v_ptr.  None in the world: no object lives there (any more). *)
Record value_obj := VObj { v_buf : option nat; v_ptr : option nat }.
Definition world := list (option value_obj).
Definition v_get (w : world) (a : nat) : outcome value_obj :=
  o <- rd w a ;; match o with Some v => Ok v | None => UB end.
(* value(), 21224-21228 *)
Definition v_new (w : world) (a : nat) : outcome world := wr w a (Some (VObj None None)).
(* value(T& ) and assign, 21230-21235, 21284-21289: sizeof(type_holder<T>) does not depend on T *)
Definition v_assign (w : world) (a i : nat) : outcome world := wr w a (Some (VObj (Some i) (Some a))).
(* the implicit copy constructor: memberwise *)
Definition v_copy (w : world) (a b : nat) : outcome world := v <- v_get w a ;; wr w b (Some v).
(* operator=, 21249-21262 *)
Definition v_set (w : world) (b a : nat) : outcome world :=
  if a =? b then Ok w
  else
    v <- v_get w a ;; u <- v_get w b ;;
    match v_ptr v with
    | None => Ok w
    | Some _ => wr w b (Some (VObj (v_buf v) (Some b)))
    end.
Definition v_destroy (w : world) (a : nat) : outcome world := wr w a None.
(* operator()(begin,end), 21264-21271 *)
Definition v_call (w : world) (a : nat) (vars : list target) (x : list ascii) : outcome (bool * list target) :=
  v <- v_get w a ;;
  match v_ptr v with
  | None => Ok (false, vars)
  | Some p =>
      h <- v_get w p ;;
      match v_buf h with
      | None => UB
      | Some i => t <- rd vars i ;; ' (b, t) <- run_target t x ;; vars <- wr vars i t ;; Ok (b, vars)
      end
  end.
