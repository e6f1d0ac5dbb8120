(* column_list and column_selector as objects: what they point to, how they are built,
   copied and passed to split.  strtk.hpp 21990-22970.
   A column_selector holds a reference to its column_list and one util::value per
   column; a util::value points into the buffer of a util::value, which holds the
   address of a variable.  Variables, column lists and selectors live at addresses
   (indices); None: nothing lives there (any more).
   The overloads for 1 to 12 columns are the same text with another count.  Not
   modelled, as they do not compile: column_selector with 11 and 12 variables
   (22593-22618: the result type has 10 columns), the sequence form with one column
   (22956 is ambiguous with 22721) and with 11 or 12 (no compose_st_selector_impl). *)
From Verif Require Import Base Split_Model Parse_Model.
Local Open Scope nat_scope.

(* util::value within a selector, 21162-21333, and the flag of its pair, 22051:
   cv_buf is the variable in its buffer, cv_ptr the buffer type_holder_ points to
   (selector, slot) *)
Record cval := CVal { cv_buf : option nat; cv_ptr : option (nat * nat); cv_flag : bool }.
(* column_selector_base, 22105-22110; so_target None is numeric_limits<size_t>::max() *)
Record selobj := SelObj { so_list : nat; so_current : nat; so_target : option nat; so_col : nat;
                          so_errors : nat; so_values : list cval }.
Record cworld := CW { w_vars : list (option target); w_lists : list (option (list nat));
                      w_sels : list (option selobj) }.
Definition live {T} (xs : list (option T)) (a : nat) : outcome T :=
  o <- rd xs a ;; match o with Some x => Ok x | None => UB end.
Definition set_sel (w : cworld) (a : nat) (s : option selobj) : outcome cworld :=
  sels <- wr (w_sels w) a s ;; Ok (CW (w_vars w) (w_lists w) sels).

(* column_list, 22372-22591: an array of the given indices, built at l *)
Definition list_make (w : cworld) (l : nat) (cols : list nat) : outcome cworld :=
  ls <- wr (w_lists w) l (Some cols) ;; Ok (CW (w_vars w) ls (w_sels w)).
(* ends of life: of a column list, of a selector, of a variable *)
Definition list_end (w : cworld) (l : nat) : outcome cworld :=
  ls <- wr (w_lists w) l None ;; Ok (CW (w_vars w) ls (w_sels w)).
Definition sel_end (w : cworld) (a : nat) : outcome cworld := set_sel w a None.
Definition var_end (w : cworld) (i : nat) : outcome cworld :=
  vs <- wr (w_vars w) i None ;; Ok (CW vs (w_lists w) (w_sels w)).

(* colsel_value_list::register_value, 22060-22069, in the selector at a *)
Definition register_value (a : nat) (st : list cval * nat) (i : nat) : outcome (list cval * nat) :=
  let '(vs, k) := st in
  if k <? length vs then
    vs <- wr vs k (CVal (Some i) (Some (a, k)) false) ;; Ok (vs, S k)
  else Ok (vs, k).
Fixpoint register_values (a : nat) (st : list cval * nat) (is : list nat) : outcome (list cval * nat) :=
  match is with [] => Ok st | i :: is => st <- register_value a st i ;; register_values a st is end.
(* column_selector_base(column_list), 22007-22013, colsel_value_list(), 22053-22058, and
   column_selector_impl, 22117-22368; column_selector with N variables, 22593-22728 *)
Definition sel_make (w : cworld) (a l : nat) (is : list nat) : outcome cworld :=
  cols <- live (w_lists w) l ;;
  t0 <- rd cols 0 ;;
  ' (vs, _) <- register_values a (repeat (CVal None None false) (length cols), 0) is ;;
  set_sel w a (Some (SelObj l 0 (Some t0) 0 0 vs)).
(* column_selector(column_list,sequence), 22956-22970, with compose_st_selector_impl,
   22730-22952; is: the addresses of the elements.  None: std::invalid_argument *)
Definition sel_make_seq (w : cworld) (a l : nat) (is : list nat) : outcome (option cworld) :=
  cols <- live (w_lists w) l ;;
  if length cols <=? length is then
    w <- sel_make w a l (firstn (length cols) is) ;; Ok (Some w)
  else Ok None.

(* the implicit copy constructor: memberwise, also for the util::values *)
Definition sel_copy (w : cworld) (a b : nat) : outcome cworld :=
  s <- live (w_sels w) a ;; set_sel w b (Some s).
(* reset, 22037-22043 *)
Definition sel_reset (w : cworld) (a : nat) : outcome cworld :=
  s <- live (w_sels w) a ;;
  cols <- live (w_lists w) (so_list s) ;;
  t0 <- rd cols 0 ;;
  set_sel w a (Some (SelObj (so_list s) 0 (Some t0) 0 0 (so_values s))).

(* util::value::operator()(begin,end), 21264-21271 *)
Definition cv_call (w : cworld) (v : cval) (x : list ascii) : outcome (bool * list (option target)) :=
  match cv_ptr v with
  | None => Ok (false, w_vars w)
  | Some (a, j) =>
      s <- live (w_sels w) a ;;
      h <- rd (so_values s) j ;;
      match cv_buf h with
      | None => UB
      | Some i =>
          t <- live (w_vars w) i ;;
          ' (b, t) <- run_target t x ;;
          vars <- wr (w_vars w) i (Some t) ;;
          Ok (b, vars)
      end
  end.
(* operator=(pair), 22030-22035, and process, 22075-22098; column_list_t::size is the
   number of values *)
Definition sel_process (w : cworld) (a : nat) (x : list ascii) : outcome cworld :=
  s <- live (w_sels w) a ;;
  let skip := set_sel w a (Some (SelObj (so_list s) (S (so_current s)) (so_target s) (so_col s) (so_errors s) (so_values s))) in
  match so_target s with
  | None => skip
  | Some t =>
      if t <? so_current s then Ok w
      else if so_current s =? t then
        v <- rd (so_values s) (so_col s) ;;
        ' (b, vars) <- cv_call w v x ;;
        values <- wr (so_values s) (so_col s) (CVal (cv_buf v) (cv_ptr v) b) ;;
        target <- (if S (so_col s) <? length values then
                     cols <- live (w_lists w) (so_list s) ;; c <- rd cols (S (so_col s)) ;; Ok (Some c)
                   else Ok None) ;;
        set_sel (CW vars (w_lists w) (w_sels w)) a
          (Some (SelObj (so_list s) (S (so_current s)) target (S (so_col s))
                        (if (b : bool) then so_errors s else S (so_errors s)) values))
      else skip
  end.
Fixpoint sel_process_all (w : cworld) (a : nat) (xs : list (list ascii)) : outcome cworld :=
  match xs with [] => Ok w | x :: xs => w <- sel_process w a x ;; sel_process_all w a xs end.
(* the selector at a passed by value through the parameters of nested functions, which
   live at bs, the innermost using it *)
Fixpoint sel_through (w : cworld) (a : nat) (bs : list nat) (f : cworld -> nat -> outcome cworld) : outcome cworld :=
  match bs with
  | [] => f w a
  | b :: bs => w <- sel_copy w a b ;; w <- sel_through w b bs f ;; sel_end w b
  end.
(* split(delimiters,text,selector), 3337-3470: *out = token, ++out *)
Definition split_into (delims s : list ascii) (w : cworld) (a : nat) : outcome cworld :=
  ' (toks, _) <- split_str delims s 0 ;; sel_process_all w a (map (sub s) toks).
Fixpoint split_lines (w : cworld) (a : nat) (bs : list nat) (delims : list ascii) (lines : list (list ascii)) : outcome cworld :=
  match lines with
  | [] => Ok w
  | s :: lines => w <- sel_through w a bs (split_into delims s) ;; split_lines w a bs delims lines
  end.
(* the form *out++ = token: operator++(int), 22025-22028, gives a copy (at b), which is
   assigned to and then ends *)
Definition sel_post_assign (w : cworld) (a b : nat) (x : list ascii) : outcome cworld :=
  w <- sel_copy w a b ;; w <- sel_process w b x ;; sel_end w b.
Fixpoint sel_post_all (w : cworld) (a b : nat) (xs : list (list ascii)) : outcome cworld :=
  match xs with [] => Ok w | x :: xs => w <- sel_post_assign w a b x ;; sel_post_all w a b xs end.
(* a selector that is assigned the tokens of line after line itself, with a reset after each *)
Fixpoint sel_reset_lines (w : cworld) (a : nat) (xss : list (list (list ascii))) : outcome cworld :=
  match xss with
  | [] => Ok w
  | xs :: xss => w <- sel_process_all w a xs ;; w <- sel_reset w a ;; sel_reset_lines w a xss
  end.
