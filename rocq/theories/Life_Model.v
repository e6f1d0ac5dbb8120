(* Who owns the text of a token_grid: constructors and destructor (strtk.hpp
   6298-6433), clear (6895-6907), load (7329-7397) and load() with
   load_buffer_from_file() (7475-7547).  The text of a grid lives in memory
   blocks; a token points into the block that was current when it was made. *)
From Verif Require Import Base Split_Model Grid_Model.
Local Open Scope nat_scope.

(* a block of memory: its text, whether it came from new[], whether it still
   exists *)
Record blk : Type := Blk { b_text : list ascii; b_new : bool; b_live : bool }.
Definition heap : Type := list blk.
(* delete[]: only once, and only what came from new[] *)
Definition free (h : heap) (a : nat) : outcome heap :=
  b <- rd h a ;;
  if b_live b && b_new b then wr h a (Blk (b_text b) true false) else UB.

(* the members of token_grid; t_base is the block the tokens of dsv_index_
   point into; a null buffer_ is None *)
Record tgrid : Type := TG {
  t_name : list ascii; t_buf : option nat; t_size : nat; t_opts : options;
  t_from_file : bool; t_state : bool; t_base : option nat; t_grid : grid }.

(* the characters [buffer_, buffer_ + buffer_size_) *)
Definition region (h : heap) (a : option nat) (n : nat) : outcome (list ascii) :=
  match a with
  | None => if n =? 0 then Ok [] else UB
  | Some a =>
      b <- rd h a ;;
      if b_live b && (n <=? length (b_text b)) then Ok (firstn n (b_text b)) else UB
  end.

(* 7528-7547; [content] is the file of that name, None if it cannot be opened.
   Simplification: a file that opens is read completely. *)
Definition load_buffer_from_file (h : heap) (t : tgrid) (content : option (list ascii)) : bool * heap * tgrid :=
  match content with
  | None => (false, h, t)
  | Some text =>
      let t := TG (t_name t) (t_buf t) (length text) (t_opts t) (t_from_file t) (t_state t) (t_base t) (t_grid t) in
      if length text =? 0 then (false, h, t)
      else (true, h ++ [Blk text true true],
            TG (t_name t) (Some (length h)) (t_size t) (t_opts t) (t_from_file t) (t_state t) (t_base t) (t_grid t))
  end.
(* 7475-7526 *)
Definition load_ (h : heap) (t : tgrid) (content : option (list ascii)) : outcome (bool * heap * tgrid) :=
  let '(ok, h, t) := if t_from_file t then load_buffer_from_file h t content else (true, h, t) in
  if negb ok then Ok (false, h, t)
  else
    text <- region h (t_buf t) (t_size t) ;;
    g <- load (t_opts t) text ;;
    Ok (true, h, TG (t_name t) (t_buf t) (t_size t) (t_opts t) (t_from_file t) (t_state t) (t_buf t) g).
Definition set_state (r : bool * heap * tgrid) : bool * heap * tgrid :=
  let '(ok, h, t) := r in
  (ok, h, TG (t_name t) (t_buf t) (t_size t) (t_opts t) (t_from_file t) ok (t_base t) (t_grid t)).

(* if (load_from_file_ && (0 != buffer_)) { delete [] buffer_; buffer_ = 0; } *)
Definition drop_buffer (h : heap) (t : tgrid) : outcome (heap * tgrid) :=
  match t_from_file t, t_buf t with
  | true, Some a =>
      h <- free h a ;;
      Ok (h, TG (t_name t) None (t_size t) (t_opts t) (t_from_file t) (t_state t) (t_base t) (t_grid t))
  | _, _ => Ok (h, t)
  end.

(* constructors: 6298-6306, 6308-6318 and 6359-6373 (file), the others (memory) *)
Definition no_options : options := Options 0 [] [] false false.
Definition make_empty : tgrid := TG [] None 0 no_options false false None empty_grid.
Definition make_file (h : heap) (name : list ascii) (content : option (list ascii)) (o : options) : outcome (bool * heap * tgrid) :=
  r <- load_ h (TG name None 0 o true false None empty_grid) content ;; Ok (set_state r).
Definition make_mem (h : heap) (a : nat) (n : nat) (o : options) : outcome (bool * heap * tgrid) :=
  r <- load_ h (TG [] (Some a) n o false false None empty_grid) None ;; Ok (set_state r).
(* 6426-6433 *)
Definition destroy (h : heap) (t : tgrid) : outcome heap := ' (h, _) <- drop_buffer h t ;; Ok h.

(* load(file_name,options), 7329-7361 *)
Definition load_file (h : heap) (t : tgrid) (name : list ascii) (content : option (list ascii)) (o : options)
  : outcome (bool * heap * tgrid) :=
  ' (h, t) <- drop_buffer h t ;;
  let t := TG name (t_buf t) 0 o true (t_state t) (t_base t) (Grid (tokens (t_grid t)) (rows (t_grid t)) 0 0) in
  r <- load_ h t content ;;
  let '(ok, h, t) := set_state r in
  if ok : bool then Ok (true, h, t)
  else
    let t := TG [] (t_buf t) (t_size t) (t_opts t) (t_from_file t) (t_state t) (t_base t) (t_grid t) in
    ' (h, t) <- drop_buffer h t ;;
    Ok (false, h, t).
(* load(buffer,buffer_size,options), 7363-7397 *)
Definition load_mem (h : heap) (t : tgrid) (a n : nat) (o : options) : outcome (bool * heap * tgrid) :=
  ' (h, t) <- drop_buffer h t ;;
  let t := TG [] (Some a) n o false (t_state t) (t_base t) (Grid (tokens (t_grid t)) (rows (t_grid t)) 0 0) in
  r <- load_ h t None ;;
  let '(ok, h, t) := set_state r in
  if ok : bool then Ok (true, h, t)
  else
    ' (h, t) <- drop_buffer h t ;;
    Ok (false, h, t).
(* clear(force_delete_buffer), 6895-6907; delete[] of a null pointer does nothing *)
Definition clear_ (force_delete_buffer : bool) (h : heap) (t : tgrid) : outcome (heap * tgrid) :=
  h <- (if t_from_file t || force_delete_buffer then match t_buf t with Some a => free h a | None => Ok h end else Ok h) ;;
  Ok (h, TG [] None 0 (t_opts t) (t_from_file t) false (t_base t) (clear (t_grid t))).

(* the text of a cell: token(row,col) and the characters it points to; None is
   the null range *)
Definition cell (h : heap) (t : tgrid) (r c : N) : outcome (option (list ascii)) :=
  o <- token (t_grid t) r c ;;
  match o with
  | None => Ok None
  | Some tk => text <- region h (t_base t) (snd tk) ;; Ok (Some (sub text tk))
  end.

(* a program using one grid *)
Inductive use : Type :=
| LoadFile (name : list ascii) (content : option (list ascii)) (o : options)
| LoadMem (a n : nat) (o : options)
| ClearAll.
Definition run_use (h : heap) (t : tgrid) (u : use) : outcome (bool * heap * tgrid) :=
  match u with
  | LoadFile name content o => load_file h t name content o
  | LoadMem a n o => load_mem h t a n o
  | ClearAll => ' (h, t) <- clear_ false h t ;; Ok (true, h, t)
  end.
Fixpoint run_uses (h : heap) (t : tgrid) (us : list use) : outcome (heap * tgrid) :=
  match us with
  | [] => Ok (h, t)
  | u :: us => ' (_, h, t) <- run_use h t u ;; run_uses h t us
  end.
(* the constructor that takes the same arguments *)
Definition construct (h : heap) (u : use) : outcome (bool * heap * tgrid) :=
  match u with
  | LoadFile name content o => make_file h name content o
  | LoadMem a n o => make_mem h a n o
  | ClearAll => Ok (false, h, make_empty)
  end.
