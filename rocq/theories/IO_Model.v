(* Line and file functions: strtk.hpp 92-255, 451-870, 18459-18613, 19018-19054. *)
From Verif Require Import Base Num_Model Parse_Model.
Local Open Scope nat_scope.

(* ------------------------------------------------------------------ *)
(* for_each_line(stream,function), 112-128.  [f] is the function object with its state;
   the fuel is the length of the text, since each line read uses up a character. *)
Section Lines.
Context {St : Type}.
Definition for_each_line (f : St -> list ascii -> St) (st : stream) (x : St) : outcome (nat * St * stream) :=
  loop (S (length (rest st)))
    (fun '(st, line_count, x) =>
       match getline st with
       | (None, st) => Ok (inr (line_count, x, st))
       | (Some buffer, st) => Ok (inl (st, S line_count, f x buffer))
       end)
    (st, 0, x).
(* for_each_line_n, 130-148 *)
Definition for_each_line_n (n : nat) (f : St -> list ascii -> St) (st : stream) (x : St) : outcome (nat * St * stream) :=
  loop (S (length (rest st)))
    (fun '(st, line_count, x) =>
       match getline st with
       | (None, st) => Ok (inr (line_count, x, st))
       | (Some buffer, st) =>
           let x := f x buffer in
           let line_count := S line_count in
           if n =? line_count then Ok (inr (line_count, x, st)) else Ok (inl (st, line_count, x))
       end)
    (st, 0, x).
(* for_each_line_conditional, 175-194 *)
Definition for_each_line_conditional (f : St -> list ascii -> St * bool) (st : stream) (x : St)
  : outcome (nat * St * stream) :=
  loop (S (length (rest st)))
    (fun '(st, line_count, x) =>
       match getline st with
       | (None, st) => Ok (inr (line_count, x, st))
       | (Some buffer, st) =>
           let '(x, b) := f x buffer in
           if negb b then Ok (inr (line_count, x, st)) else Ok (inl (st, S line_count, x))
       end)
    (st, 0, x).
(* for_each_line_n_conditional, 196-215 *)
Definition for_each_line_n_conditional (n : nat) (f : St -> list ascii -> St * bool) (st : stream) (x : St)
  : outcome (nat * St * stream) :=
  loop (S (length (rest st)))
    (fun '(st, line_count, x) =>
       match getline st with
       | (None, st) => Ok (inr (line_count, x, st))
       | (Some buffer, st) =>
           let '(x, b) := f x buffer in
           if negb b then Ok (inr (line_count, x, st))
           else
             let line_count := S line_count in
             if n =? line_count then Ok (inr (line_count, x, st)) else Ok (inl (st, line_count, x))
       end)
    (st, 0, x).
End Lines.

(* load_from_text_file(stream,sequence), 451-471 (the other containers differ only in the
   insertion).  The converter's None is the exception std::invalid_argument thrown by
   string_to_type_converter<T>(buffer), 387-400, which leaves the function with the
   elements read so far: result false. *)
Definition load_from_text_file {T} (conv : list ascii -> option T) (st : stream) (sq : list T)
  : outcome (bool * nat * list T * stream) :=
  if negb (good st) then Ok (true, 0, sq, st)
  else
    loop (S (length (rest st)))
      (fun '(st, line_count, sq) =>
         match getline st with
         | (None, st) => Ok (inr (true, line_count, sq, st))
         | (Some buffer, st) =>
             let line_count := S line_count in
             match conv buffer with
             | None => Ok (inr (false, line_count, sq, st))
             | Some v => Ok (inl (st, line_count, sq ++ [v]))
             end
         end)
      (st, 0, sq).

(* write_to_text_file(stream,sequence,delimiter), 659-692; [show] is operator<<, o the
   text written so far, None a stream that is not good *)
Fixpoint write_items {T} (show : T -> list ascii) (delimiter : list ascii) (xs : list T) (o : list ascii) (count : nat)
  : list ascii * nat :=
  match xs with
  | [] => (o, count)
  | x :: xs => write_items show delimiter xs
                 (if length delimiter =? 0 then o ++ show x else (o ++ show x) ++ delimiter) (S count)
  end.
Definition write_to_text_file {T} (show : T -> list ascii) (o : option (list ascii)) (xs : list T) (delimiter : list ascii)
  : option (list ascii) * nat :=
  match o with
  | None => (None, 0)
  | Some o => let '(o, n) := write_items show delimiter xs o 0 in (Some o, n)
  end.

(* copy_n, 806-816: reads *itr before testing n again, never beyond itr + n *)
Definition copy_n {T} (s : list T) (itr n : nat) (out : list T) : outcome (list T) :=
  for_up 0 n (fun i out => x <- rd s (itr + i) ;; Ok (out ++ [x])) out.
(* copy_if, 818-834 *)
Definition copy_if {T} (predicate : T -> bool) (s : list T) (out : list T) : outcome (list T) :=
  for_up 0 (length s) (fun i out => x <- rd s i ;; Ok (if predicate x then out ++ [x] else out)) out.
(* copy_while, 836-852 and copy_until, 854-870: the position returned and the output *)
Definition copy_while {T} (predicate : T -> bool) (s : list T) (out : list T) : outcome (nat * list T) :=
  loop (S (length s))
    (fun '(itr, out) =>
       if itr =? length s then Ok (inr (length s, out))
       else x <- rd s itr ;;
            if negb (predicate x) then Ok (inr (itr, out)) else Ok (inl (S itr, out ++ [x])))
    (0, out).
Definition copy_until {T} (predicate : T -> bool) (s : list T) (out : list T) : outcome (nat * list T) :=
  loop (S (length s))
    (fun '(itr, out) =>
       if itr =? length s then Ok (inr (length s, out))
       else x <- rd s itr ;;
            if predicate x then Ok (inr (itr, out)) else Ok (inl (S itr, out ++ [x])))
    (0, out).
(* range_only_contains, 882-899 *)
Definition range_only_contains {T} (predicate : T -> bool) (s : list T) : outcome bool :=
  loop (S (length s))
    (fun itr =>
       if itr =? length s then Ok (inr true)
       else x <- rd s itr ;; if negb (predicate x) then Ok (inr false) else Ok (inl (S itr)))
    0.

(* ------------------------------------------------------------------ *)
(* A file system: the bytes of each named file (None: no such file), and which names may
   be opened for reading and for writing.  Two names never denote the same file.  Writing
   never runs out of space, and bytes written are in the file at once. *)
Record fsys := FSys { f_data : nat -> option (list ascii); f_read : nat -> bool; f_write : nat -> bool }.
Definition set_file (fs : fsys) (n : nat) (d : option (list ascii)) : fsys :=
  FSys (fun m => if m =? n then d else f_data fs m) (f_read fs) (f_write fs).
Definition contents (fs : fsys) (n : nat) : list ascii := match f_data fs n with Some d => d | None => [] end.
(* std::ifstream file(name): whether it is good *)
Definition can_open (fs : fsys) (n : nat) : bool :=
  f_read fs n && match f_data fs n with Some _ => true | None => false end.
(* std::ofstream file(name): creates or truncates the file *)
Definition open_out (fs : fsys) (n : nat) : bool * fsys :=
  if f_write fs n then (true, set_file fs n (Some [])) else (false, fs).
Definition append (fs : fsys) (n : nat) (bytes : list ascii) : fsys :=
  set_file fs n (Some (contents fs n ++ bytes)).
(* file_exists, 18462-18466; file_size, 18468-18474 *)
Definition file_exists (fs : fsys) (n : nat) : bool := can_open fs n.
Definition file_size (fs : fsys) (n : nat) : nat := if can_open fs n then length (contents fs n) else 0.

(* An ifstream: file, position, not failed. *)
Record ifs := IFS { i_name : nat; i_pos : nat; i_ok : bool }.
(* stream.read(buffer,n): the bytes there are go to the front of the buffer; too few set
   failbit, after which nothing is read.  Reading beyond the buffer: UB. *)
Definition ifs_read (fs : fsys) (st : ifs) (buffer : list (option ascii)) (n : nat) : outcome (list (option ascii) * ifs) :=
  if length buffer <? n then UB
  else if negb (i_ok st) then Ok (buffer, st)
  else
    let got := firstn n (skipn (i_pos st) (contents fs (i_name st))) in
    Ok (map Some got ++ skipn (length got) buffer, IFS (i_name st) (i_pos st + length got) (length got =? n)).
(* the n bytes at the front of a buffer; UB if one of them was never written *)
Fixpoint init_bytes (buffer : list (option ascii)) (n : nat) {struct n} : outcome (list ascii) :=
  match n with
  | 0 => Ok []
  | S n => match buffer with
           | Some c :: b => r <- init_bytes b n ;; Ok (c :: r)
           | _ => UB
           end
  end.

(* load_file(name,buffer,buffer_size), 18476-18483 *)
Definition load_file_buf (fs : fsys) (n : nat) (buffer : list (option ascii)) (buffer_size : nat)
  : outcome (bool * list (option ascii)) :=
  if negb (can_open fs n) then Ok (false, buffer)
  else ' (buffer, _) <- ifs_read fs (IFS n 0 true) buffer buffer_size ;; Ok (true, buffer).
(* std::string::resize on a buffer: new characters are 0 *)
Definition resize_buf (b : list (option ascii)) (n : nat) : list (option ascii) :=
  firstn n b ++ repeat (Some (ascii_of_nat 0)) (n - length b).
(* load_file(name,string), 18485-18489 *)
Definition load_file (fs : fsys) (n : nat) (buffer : list (option ascii)) : outcome (bool * list (option ascii)) :=
  let buffer := resize_buf buffer (file_size fs n) in
  load_file_buf fs n buffer (length buffer).
(* write_file, 18491-18503 *)
Definition write_file (fs : fsys) (n : nat) (buffer : list ascii) : bool * fsys :=
  let '(b, fs) := open_out fs n in
  if b then (true, append fs n buffer) else (false, fs).

Section Blocks.
Variable block_size : nat.
(* the copy loop, 18515-18529 and 18554-18568; the state is the file system, the input
   stream, remaining_bytes and the buffer *)
Definition copy_blocks (fs : fsys) (src dst : nat) (buffer : list (option ascii)) (st : ifs)
  : outcome (fsys * list (option ascii) * ifs) :=
  ' (fs, buffer, st, remaining) <-
    loop (S (file_size fs src))
      (fun '(fs, buffer, st, remaining) =>
         if block_size <=? remaining then
           ' (buffer, st) <- ifs_read fs st buffer block_size ;;
           bytes <- init_bytes buffer block_size ;;
           Ok (inl (append fs dst bytes, buffer, st, remaining - block_size))
         else Ok (inr (fs, buffer, st, remaining)))
      (fs, buffer, st, file_size fs src) ;;
  if 0 <? remaining then
    ' (buffer, st) <- ifs_read fs st buffer remaining ;;
    bytes <- init_bytes buffer remaining ;;
    Ok (append fs dst bytes, buffer, st)
  else Ok (fs, buffer, st).
(* copy_file, 18505-18534 *)
Definition copy_file_n (fs : fsys) (src dst : nat) : outcome (bool * fsys) :=
  let src_ok := can_open fs src in
  let '(dst_ok, fs) := open_out fs dst in
  if negb src_ok then Ok (false, fs)
  else if negb dst_ok then Ok (false, fs)
  else
    ' (fs, _, _) <- copy_blocks fs src dst (repeat None block_size) (IFS src 0 true) ;;
    Ok (true, fs).
(* concatenate, 18536-18575 *)
Definition concatenate_n (fs : fsys) (f1 f2 out : nat) : outcome (bool * fsys) :=
  let ok1 := can_open fs f1 in
  let ok2 := can_open fs f2 in
  let '(ok3, fs) := open_out fs out in
  if negb ok1 || negb ok2 || negb ok3 then Ok (false, fs)
  else
    ' (fs, buffer, _) <- copy_blocks fs f1 out (repeat None block_size) (IFS f1 0 true) ;;
    ' (fs, buffer, _) <- copy_blocks fs f2 out buffer (IFS f2 0 true) ;;
    Ok (true, fs).
(* 0 != std::memcmp(buffer1,buffer2,n) *)
Definition differ (a b : list ascii) : bool := if list_eq_dec ascii_dec a b then false else true.
(* files_identical, 18577-18613 *)
Definition files_identical_n (fs : fsys) (f1 f2 : nat) : outcome bool :=
  if negb (can_open fs f1) then Ok false
  else if negb (can_open fs f2) then Ok false
  else if negb (file_size fs f1 =? file_size fs f2) then Ok false
  else
    r <-
      loop (S (file_size fs f1))
        (fun '(b1, b2, s1, s2, remaining) =>
           if block_size <=? remaining then
             ' (b1, s1) <- ifs_read fs s1 b1 block_size ;;
             ' (b2, s2) <- ifs_read fs s2 b2 block_size ;;
             x1 <- init_bytes b1 block_size ;;
             x2 <- init_bytes b2 block_size ;;
             if differ x1 x2 then Ok (inr None) else Ok (inl (b1, b2, s1, s2, remaining - block_size))
           else Ok (inr (Some (b1, b2, s1, s2, remaining))))
        (repeat None block_size, repeat None block_size, IFS f1 0 true, IFS f2 0 true, file_size fs f1) ;;
    match r with
    | None => Ok false
    | Some (b1, b2, s1, s2, remaining) =>
        if 0 <? remaining then
          ' (b1, s1) <- ifs_read fs s1 b1 remaining ;;
          ' (b2, s2) <- ifs_read fs s2 b2 remaining ;;
          x1 <- init_bytes b1 remaining ;;
          x2 <- init_bytes b2 remaining ;;
          Ok (negb (differ x1 x2))
        else Ok true
    end.
End Blocks.
(* one_kilobyte, 86; block_size, 18512, 18546, 18585 *)
Definition block_size : nat := 16 * 1024.
Definition copy_file := copy_file_n block_size.
Definition concatenate := concatenate_n block_size.
Definition files_identical := files_identical_n block_size.

(* read_at_offset(stream,offset,buffer,buffer_size), 19018-19030: result, buffer *)
Definition read_at_offset_buf (fs : fsys) (n offset : nat) (buffer : list (option ascii)) (buffer_size : nat)
  : outcome (bool * list (option ascii)) :=
  if negb (can_open fs n) then Ok (false, buffer)
  else
    ' (buffer, st) <- ifs_read fs (IFS n offset true) buffer buffer_size ;;
    Ok (i_ok st, buffer).
(* read_at_offset(file_name,offset,string,buffer_size), 19042-19054 *)
Definition read_at_offset (fs : fsys) (n offset : nat) (buffer : list (option ascii)) (buffer_size : nat)
  : outcome (bool * list (option ascii)) :=
  if negb (can_open fs n) then Ok (false, buffer)
  else read_at_offset_buf fs n offset (resize_buf buffer buffer_size) buffer_size.
