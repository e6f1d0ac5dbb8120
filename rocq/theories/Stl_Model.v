(* Parsing and loading into the other standard containers: set, multiset, queue, stack and
   priority_queue (strtk.hpp 150-657, 693-804, 8669-8833, 9529-9689, 9797-9819,
   10020-10105, 10296-10408, 10649-10921).

   The generic functions of Parse_Model take the container's insertion as a parameter; here
   are the insertions themselves.  The containers belong to the C++ standard library, so
   these definitions say what the standard says about them:
   - a set or multiset is the list of its elements from begin() to end();
   - a queue is the list of its elements from front() to back();
   - a stack is the list of its elements from top() downwards;
   - a priority_queue is a bag: its heap order is not specified, only which element top()
     may be (Stl_Spec.drains).
   [lt] is the container's comparator. *)
From Verif Require Import Base Split_Model Parse_Model IO_Model.
Local Open Scope nat_scope.

Section Insertions.
Context {T : Type}.
Variable lt : T -> T -> bool.

(* set.insert(t): nothing happens if an equivalent element is there
   (range_to_type_inserter_iterator::operator=, 2846-2870; load_from_text_file, 489) *)
Fixpoint set_insert (c : list T) (x : T) : list T :=
  match c with
  | [] => [x]
  | y :: c' => if lt x y then x :: c else if lt y x then y :: set_insert c' x else c
  end.

(* multiset.insert(t): behind the elements equivalent to it (2846-2870, 511) *)
Fixpoint multiset_insert (c : list T) (x : T) : list T :=
  match c with
  | [] => [x]
  | y :: c' => if lt x y then x :: c else y :: multiset_insert c' x
  end.
End Insertions.

(* push of a queue, a stack, a priority_queue (range_to_type_push_inserter_iterator,
   2926-2994; load_from_text_file, 531, 551, 573) *)
Definition queue_push {T} (c : list T) (x : T) : list T := c ++ [x].
Definition stack_push {T} (c : list T) (x : T) : list T := x :: c.
Definition pq_push {T} (c : list T) (x : T) : list T := x :: c.

Section Containers.
Context {T C : Type}.
Variable conv : converter T.
Variable d : T.
Variable add : C -> T -> C.

(* parse_line(stream,delimiters,container,split_option), 10649-10778: the same body for each
   container.  The stream is tested, a line is read; an empty line and an empty set of
   delimiters give 0. *)
Definition parse_line_container (st : stream) (delims : list ascii) (opt : N) (c : C)
  : outcome (C * nat * stream) :=
  if negb (good st) then Ok (c, 0, st)
  else
    match getline st with
    | (None, st) => Ok (c, 0, st)
    | (Some data, st) =>
        if (length data =? 0) || (length delims =? 0) then Ok (c, 0, st)
        else ' (c, n) <- parse_container conv d add delims data opt c ;; Ok (c, n, st)
    end.

(* parse_line_n(stream,delimiters,n,container,split_option), 10780-10921 *)
Definition parse_line_n_container (size : C -> nat) (st : stream) (delims : list ascii) (n : nat) (opt : N) (c : C)
  : outcome (C * nat * stream) :=
  if negb (good st) then Ok (c, 0, st)
  else
    match getline st with
    | (None, st) => Ok (c, 0, st)
    | (Some data, st) =>
        if (length data =? 0) || (length delims =? 0) then Ok (c, 0, st)
        else ' (c, n) <- parse_n_container conv d add size delims data n opt c ;; Ok (c, n, st)
    end.
End Containers.

(* load_from_text_file(stream,container), 473-577, for any insertion.  As in IO_Model, the
   converter's None is the exception thrown by string_to_type_converter<T>(buffer). *)
Definition load_into {T C} (add : C -> T -> C) (conv : list ascii -> option T) (st : stream) (c : C)
  : outcome (bool * nat * C * stream) :=
  if negb (good st) then Ok (true, 0, c, st)
  else
    loop (S (length (rest st)))
      (fun '(st, line_count, c) =>
         match getline st with
         | (None, st) => Ok (inr (true, line_count, c, st))
         | (Some buffer, st) =>
             let line_count := S line_count in
             match conv buffer with
             | None => Ok (inr (false, line_count, c, st))
             | Some v => Ok (inl (st, line_count, add c v))
             end
         end)
      (st, 0, c).

(* std::ifstream stream(file_name.c_str()) *)
Definition ifstream (fs : fsys) (n : nat) : stream :=
  if can_open fs n then Stream (contents fs n) true else Stream [] false.

(* load_from_text_file(file_name,container), 579-657; the stream is local *)
Definition load_from_file {T C} (add : C -> T -> C) (conv : list ascii -> option T) (fs : fsys) (n : nat) (c : C)
  : outcome (bool * nat * C) :=
  let st := ifstream fs n in
  if negb (good st) then Ok (true, 0, c)
  else ' (b, k, c, _) <- load_into add conv st c ;; Ok (b, k, c).

(* write_to_text_file(file_name,container,delimiter), 764-804: opening the output stream
   empties the file *)
Definition write_to_file {T} (show : T -> list ascii) (fs : fsys) (n : nat) (xs : list T) (delimiter : list ascii)
  : nat * fsys :=
  let '(b, fs) := open_out fs n in
  if negb b then (0, fs)
  else match write_to_text_file show (Some []) xs delimiter with
       | (Some text, k) => (k, append fs n text)
       | (None, k) => (k, fs)
       end.

Section Lines.
Context {St : Type}.
(* for_each_line(file_name,function), 150-160 *)
Definition for_each_line_file (f : St -> list ascii -> St) (fs : fsys) (n : nat) (x : St) : outcome (nat * St) :=
  let st := ifstream fs n in
  if good st then ' (k, x, _) <- for_each_line f st x ;; Ok (k, x) else Ok (0, x).
(* for_each_line_n(file_name,n,function), 162-173 *)
Definition for_each_line_n_file (m : nat) (f : St -> list ascii -> St) (fs : fsys) (n : nat) (x : St) : outcome (nat * St) :=
  let st := ifstream fs n in
  if good st then ' (k, x, _) <- for_each_line_n m f st x ;; Ok (k, x) else Ok (0, x).
(* for_each_line_conditional(file_name,function), 217-227 *)
Definition for_each_line_conditional_file (f : St -> list ascii -> St * bool) (fs : fsys) (n : nat) (x : St)
  : outcome (nat * St) :=
  let st := ifstream fs n in
  if good st then ' (k, x, _) <- for_each_line_conditional f st x ;; Ok (k, x) else Ok (0, x).
(* for_each_line_n_conditional(file_name,n,function), 229-241 *)
Definition for_each_line_n_conditional_file (m : nat) (f : St -> list ascii -> St * bool) (fs : fsys) (n : nat) (x : St)
  : outcome (nat * St) :=
  let st := ifstream fs n in
  if good st then ' (k, x, _) <- for_each_line_n_conditional m f st x ;; Ok (k, x) else Ok (0, x).
End Lines.

(* read_line_as_value(stream,t), 243-255 *)
Definition read_line_as_value {T} (conv : converter T) (st : stream) (t : T) : outcome (bool * T * stream) :=
  match getline st with
  | (None, st) => Ok (false, t, st)
  | (Some buffer, st) => ' (b, t) <- conv buffer t ;; Ok (b, t, st)
  end.
