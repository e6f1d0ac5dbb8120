(* Plain-old-data input and output: to and from memory (strtk.hpp:19058-19514) and
   files (strtk.hpp:18615-19016).

   Simplifications.
   - A value is its object representation, a list of sizeof(T) bytes; a
     function with the parameters t1,...,tn is given the list of them.
   - [mem] is the array the pointer data points into, a position is an offset
     in it.  The variables do not overlap the array.
   - Not modelled because they compile for no argument: fileio::write_pod of
     values (18831-18956: reinterpret_cast from const T* to char* in
     write_pod_proxy, 18624-18629) and of containers (18964-19016, which also
     return nothing); read_pod of containers from memory (19253-19287) and
     write_pod of sets to memory (19494-19514), which reinterpret_cast<T> a pointer. *)
From Verif Require Import Base IO_Model.
Local Open Scope nat_scope.

(* ::memcpy(mem + pos, bytes) and ::memcpy(&t, mem + pos, n) *)
Definition memcpy_to (mem : list ascii) (pos : nat) (bytes : list ascii) : outcome (list ascii) :=
  if pos + length bytes <=? length mem
  then Ok (firstn pos mem ++ bytes ++ skipn (pos + length bytes) mem)
  else UB.
Definition memcpy_from (mem : list ascii) (pos n : nat) : outcome (list ascii) :=
  if pos + n <=? length mem then Ok (firstn n (skipn pos mem)) else UB.

(* write_pod(data,t1,...,tn), n = 1..12, strtk.hpp:19289-19473: new memory and
   the pointer returned. *)
Fixpoint write_pod (mem : list ascii) (data : nat) (ts : list (list ascii)) : outcome (list ascii * nat) :=
  match ts with
  | [] => Ok (mem, data)
  | t :: ts => mem <- memcpy_to mem data t ;; write_pod mem (data + length t) ts
  end.

(* read_pod(data,t1,...,tn), n = 1..12, strtk.hpp:19058-19242, for variables of
   the given sizes: their new values and the pointer returned. *)
Fixpoint read_pod (mem : list ascii) (data : nat) (sizes : list nat) : outcome (list (list ascii) * nat) :=
  match sizes with
  | [] => Ok ([], data)
  | n :: sizes =>
      t <- memcpy_from mem data n ;;
      ' (ts, data) <- read_pod mem (data + n) sizes ;;
      Ok (t :: ts, data)
  end.

(* write_pod(data,T (&t)[N]), strtk.hpp:19475-19481, and of a sequence with
   data(), 19483-19492: the elements lie one after another. *)
Definition write_pod_array (mem : list ascii) (data : nat) (ts : list (list ascii)) : outcome (list ascii * nat) :=
  mem <- memcpy_to mem data (concat ts) ;; Ok (mem, data + length (concat ts)).

(* read_pod(data,T (&t)[N]), strtk.hpp:19244-19251: std::copy through a T*.
   [base] is the address of the first byte of mem; reading a T through a
   pointer not aligned for T is undefined.  (That the bytes are read as objects
   of type T although they were not created as such is let pass.) *)
Definition read_pod_array (base align size : nat) (mem : list ascii) (data n : nat) : outcome (list (list ascii) * nat) :=
  ts <- for_up 0 n
          (fun i ts =>
             if ((base + data + i * size) mod align) =? 0 then
               t <- memcpy_from mem (data + i * size) size ;; Ok (ts ++ [t])
             else UB)
          [] ;;
  Ok (ts, data + n * size).

(* ------------------------------------------------------------------ *)
(* fileio::details::read_pod_proxy, strtk.hpp:18617-18622; the variable is a
   buffer of sizeof(T) bytes (None: never written). *)
Definition read_pod_proxy (fs : fsys) (st : ifs) (t : list (option ascii))
  : outcome (bool * list (option ascii) * ifs) :=
  ' (t, st) <- ifs_read fs st t (length t) ;;
  Ok (i_ok st, t, st).

(* fileio::read_pod(stream,t1,...,tn), n = 1..10, strtk.hpp:18632-18760: && stops
   at the first failure. *)
Fixpoint file_read_pod (fs : fsys) (st : ifs) (ts : list (list (option ascii)))
  : outcome (bool * list (list (option ascii)) * ifs) :=
  match ts with
  | [] => Ok (true, [], st)
  | t :: ts =>
      ' (b, t, st) <- read_pod_proxy fs st t ;;
      if b : bool then
        ' (b, ts, st) <- file_read_pod fs st ts ;;
        Ok (b, t :: ts, st)
      else Ok (false, t :: ts, st)
  end.

(* fileio::read_pod(stream,T (&t)[N]), strtk.hpp:18762-18766: false != fail(). *)
Definition file_read_pod_array (fs : fsys) (st : ifs) (t : list (option ascii))
  : outcome (bool * list (option ascii) * ifs) :=
  ' (t, st) <- ifs_read fs st t (length t) ;;
  Ok (negb (i_ok st), t, st).

(* fileio::read_pod(stream,count,container), strtk.hpp:18768-18826; [put] is
   push_back or insert of the container.  t is read into again and again. *)
Definition file_read_pod_count {C} (put : C -> list (option ascii) -> C) (size : nat) (fs : fsys) (st : ifs) (count : nat) (c : C)
  : outcome (bool * C * ifs) :=
  loop (S count)
       (fun '(i, t, st, c) =>
          if i <? count then
            ' (b, t, st) <- read_pod_proxy fs st t ;;
            if b : bool then Ok (inl (S i, t, st, put c t)) else Ok (inr (false, c, st))
          else Ok (inr (true, c, st)))
       (0, repeat None size, st, c).

(* fileio::write_pod(stream,T (&t)[N]), strtk.hpp:18958-18962, on an open output
   file (writing never fails in the file system of IO_Model). *)
Definition file_write_pod_array (fs : fsys) (name : nat) (t : list ascii) : bool * fsys :=
  let fail := false in
  (Bool.eqb fail true, append fs name t).
