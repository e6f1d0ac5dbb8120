(* Programs of strtk_serializer_example.cpp: records written to a buffer and read back
   (example02, example03) and integers as fixed-width text (example07). *)
From Verif Require Import Base Binary_Model Num_Model IO_Model.
Local Open Scope nat_scope.

(* person, strtk_serializer_example.cpp 31-90: the bytes of the members *)
Record person := Person { p_id : list ascii; p_name : list ascii; p_age : list ascii;
  p_height : list ascii; p_weight : list ascii; p_is_insane : list ascii }.
(* 62-70 clear; zero has zero bytes for every type *)
Definition cleared : person :=
  Person (repeat "000"%char 8) [] (repeat "000"%char 4) (repeat "000"%char 8) (repeat "000"%char 4) (repeat "000"%char 1).
(* the macros 72-88 (strtk.hpp 14710-14728) chain the members by && in this order *)
Definition person_ty : ty :=
  TPair (TPod 8) (TPair TStr (TPair (TPod 4) (TPair (TPod 8) (TPair (TPod 4) (TPod 1))))).
Definition person_val (p : person) : val :=
  VPair (VBytes (p_id p)) (VPair (VBytes (p_name p)) (VPair (VBytes (p_age p))
    (VPair (VBytes (p_height p)) (VPair (VBytes (p_weight p)) (VBytes (p_is_insane p)))))).
Definition person_of (v : val) : person :=
  match v with
  | VPair a (VPair b (VPair c (VPair d (VPair e f)))) => Person (vbytes a) (vbytes b) (vbytes c) (vbytes d) (vbytes e) (vbytes f)
  | _ => cleared
  end.

Section Host.
Variable le : bool.                              (* byte order of the host *)
Variable same : list ascii -> list ascii -> bool. (* == of double and float, on the bytes *)
Definition no_class (t : ty) : N := 0%N.         (* no container of classes is transferred *)
Definition same_bytes (a b : list ascii) : bool := if list_eq_dec ascii_dec a b then true else false.

(* 47-55 operator== *)
Definition person_eqb (p q : person) : bool :=
  same_bytes (p_id p) (p_id q) && same_bytes (p_name p) (p_name q) && same_bytes (p_age p) (p_age q) &&
  same (p_weight p) (p_weight q) && same (p_height p) (p_height q) && same_bytes (p_is_insane p) (p_is_insane q).

Inductive ended := Done | Could_not_write (i : nat) | Could_not_open_1 | Could_not_open_2 | Could_not_read (i : nat) | Differs (i : nat).

(* the loops 140-153 and 210-223; the persons of the successive rounds are given as a list *)
Fixpoint write_people (ps : list person) (i : nat) (st : bst) : outcome (option nat * bst) :=
  match ps with
  | [] => Ok (None, st)
  | p :: ps =>
      ' (r, st) <- write le true no_class person_ty (person_val p) st ;;
      if (r : bool) then write_people ps (S i) st else Ok (Some i, st)
  end.

(* the loops 168-187 and 263-284; with [clears] p_in is cleared before every read *)
Fixpoint read_people (clears : bool) (p_in : person) (expected : list person) (i : nat) (st : bst) : outcome ended :=
  match expected with
  | [] => Ok Done
  | p :: expected =>
      ' (r, v, st) <- read le true no_class person_ty (person_val (if clears then cleared else p_in)) st ;;
      if negb r then Ok (Could_not_read i)
      else if negb (person_eqb (person_of v) p) then Ok (Differs i)
      else read_people clears (person_of v) expected (S i) st
  end.

(* 125-191 example02 on a buffer with contents b; ps the persons of its rounds *)
Definition example02 (b : list ascii) (ps : list person) : outcome ended :=
  ' (failed, writer) <- write_people ps 0 (Binary_Model.clear (start b)) ;;
  match failed with
  | Some i => Ok (Could_not_write i)
  | None => read_people false cleared ps 0 (start (buf writer))
  end.

(* 193-287 example03; n is data.txt *)
Definition example03 (b : list ascii) (fs : fsys) (n : nat) (ps : list person) : outcome (ended * fsys) :=
  ' (failed, writer) <- write_people ps 0 (Binary_Model.clear (start b)) ;;
  match failed with
  | Some i => Ok (Could_not_write i, fs)
  | None =>
      let '(opened, fs) := open_out fs n in
      if negb opened then Ok (Could_not_open_1, fs)
      else
        let fs := IO_Model.append fs n (firstn (amt writer) (buf writer)) in  (* strtk.hpp 14534-14538 *)
        let reader := Binary_Model.clear (start (buf writer)) in
        let len := file_size fs n in
        if negb (can_open fs n) then Ok (Could_not_open_2, fs)
        else
          let '(_, reader) := load_stream (contents fs n) (N.of_nat len) reader in
          e <- read_people true cleared ps 0 (Binary_Model.reset reader) ;;
          Ok (e, fs)
  end.
End Host.

(* example07, 960-984: an integer as text of a fixed width, and back.  writer 14574-14600 with
   left_padding, reader 14191-14203; format and parse are the converters of the type. *)
Definition write_number (format : Z -> outcome (list ascii)) (z : Z) (size : N) (pad : ascii) (st : bst) : outcome (bool * bst) :=
  text <- format z ;; write_text text size false pad st.
Definition read_number (parse : list ascii -> outcome (option Z)) (size : N) (st : bst) : outcome (option Z * bst) :=
  ' (o, st) <- read_text (fun b => (true, b)) size st ;;
  match o with
  | None => Ok (None, st)
  | Some (_, b) => v <- parse b ;; Ok (v, st)
  end.
