(* Sinks used as targets of parse: strtk.hpp 14813-15125, 15341-15408, converters 17809-17846.
   An object of an integer type T is its sizeof(T) bytes, the first byte in memory first. *)
From Verif Require Import Base Codec_Model Split_Model Parse_Model.
Local Open Scope nat_scope.

(* strtk.hpp 882-899 *)
Definition range_only_contains {A} (p : A -> bool) (s : list A) : outcome bool :=
  loop (S (length s))
    (fun itr =>
       if length s =? itr then Ok (inr true)
       else c <- rd s itr ;; if negb (p c) then Ok (inr false) else Ok (inl (itr + 1))) 0.

(* strtk.hpp 14893-14904 and 14995-15006: reverse_bytes *)
Definition reverse_bytes (t : list ascii) : outcome (list ascii) :=
  loop (S (length t))
    (fun '(itr1, itr2, t) =>
       if itr1 <? itr2 then
         a <- rd t itr1 ;; b <- rd t itr2 ;;
         t <- wr t itr1 b ;; t <- wr t itr2 a ;;
         Ok (inl (itr1 + 1, itr2 - 1, t))
       else Ok (inr t))
    (0, length t - 1, t).

(* strtk.hpp 14819-14832 *)
Definition hex_value_check (c : ascii) : bool :=
  let n := nat_of_ascii c in
  ((48 <=? n) && (n <=? 57)) || ((65 <=? n) && (n <=? 70)) || ((97 <=? n) && (n <=? 102)).

(* strtk.hpp 14857-14859, 15038-15041: the length of a prefix 0x or 0X *)
Definition hex_prefix (s : list ascii) : outcome nat :=
  if 2 <? length s then
    c0 <- rd s 0 ;; c1 <- rd s 1 ;;
    Ok (if Ascii.eqb c0 "0" && (Ascii.eqb c1 "x" || Ascii.eqb c1 "X") then 2 else 0)
  else Ok 0.

(* std::copy(src, src + |src|, buffer + pos) *)
Definition copy_into (src buffer : list ascii) (pos : nat) : outcome (list ascii) :=
  if pos + length src <=? length buffer
  then Ok (firstn pos buffer ++ src ++ skipn (pos + length src) buffer) else UB.

(* strtk.hpp 14853-14879: hex_to_number_sink::operator=; valid and t are the members *)
Definition hex_to_number (s : list ascii) (valid : bool) (t : list ascii) : outcome (bool * list ascii) :=
  offset <- hex_prefix s ;;
  let k := length s - offset in
  if 2 * length t <? k then Ok (valid, t)
  else
    let buffer_offset := k mod 2 in
    let buffer := firstn (2 * length t) ("0"%char :: repeat zero (2 * length t - 1)) in
    ok <- range_only_contains hex_value_check (skipn offset s) ;;
    if negb ok then Ok (false, t)
    else
      buffer <- copy_into (skipn offset s) buffer buffer_offset ;;
      ' (valid, t) <- convert_hex_to_bin (firstn (k + buffer_offset) buffer) (repeat zero (length t)) ;;
      t <- reverse_bytes t ;;
      Ok (valid, t).

(* strtk.hpp 14918-14934 *)
Definition base64_value_check (c : ascii) : bool :=
  let n := nat_of_ascii c in
  ((48 <=? n) && (n <=? 57)) || ((65 <=? n) && (n <=? 90)) || ((97 <=? n) && (n <=? 122)) ||
  Ascii.eqb "+" c || Ascii.eqb "/" c || Ascii.eqb "=" c.

(* strtk.hpp 14955-14986: base64_to_number_sink::operator= *)
Definition base64_to_number (s : list ascii) (valid : bool) (t : list ascii) : outcome (bool * list ascii) :=
  ok <- range_only_contains base64_value_check s ;;
  if negb ok then Ok (false, t)
  else
    ' (_, t) <- convert_base64_to_bin s (repeat zero (length t)) ;;
    t <- reverse_bytes t ;;
    Ok (valid, t).

(* strtk.hpp 15035-15052: hex_to_string_sink::operator=; str is the string referred to *)
Definition hex_to_string (s : list ascii) (out : list ascii) : outcome (bool * list ascii) :=
  offset <- hex_prefix s ;;
  if length s - offset <? 2 then Ok (false, out)
  else convert_hex_to_bin (skipn offset s) (resize out ((length s - offset) / 2)).

(* string_to_type_converter_impl for the hex and base64 sinks, 17809-17837: the member valid_
   after the assignment is the result *)
Definition conv_hex_number : converter (bool * list ascii) := fun s '(valid, t) =>
  ' (valid, t) <- hex_to_number s valid t ;; Ok (valid, (valid, t)).
Definition conv_base64_number : converter (bool * list ascii) := fun s '(valid, t) =>
  ' (valid, t) <- base64_to_number s valid t ;; Ok (valid, (valid, t)).
Definition conv_hex_string : converter (list ascii) := fun s out =>
  hex_to_string s out.

(* strtk.hpp 15099-15119: truncated_int with a target; frac = None is fractional_unknown_size
   (the default); conv is string_to_type_converter of the integer type *)
Definition truncated_int {T} (conv : converter T) (frac : option nat) : converter T := fun s t =>
  match frac with
  | Some n => if length s <? n + 1 then Ok (false, t) else conv (firstn (length s - (n + 1)) s) t
  | None =>
      new_end <- loop (S (length s))                       (* std::find *)
        (fun itr =>
           if length s =? itr then Ok (inr itr)
           else c <- rd s itr ;; if Ascii.eqb c "." then Ok (inr itr) else Ok (inl (itr + 1))) 0 ;;
      conv (firstn new_end s) t
  end.

(* strtk.hpp 15341-15408: sink_type.  elements: the member element_count_, which the constructor
   taking a container leaves without a value; All is the maximum of size_t *)
Inductive elements := Unset | All | Count (n : nat).
Section SinkType.
  Context {T C : Type}.
  Variable conv : converter T.
  Variable d : T.
  Variable add : C -> T -> C.
  Variable size : C -> nat.

  Record sink := Sink { s_delims : list ascii; s_opt : N; s_container : option C; s_count : elements }.
  (* 15348-15362 *)
  Definition sink_of_delims (delims : list ascii) (opt : N) : sink := Sink delims opt None All.
  Definition sink_of_container (c : C) (delims : list ascii) (opt : N) : sink := Sink delims opt (Some c) Unset.
  (* 15364-15368 *)
  Definition count (n : elements) (k : sink) : sink := Sink (s_delims k) (s_opt k) (s_container k) n.
  (* 15370-15379 *)
  Definition attach (c : C) (delims : list ascii) (opt : N) (k : sink) : sink :=
    Sink (if length delims =? 0 then s_delims k else delims) opt (Some c) (s_count k).
  (* 15381-15395 through the proxies 15242-15337; also the converter 17839-17846 *)
  Definition conv_sink : converter sink := fun s k =>
    match s_container k with
    | None => Ok (false, k)
    | Some c =>
        match s_count k with
        | Unset => UB
        | All =>
            ' (c, n) <- parse_container conv d add (s_delims k) s (s_opt k) c ;;
            Ok (0 <? n, Sink (s_delims k) (s_opt k) (Some c) (s_count k))
        | Count m =>
            ' (c, n) <- parse_n_container conv d add size (s_delims k) s m (s_opt k) c ;;
            Ok (n =? m, Sink (s_delims k) (s_opt k) (Some c) (s_count k))
        end
    end.
End SinkType.
Arguments sink : clear implicits.
