(* ext_string (strtk.hpp 18159-18457), build_string (11393-11428) and
   type_to_string for characters, bool, strings, sinks and containers (420-435,
   17848-17875, 17986-18027). *)
From Verif Require Import Base Split_Model Edit_Model Match_Model Codec_Model Num_Model Parse_Model Gen_Model.
Local Open Scope nat_scope.

(* type_to_string_converter_impl: the text, or None where it returns false.
   17987-17993 for the character types. *)
Definition byte_text (c : ascii) : option (list ascii) :=
  let result := repeat zero 1 in Some (upd result 0 c).
(* bool and std::string are not registered in supported_conversion_from_type
   (16970-17003): type_to_string takes the version of 17848-17875 that writes the
   value to a std::stringstream and takes its text.  Simplification: the stream
   is a list of characters; a default stream writes a bool as the number 0 or 1
   and a string as it is.  The versions tagged bool_type_tag, stdstring_type_tag
   and stdstring_range_type_tag (17995-18013) are never chosen. *)
Definition stream_text (written : list ascii) : option (list ascii) :=
  let ss := [] ++ written in Some ss.
Definition bool_text (b : bool) : option (list ascii) := stream_text [if b then "1" else "0"]%char.
Definition string_text (s : list ascii) : option (list ascii) := stream_text s.
(* 18015-18027: sinks and containers *)
Definition sink_text {T} (_ : T) : option (list ascii) := None.
Definition container_text {T} (_ : list T) : option (list ascii) := None.
(* 427-435, type_to_string(t): Throw is std::invalid_argument *)
Inductive thrown (A : Type) : Type := Value (a : A) | Throw.
Arguments Value {A}. Arguments Throw {A}.
Definition type_to_string (text : option (list ascii)) : thrown (list ascii) :=
  match text with Some s => Value s | None => Throw end.

(* 18209-18219, as_type: one version throws, the other reports *)
Definition as_type {T} (conv : converter T) (t0 : T) (s : list ascii) : outcome (thrown T) :=
  ' (b, t) <- conv s t0 ;; Ok (if b : bool then Value t else Throw).
Definition as_type_into {T} (conv : converter T) (s : list ascii) (t : T) : outcome (bool * T) := conv s t.

(* 18251-18260 and 18270-18279: removal by a set of characters *)
Definition es_remove_leading (removal_set s : list ascii) : outcome (list ascii) :=
  if length removal_set =? 0 then Ok s
  else if 1 =? length removal_set then
    c <- rd removal_set 0 ;; remove_leading_str (single_delimiter_predicate c) s
  else remove_leading_str (multiple_char_delimiter_predicate removal_set) s.
Definition es_remove_trailing (removal_set s : list ascii) : outcome (list ascii) :=
  if length removal_set =? 0 then Ok s
  else if 1 =? length removal_set then
    c <- rd removal_set 0 ;; remove_trailing_str (single_delimiter_predicate c) s
  else remove_trailing_str (multiple_char_delimiter_predicate removal_set) s.

(* 18300-18306 *)
Definition es_replace (pattern replace_pattern_ s : list ascii) : outcome (list ascii) :=
  replace_pattern Ascii.eqb zero s pattern replace_pattern_.
(* 18288-18292, operator-= ; 18436-18452, operator- *)
Definition es_minus_assign (s pattern : list ascii) : outcome (list ascii) := es_replace pattern [] s.
Definition es_minus (s pattern : list ascii) : outcome (list ascii) := remove_pattern Ascii.eqb zero s pattern.
(* 18294-18298, operator*= ; 18414-18422, operator* *)
Definition es_times_assign (s : list ascii) (n : nat) : list ascii := replicate_inplace n s.
Definition es_times (s : list ascii) (n : nat) : list ascii := replicate n s.
(* 18182-18187, 18281-18286, operator<< and += ; the object keeps its value
   when type_to_string throws.  18424-18434, operator+ *)
Definition es_append (s : list ascii) (text : option (list ascii)) : list ascii * thrown unit :=
  match type_to_string text with Value t => (s ++ t, Value tt) | Throw => (s, Throw) end.
Definition es_plus (s : list ascii) (text : option (list ascii)) : thrown (list ascii) :=
  match type_to_string text with Value t => Value (s ++ t) | Throw => Throw end.
Definition plus_es (text : option (list ascii)) (s : list ascii) : thrown (list ascii) :=
  match type_to_string text with Value t => Value (t ++ s) | Throw => Throw end.

(* 18375-18407 *)
Definition all_digits : list ascii := str "0123456789".
Definition all_letters : list ascii := str "abcdefghijklmnopqrstuvwxyzABCDEFGHIJKLMNOPQRSTUVWXYZ".
Definition all_lowercase_letters : list ascii := str "abcdefghijklmnopqrstuvwxyz".
Definition all_uppercase_letters : list ascii := str "ABCDEFGHIJKLMNOPQRSTUVWXYZ".
(* iota over the 256 characters of a string, from char 0: [c] is char, which
   may be signed or unsigned *)
Definition all_chars (c : int_type) : outcome (list ascii) :=
  l <- iota_range c (repeat 0%Z 256) (0, 256) 0%Z ;;
  Ok (map (fun z => ascii_of_N (Z.to_N (z mod 256))) l).

(* The operations that change an ext_string, as a program can chain them. *)
Inductive es_op :=
| Lower | Upper
| RemoveLeading (set : list ascii) | RemoveTrailing (set : list ascii)
| Replace (p r : list ascii) | Minus (p : list ascii) | Times (n : nat)
| Append (text : option (list ascii)).
Definition es_step (s : list ascii) (o : es_op) : outcome (list ascii * thrown unit) :=
  match o with
  | Lower => t <- convert_to_lowercase s ;; Ok (t, Value tt)     (* 18231-18235 *)
  | Upper => t <- convert_to_uppercase s ;; Ok (t, Value tt)     (* 18237-18241 *)
  | RemoveLeading set => t <- es_remove_leading set s ;; Ok (t, Value tt)
  | RemoveTrailing set => t <- es_remove_trailing set s ;; Ok (t, Value tt)
  | Replace p r => t <- es_replace p r s ;; Ok (t, Value tt)
  | Minus p => t <- es_minus_assign s p ;; Ok (t, Value tt)
  | Times n => Ok (es_times_assign s n, Value tt)
  | Append text => Ok (es_append s text)
  end.
(* s.op1().op2()...: an exception ends the chain *)
Fixpoint es_chain (s : list ascii) (os : list es_op) : outcome (list ascii * thrown unit) :=
  match os with
  | [] => Ok (s, Value tt)
  | o :: os' =>
      ' (s', r) <- es_step s o ;;
      match r with Value _ => es_chain s' os' | Throw => Ok (s', Throw) end
  end.

(* build_string, 11402-11418: operator<< for strings appends directly, for
   other types through type_to_string *)
Fixpoint build_string (data_ : list ascii) (texts : list (option (list ascii))) : list ascii * thrown unit :=
  match texts with
  | [] => (data_, Value tt)
  | t :: texts' =>
      match type_to_string t with
      | Value s => build_string (data_ ++ s) texts'
      | Throw => (data_, Throw)
      end
  end.
