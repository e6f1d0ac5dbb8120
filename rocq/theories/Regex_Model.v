(* split_regex and the predefined expressions: /repo/strtk.hpp 3710-3869.

   boost::regex itself is outside strtk.  Two things about it are modelled:
   - boost::regex_iterator is the list of its match_results, each a list of sub-matches
     (offsets of first and second), the whole match being number 0;
   - for the predefined expressions, the part of the Perl syntax they use and the usual
     meaning of a regular expression as a set of texts (Regex_Spec.matches).
   Which of several possible matches a search reports is not modelled. *)
From Verif Require Import Base Split_Model Regex_Spec.
Local Open Scope nat_scope.

(* 3734-3757 split_regex(expression,begin,end,out,mode).  A sub-match number that the
   expression does not have yields boost's null sub-match, an empty range at the end of the
   text; len is the length of the text. *)
Definition sub_match (len : nat) (m : list token) (mode : nat) : token := nth mode m (len, len).

Fixpoint split_regex (len : nat) (matches : list (list token)) (mode : nat) (out : list token) (match_count : nat)
  : list token * nat :=
  match matches with
  | [] => (out, match_count)
  | m :: matches => split_regex len matches mode (out ++ [sub_match len m mode]) (S match_count)
  end.

(* split_regex_n, 3797-3823: the count is tested after the output *)
Fixpoint split_regex_n (len : nat) (matches : list (list token)) (token_count mode : nat) (out : list token) (match_count : nat)
  : list token * nat :=
  match matches with
  | [] => (out, match_count)
  | m :: matches =>
      let out := out ++ [sub_match len m mode] in
      let match_count := S match_count in
      if token_count <=? match_count then (out, match_count)
      else split_regex_n len matches token_count mode out match_count
  end.

Definition Opt (a : re) : re := Alt a Empty.
Definition Plus (a : re) : re := Seq a (Star a).
Fixpoint times (n : nat) (a : re) : re := match n with 0 => Empty | S n => Seq a (times n a) end.
Fixpoint upto (n : nat) (a : re) : re := match n with 0 => Empty | S n => Opt (Seq a (upto n a)) end.

(* ---- reading the expressions: groups, |, * + ? {m} {m,n}, classes, escapes ---- *)
Definition code (c : ascii) : nat := nat_of_ascii c.
Definition one (c : ascii) : list (nat * nat) := [(code c, code c)].
Definition digit_class : list (nat * nat) := [(48, 57)].
Definition word_class : list (nat * nat) := [(97, 122); (65, 90); (48, 57); (95, 95)].
Definition escape (c : ascii) : list (nat * nat) :=
  if Ascii.eqb c "d" then digit_class else if Ascii.eqb c "w" then word_class else one c.

(* the inside of [...]; a - at the start or before ] is itself *)
Fixpoint read_class (fuel : nat) (s : list ascii) (acc : list (nat * nat)) : option (list (nat * nat) * list ascii) :=
  match fuel with
  | 0 => None
  | S fuel =>
      match s with
      | [] => None
      | c :: s =>
          if Ascii.eqb c "]" then Some (acc, s)
          else if Ascii.eqb c "\" then
            match s with
            | [] => None
            | e :: s => read_class fuel s (acc ++ escape e)
            end
          else
            match s with
            | "-"%char :: d :: s' =>
                if Ascii.eqb d "]" then read_class fuel s (acc ++ one c)
                else read_class fuel s' (acc ++ [(code c, code d)])
            | _ => read_class fuel s (acc ++ one c)
            end
      end
  end.

Definition digit_of (c : ascii) : option nat := if (48 <=? code c) && (code c <=? 57) then Some (code c - 48) else None.
(* {m} or {m,n} with one digit each *)
Definition read_postfix (a : re) (s : list ascii) : option (re * list ascii) :=
  match s with
  | "*"%char :: s => Some (Star a, s)
  | "+"%char :: s => Some (Plus a, s)
  | "?"%char :: s => Some (Opt a, s)
  | "{"%char :: m :: "}"%char :: s => match digit_of m with Some m => Some (times m a, s) | None => None end
  | "{"%char :: m :: ","%char :: n :: "}"%char :: s =>
      match digit_of m, digit_of n with Some m, Some n => Some (Seq (times m a) (upto (n - m) a), s) | _, _ => None end
  | _ => Some (a, s)
  end.

Fixpoint read_alt (fuel : nat) (s : list ascii) : option (re * list ascii) :=
  match fuel with
  | 0 => None
  | S fuel =>
      match read_seq fuel s with
      | Some (a, "|"%char :: s) => match read_alt fuel s with Some (b, s) => Some (Alt a b, s) | None => None end
      | r => r
      end
  end
with read_seq (fuel : nat) (s : list ascii) : option (re * list ascii) :=
  match fuel with
  | 0 => None
  | S fuel =>
      match s with
      | [] => Some (Empty, s)
      | ")"%char :: _ => Some (Empty, s)
      | "|"%char :: _ => Some (Empty, s)
      | _ =>
          match read_atom fuel s with
          | None => None
          | Some (a, s) =>
              match read_postfix a s with
              | None => None
              | Some (a, s) => match read_seq fuel s with Some (b, s) => Some (Seq a b, s) | None => None end
              end
          end
      end
  end
with read_atom (fuel : nat) (s : list ascii) : option (re * list ascii) :=
  match fuel with
  | 0 => None
  | S fuel =>
      match s with
      | [] => None
      | "("%char :: s => match read_alt fuel s with Some (a, ")"%char :: s) => Some (a, s) | _ => None end
      | "["%char :: s => match read_class fuel s [] with Some (rs, s) => Some (Class rs, s) | None => None end
      | "\"%char :: c :: s => Some (Class (escape c), s)
      | c :: s => Some (Class (one c), s)
      end
  end.
Definition read_re (s : list ascii) : option re :=
  match read_alt (4 * length s) s with Some (a, []) => Some a | _ => None end.

(* the constants, 3712-3715, with the C++ escapes resolved *)
Definition uri_expression : list ascii :=
  str "((https?|ftp)\://((\[?(\d{1,3}\.){3}\d{1,3}\]?)|(([-a-zA-Z0-9]+\.)+[a-zA-Z]{2,4}))(\:\d+)?(/[-a-zA-Z0-9._?,+&amp;%$#=~\\]+)*/?)".
Definition email_expression : list ascii :=
  str "([\w\-\.]+)@((\[([0-9]{1,3}\.){3}[0-9]{1,3}\])|(([\w\-]+\.)+)([a-zA-Z]{2,4}))".
Definition ip_expression : list ascii :=
  str "(([0-2]*[0-9]+[0-9]+)\.([0-2]*[0-9]+[0-9]+)\.([0-2]*[0-9]+[0-9]+)\.([0-2]*[0-9]+[0-9]+))".
Definition ieee754_expression : list ascii :=
  str "([-+]?((\.[0-9]+|[0-9]+\.[0-9]+)([eE][-+][0-9]+)?|[0-9]+))".

Definition of_text (s : list ascii) : re := match read_re s with Some r => r | None => Class [] end.
