(* Regular expressions as sets of texts, and what the predefined expressions should stand
   for; independent of the code. *)
From Verif Require Import Base Num_Spec.
Local Open Scope nat_scope.

(* regular expressions; a class is a list of ranges of character codes *)
Inductive re : Type :=
| Empty : re
| Class (rs : list (nat * nat)) : re
| Seq (a b : re) : re
| Alt (a b : re) : re
| Star (a : re) : re.

Inductive matches : re -> list ascii -> Prop :=
| m_empty : matches Empty []
| m_class : forall rs c, Exists (fun r => fst r <= nat_of_ascii c <= snd r) rs -> matches (Class rs) [c]
| m_seq : forall a b u v, matches a u -> matches b v -> matches (Seq a b) (u ++ v)
| m_left : forall a b u, matches a u -> matches (Alt a b) u
| m_right : forall a b u, matches b u -> matches (Alt a b) u
| m_none : forall a, matches (Star a) []
| m_more : forall a u v, matches a u -> matches (Star a) v -> matches (Star a) (u ++ v).

Definition letter (c : ascii) : Prop := 97 <= nat_of_ascii c <= 122 \/ 65 <= nat_of_ascii c <= 90.
Definition word_char (c : ascii) : Prop := letter c \/ is_digit c \/ c = "_"%char.
Definition digit_run (m n : nat) (s : list ascii) : Prop := Forall is_digit s /\ m <= length s <= n.
Definition some (p : ascii -> Prop) (s : list ascii) : Prop := s <> [] /\ Forall p s.

(* four numbers of at least two digits with points between them *)
Definition four_numbers (s : list ascii) : Prop := exists a b c d,
  s = a ++ "."%char :: b ++ "."%char :: c ++ "."%char :: d /\
  Forall (fun x => Forall is_digit x /\ 2 <= length x) [a; b; c; d].

(* an optional sign; an integer, or a number with a point and digits behind it and possibly
   an exponent with a sign *)
Definition signed_exponent (x : list ascii) : Prop :=
  exists e sg ds, x = e :: sg :: ds /\ In e (str "eE") /\ In sg (str "-+") /\ some is_digit ds.
Definition decimal_number (s : list ascii) : Prop := exists sg body, s = sg ++ body /\ In sg [[]; str "-"; str "+"] /\
  (some is_digit body \/
   exists i f x, body = i ++ "."%char :: f ++ x /\ Forall is_digit i /\ some is_digit f /\ (x = [] \/ signed_exponent x)).

(* n numbers of one to three digits, with points *)
Definition dotted_quad (s : list ascii) : Prop := exists a b c d,
  s = a ++ "."%char :: b ++ "."%char :: c ++ "."%char :: d /\ Forall (digit_run 1 3) [a; b; c; d].
(* labels of the given characters, each followed by a point, at least one of them; then two
   to four letters *)
Definition domain_name (p : ascii -> Prop) (s : list ascii) : Prop := exists labels tld,
  s = concat (map (fun l => l ++ ["."%char]) labels) ++ tld /\ labels <> [] /\ Forall (some p) labels /\
  Forall letter tld /\ 2 <= length tld <= 4.
Definition email_address (s : list ascii) : Prop := exists local domain,
  s = local ++ "@"%char :: domain /\ some (fun c => word_char c \/ c = "-"%char \/ c = "."%char) local /\
  ((exists q, domain = "["%char :: q ++ ["]"%char] /\ dotted_quad q) \/ domain_name (fun c => word_char c \/ c = "-"%char) domain).

(* scheme, host, optional port, path segments, optional slash *)
Definition host_char (c : ascii) : Prop := letter c \/ is_digit c \/ c = "-"%char.
Definition path_char (c : ascii) : Prop := host_char c \/ In c (str "._?,+&;%$#=~\").
Definition uri (s : list ascii) : Prop := exists scheme host port path slash,
  s = scheme ++ str "://" ++ host ++ port ++ path ++ slash /\
  In scheme [str "http"; str "https"; str "ftp"] /\
  ((exists o q c, host = o ++ q ++ c /\ In o [[]; str "["] /\ dotted_quad q /\ In c [[]; str "]"]) \/ domain_name host_char host) /\
  (port = [] \/ exists ds, port = ":"%char :: ds /\ some is_digit ds) /\
  (exists segments, path = concat (map (cons "/"%char) segments) /\ Forall (some path_char) segments) /\
  In slash [[]; str "/"].
