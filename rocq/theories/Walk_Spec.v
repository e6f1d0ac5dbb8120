From Verif Require Import Base Num_Spec Codec_Spec Scan_Spec.
Local Open Scope nat_scope.

(* one match as it is shown *)
Definition match_text (m : list ascii) : list ascii := str "(" ++ m ++ str ")" ++ [ascii_of_nat 9].

(* two copies of the text that overlap differ somewhere, even without regard to case *)
Definition never_overlaps (pat : list ascii) : Prop :=
  forall k, 0 < k < length pat -> exists i x y, nth_error pat i = Some x /\ nth_error pat (k + i) = Some y /\ upper x <> upper y.

(* the number that is shown for a pattern: where it occurs first, and 2^64 - 1 if it does not occur *)
Definition first_index (data p : list ascii) (n : Z) : Prop :=
  (exists a b, data = a ++ p ++ b /\ n = Z.of_nat (length a) /\ forall a' b', data = a' ++ p ++ b' -> length a <= length a') \/
  ((forall a b, data <> a ++ p ++ b) /\ n = 18446744073709551615%Z).

(* the values given to a key, in order *)
Definition values_of (pairs : list (list ascii * Z)) (k : list ascii) : list Z :=
  flat_map (fun kv => if list_eq_dec ascii_dec k (fst kv) then [snd kv] else []) pairs.

(* the text dropped: a dot and anything, or nothing, where the size is not given; otherwise as many
   characters as said and one more *)
Definition dropped (frac : option nat) (r : list ascii) : Prop :=
  match frac with None => r = [] \/ exists b, r = "."%char :: b | Some n => length r = n + 1 end.

(* the line for a text: its first character that occurs once *)
Definition once_line (s l : list ascii) : Prop :=
  (exists i c, nth_error s i = Some c /\ occurs_once s i /\ (forall j, j < i -> ~ occurs_once s j) /\ l = str "First non repeated char: " ++ [c] ++ [ascii_of_nat 10]) \/
  (forall j, ~ occurs_once s j) /\ l = str "No non-repeated chars in string." ++ [ascii_of_nat 10].
