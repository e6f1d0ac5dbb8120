(* Specifications for hex, base64 and letter case. *)
From Verif Require Import Base.

(* hexadecimal digits, upper case *)
Definition hex_digit (n : N) : ascii := nth (N.to_nat n) (str "0123456789ABCDEF") zero.

(* two digits per byte, high nibble first *)
Definition hex_text (s : list ascii) : list ascii :=
  concat (map (fun c => [hex_digit (N_of_ascii c / 16); hex_digit (N_of_ascii c mod 16)]) s).

(* value of a hex digit character, either case *)
Definition hex_value (c : ascii) : option N :=
  let n := N_of_ascii c in
  if ((48 <=? n) && (n <=? 57))%N then Some (n - 48)%N
  else if ((65 <=? n) && (n <=? 70))%N then Some (n - 55)%N
  else if ((97 <=? n) && (n <=? 102))%N then Some (n - 87)%N
  else None.

(* the eight bits of a byte, most significant first *)
Definition bits8 (c : ascii) : list bool :=
  map (fun k => N.testbit (N_of_ascii c) (N.of_nat k)) [7;6;5;4;3;2;1;0].

(* zero bits up to a multiple of six *)
Definition pad6 (l : list bool) : list bool :=
  l ++ repeat false ((6 - length l mod 6) mod 6).

Fixpoint groups6 (l : list bool) : list (list bool) :=
  match l with
  | a :: b :: c :: d :: e :: f :: l' => [a;b;c;d;e;f] :: groups6 l'
  | _ => []
  end.

Definition bits_value (l : list bool) : nat :=
  fold_left (fun v b => 2 * v + (if b : bool then 1 else 0)) l 0.

Definition b64_alphabet : list ascii :=
  str "ABCDEFGHIJKLMNOPQRSTUVWXYZabcdefghijklmnopqrstuvwxyz0123456789+/".

(* RFC 4648: the bit string in groups of six, then '=' up to a multiple of four *)
Definition base64_text (s : list ascii) : list ascii :=
  let letters := map (fun g => nth (bits_value g) b64_alphabet zero)
                     (groups6 (pad6 (concat (map bits8 s)))) in
  letters ++ repeat "="%char ((4 - length letters mod 4) mod 4).

(* ASCII letters *)
Definition is_lower (c : ascii) : bool := let n := nat_of_ascii c in (97 <=? n) && (n <=? 122).
Definition is_upper (c : ascii) : bool := let n := nat_of_ascii c in (65 <=? n) && (n <=? 90).
Definition upper (c : ascii) : ascii :=
  if is_lower c then ascii_of_nat (nat_of_ascii c - 32) else c.
Definition lower (c : ascii) : ascii :=
  if is_upper c then ascii_of_nat (nat_of_ascii c + 32) else c.
Definition printable (c : ascii) : bool := let n := nat_of_ascii c in (33 <=? n) && (n <=? 126).
