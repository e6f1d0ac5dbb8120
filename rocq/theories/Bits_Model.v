(* Bit interleaving, bitwise transforms, bit counting and bit addressing:
   /repo/strtk.hpp 4858-5193. *)
From Verif Require Import Base Codec_Tables Codec_Model.

(* strtk.hpp 4858-4915.  The unsigned short at out is stored low byte first (little-endian
   host, alignment not modelled); the store followed by |= is one store of the final value.
   Result: return value and output buffer. *)
Definition twoway_bitwise_interleave (s1 s2 out : list ascii) : outcome (bool * list ascii) :=
  if negb (length s1 =? length s2) then Ok (false, out)
  else
    out <- for_up 0 (length s1)
      (fun i out =>
         b <- rd s2 i ;; t2 <- lookup interleave_table (byte b) ;;
         a <- rd s1 i ;; t1 <- lookup interleave_table (byte a) ;;
         let v := N.lor (N.shiftl t2 1 mod 65536) t1 in
         out <- wr out (2 * i) (to_byte v) ;;
         wr out (2 * i + 1) (to_byte (N.shiftr v 8))) out ;;
    Ok (true, out).

(* strtk.hpp 4928-4942: out is resized to str1.size(), not twice that *)
Definition twoway_bitwise_interleave_str (s1 s2 out : list ascii) : outcome (bool * list ascii) :=
  if negb (length s1 =? length s2) then Ok (false, out)
  else twoway_bitwise_interleave s1 s2 (resize out (length s1)).

(* strtk.hpp 4951-4967, n = sizeof(type) in {2,4,8}: the value of table[i] *)
Definition nway_entry (n : N) (i : N) : N :=
  fold_left (fun t j => N.lor t (N.shiftl (N.land i (N.shiftl 1 j)) (j * (n - 1)) mod 2 ^ (8 * n)))
            [0;1;2;3;4;5;6;7]%N 0%N.
Definition create_nway_interleave_table (n : N) : list N :=
  map (fun i => nway_entry n (N.of_nat i)) (seq 0 256).

(* strtk.hpp 4969 *)
Inductive bitwise_operation := eAND | eOR | eXOR.
Definition apply_op (o : bitwise_operation) (a b : N) : N :=
  match o with eAND => N.land a b | eOR => N.lor a b | eXOR => N.lxor a b end.

(* strtk.hpp 4971-4997; out does not overlap the inputs *)
Definition bitwise_transform (o : bitwise_operation) (s1 s2 out : list ascii) : outcome (list ascii) :=
  for_up 0 (length s1)
    (fun i out => a <- rd s1 i ;; b <- rd s2 i ;; wr out i (to_byte (apply_op o (byte a) (byte b)))) out.

(* strtk.hpp 4999-5010 *)
Definition bitwise_transform_str (o : bitwise_operation) (s1 s2 out : list ascii) : outcome (list ascii) :=
  if negb (length s1 =? length s2) then Ok out
  else bitwise_transform o s1 s2 (resize out (length s1)).

(* strtk.hpp 5012-5035 *)
Definition high_bit_count_byte (b : N) : outcome N := lookup high_bits_in_char b.

(* strtk.hpp 5037-5057: w bytes of the object representation of an unsigned value v *)
Definition high_bit_count_int (w : nat) (v : N) : outcome N :=
  for_up 0 w (fun k acc => c <- high_bit_count_byte (N.shiftr v (8 * N.of_nat k) mod 256) ;; Ok (acc + c)%N) 0%N.

(* strtk.hpp 5059-5082; the sum cannot wrap size_t for a string that fits in memory *)
Definition high_bit_count (s : list ascii) : outcome N :=
  for_up 0 (length s) (fun i acc => a <- rd s i ;; c <- high_bit_count_byte (byte a) ;; Ok (acc + c)%N) 0%N.

(* strtk.hpp 5086-5096 / 5118-5128 *)
Definition bit_mask : list N := [0x01; 0x02; 0x04; 0x08; 0x10; 0x20; 0x40; 0x80]%N.
Definition bit_mask_low : list N := [0xFE; 0xFD; 0xFB; 0xF7; 0xEF; 0xDF; 0xBF; 0x7F]%N.

(* strtk.hpp 5084-5098 *)
Definition bit_state (index : nat) (ptr : list ascii) : outcome bool :=
  c <- rd ptr (Nat.shiftr index 3) ;;
  m <- rd bit_mask (Nat.land index 7) ;;
  Ok (negb (N.land (byte c) m =? 0)%N).

(* strtk.hpp 5100-5114 *)
Definition set_bit_high (index : nat) (ptr : list ascii) : outcome (list ascii) :=
  c <- rd ptr (Nat.shiftr index 3) ;;
  m <- rd bit_mask (Nat.land index 7) ;;
  wr ptr (Nat.shiftr index 3) (to_byte (N.lor (byte c) m)).

(* strtk.hpp 5116-5130 *)
Definition set_bit_low (index : nat) (ptr : list ascii) : outcome (list ascii) :=
  c <- rd ptr (Nat.shiftr index 3) ;;
  m <- rd bit_mask_low (Nat.land index 7) ;;
  wr ptr (Nat.shiftr index 3) (to_byte (N.land (byte c) m)).

(* std::numeric_limits<std::size_t>::max() *)
Definition size_max : N := 18446744073709551615%N.

(* strtk.hpp 5132-5165 *)
Definition hamming_distance (s1 s2 : list ascii) : outcome N :=
  if negb (length s1 =? length s2) then Ok size_max
  else for_up 0 (length s1)
    (fun i d => a <- rd s1 i ;; b <- rd s2 i ;;
       c <- high_bit_count_byte (N.land (N.lxor (byte a) (byte b)) 255) ;; Ok (d + c)%N) 0%N.

(* strtk.hpp 5167-5193: neither iterator is ever advanced *)
Definition hde_step {A} (eqb : A -> A -> bool) (s1 s2 : list A) (st : nat * nat * N)
  : outcome (nat * nat * N + N) :=
  let '(i1, i2, d) := st in
  if length s1 =? i1 then Ok (inr d)
  else a <- rd s1 i1 ;; b <- rd s2 i2 ;;
       Ok (inl (i1, i2, if negb (eqb a b) then (d + 1)%N else d)).
Definition hamming_distance_elementwise {A} (eqb : A -> A -> bool) (fuel : nat) (s1 s2 : list A) : outcome N :=
  if negb (length s1 =? length s2) then Ok size_max
  else loop fuel (hde_step eqb s1 s2) (0, 0, 0%N).
