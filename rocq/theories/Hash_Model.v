(* hash: strtk.hpp 20671-20801. *)
From Verif Require Import Base.

Definition u32 (x : N) : N := (x mod 2 ^ 32)%N.
Definition inv32 (x : N) : N := (2 ^ 32 - 1 - x)%N.

(* the two lines repeated in compute_pod_hash, e.g. 20676-20677; arithmetic on
   unsigned int *)
Definition mix_even (b h : N) : N :=
  N.lxor h (N.lxor (u32 (N.shiftl h 7)) (u32 (b * N.shiftr h 3))).
Definition mix_odd (b h : N) : N :=
  N.lxor h (inv32 (u32 (u32 (N.shiftl h 11) + N.lxor b (N.shiftr h 5)))).

(* compute_pod_hash on int (20686-20693), on unsigned long long (20700-20711) and
   on double (20713-20724): the bytes of the object in pairs.  There is no overload
   for char; a char is promoted to int. *)
Fixpoint compute_pod_hash (bytes : list N) (h : N) : N :=
  match bytes with
  | b0 :: b1 :: r => compute_pod_hash r (mix_odd b1 (mix_even b0 h))
  | _ => h
  end.

(* object representation of the int a char is promoted to (char signed, little
   endian) *)
Definition char_as_int (c : ascii) : list N :=
  let n := N_of_ascii c in
  let x := if (n <? 128)%N then n else (n + (2 ^ 32 - 256))%N in
  [(x mod 256)%N; (x / 256 mod 256)%N; (x / 65536 mod 256)%N; (x / 16777216 mod 256)%N].

Section Hash.
Context {T : Type}.
Variable bytes : T -> list N.  (* object representation of an element *)

(* compute_block, 20726-20737 (and 20739-20760 for character pointers, which keeps
   the hash in a local variable): itr is passed by value, so it starts at
   [begin] again on every call. *)
Definition compute_block (block_size : nat) (s : list T) (len : nat) (h : N) : outcome (nat * N) :=
  loop (S len)
    (fun '(itr, len, h) =>
       if negb (block_size <=? len) then Ok (inr (len, h))
       else
         ' (itr, h) <- for_up 0 block_size
              (fun _ '(itr, h) => e <- rd s itr ;; Ok (S itr, compute_pod_hash (bytes e) h)) (itr, h) ;;
         Ok (inl (itr, len - block_size, h)))
    (0, len, h).

(* details::hash, 20764-20774 *)
Definition hash_blocks (s : list T) (len : nat) (h : N) : outcome N :=
  ' (len, h) <- (if 64 <=? len then compute_block 64 s len h else Ok (len, h)) ;;
  ' (len, h) <- (if 32 <=? len then compute_block 32 s len h else Ok (len, h)) ;;
  ' (len, h) <- (if 16 <=? len then compute_block 16 s len h else Ok (len, h)) ;;
  ' (len, h) <- (if 8 <=? len then compute_block 8 s len h else Ok (len, h)) ;;
  ' (len, h) <- (if 4 <=? len then compute_block 4 s len h else Ok (len, h)) ;;
  ' (len, h) <- (if 2 <=? len then compute_block 2 s len h else Ok (len, h)) ;;
  ' (len, h) <- (if len =? 0 then compute_block 1 s len h else Ok (len, h)) ;;
  Ok h.

(* hash(itr,length,seed), 20778-20786; hash(sequence,seed), 20794-20801 *)
Definition hash_range (s : list T) (len : nat) (seed : N) : outcome N := hash_blocks s len seed.
Definition hash_sequence (s : list T) (seed : N) : outcome N := hash_range s (length s) seed.

End Hash.

(* 20762 *)
Definition hash_seed : N := 2863311530.

(* hash(const std::string&,seed), 20788-20792 *)
Definition hash_string (s : list ascii) (seed : N) : outcome N :=
  hash_range char_as_int s (length s) seed.
