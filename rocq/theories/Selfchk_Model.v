(* Checks the example programs make of the library: strtk_converters_example.cpp 64-89 and
   strtk_search_trie_example.cpp 93-149. *)
From Verif Require Import Base Codec_Model Trie_Model.
Local Open Scope nat_scope.

(* for i < k: if (buffer1[i] != buffer2[i]) report i and return, 79-86 *)
Definition compare_buffers (k : nat) (buffer1 buffer2 : list ascii) : outcome (option nat) :=
  loop (S k)
    (fun i =>
       if i <? k then
         a <- rd buffer1 i ;; b <- rd buffer2 i ;;
         if negb (Ascii.eqb a b) then Ok (inr (Some i)) else Ok (inl (S i))
       else Ok (inr None))
    0.

(* example03, 64-89, for any [size]: the position reported, or None.  The buffers come without
   values; their contents are arguments. *)
Definition example03 (size : nat) (buffer1 buffer2 b64_buffer : list ascii) : outcome (option nat) :=
  loop (S size)
    (fun '(k, buffer1, buffer2, b64_buffer) =>
       if k <? size then
         buffer1 <- for_up 0 k (fun i b => wr b i (ascii_of_nat (i mod 256))) buffer1 ;;
         if length buffer1 <? k then UB
         else
           ' (b64_size, b64_buffer) <- convert_bin_to_base64 (firstn k buffer1) b64_buffer ;;
           buffer2 <- for_up 0 k (fun i b => wr b i zero) buffer2 ;;
           if length b64_buffer <? b64_size then UB
           else
             ' (_, buffer2) <- convert_base64_to_bin (firstn b64_size b64_buffer) buffer2 ;;
             r <- compare_buffers k buffer1 buffer2 ;;
             match r with
             | Some i => Ok (inr (Some i))
             | None => Ok (inl (S k, buffer1, buffer2, b64_buffer))
             end
       else Ok (inr None))
    (1, buffer1, buffer2, b64_buffer).

(* std::rotate(s.begin(), s.begin() + 1, s.end()), 109; s is not empty there *)
Definition rotate_one (s : list ascii) : list ascii :=
  match s with [] => [] | c :: s' => s' ++ [c] end.

(* create_string_list, 95-111, for the string s of line 97 *)
Definition create_string_list (s : list ascii) : outcome (list (list ascii)) :=
  ' (_, str_list) <- for_up 0 (length s)
    (fun _ '(s, str_list) =>
       str_list <- for_up 1 (length s)
         (fun i str_list =>
            for_up 0 (length s - i)
              (fun k str_list =>
                 if length s <? k then UB   (* substr throws *)
                 else Ok (str_list ++ [sub s (k, Nat.min (k + i) (length s))])) str_list) str_list ;;
       Ok (rotate_one s, str_list)) (s, []) ;;
  Ok str_list.

(* the part of trie_example02 on the trie, 113-149: the string reported as missing, or the number of
   searches *)
Definition trie_example02 (rounds : nat) (str_list : list (list ascii)) : outcome (list ascii + nat) :=
  trie <- for_up 0 (length str_list)
    (fun i t => s <- rd str_list i ;; insert Ascii.eqb t s i) empty_trie ;;
  loop (S (rounds * S (length str_list)))
    (fun '(r, i, count) =>
       if r <? rounds then
         if i <? length str_list then
           s <- rd str_list i ;;
           b <- find_prefix Ascii.eqb trie s ;;
           if negb b then Ok (inr (inl s)) else Ok (inl (r, S i, S count))
         else Ok (inl (S r, 0, count))
       else Ok (inr (inr count)))
    (0, 0, 0).
