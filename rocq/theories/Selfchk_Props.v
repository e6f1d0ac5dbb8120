(* C129: the checks the example programs make. *)
From Verif Require Import Base Codec_Model Trie_Model Selfchk_Model Selfchk_Spec Selfchk_Proofs.
Local Open Scope nat_scope.

(* The converters example never reports a position, whatever the size and the first contents of
   its buffers. *)
Theorem C129_converters : forall size buffer1 buffer2 b64_buffer,
  length buffer1 = size -> length buffer2 = size -> length b64_buffer = 2 * size ->
  example03 size buffer1 buffer2 b64_buffer = Ok None.
Proof. exact example03_ok. Qed.
Print Assumptions C129_converters.

Example C129_ex_converters :
  example03 6 (str "abcdef") (str "ghijkl") (str "mnopqrstuvwx") = Ok None /\
  compare_buffers 3 (str "abc") (str "abd") = Ok (Some 2).
Proof. split; vm_compute; reflexivity. Qed.

(* A text buffer of the size of the data is too small for two bytes already. *)
Theorem C129_small_buffer_refuted : example03 3 (str "abc") (str "abc") (str "abc") = UB.
Proof. vm_compute. reflexivity. Qed.
Print Assumptions C129_small_buffer_refuted.

(* The strings of the trie example. *)
Theorem C129_strings : forall s, create_string_list s = Ok (all_pieces s) /\
  (forall p, In p (all_pieces s) -> p <> []) /\
  2 * length (all_pieces s) = length s * (length s * (length s - 1)).
Proof. intros s. split; [apply create_ok|]. split; [apply all_nonempty|apply all_count]. Qed.
Print Assumptions C129_strings.

Example C129_ex_strings : create_string_list (str "abc") =
  Ok [str "a"; str "b"; str "ab"; str "b"; str "c"; str "bc"; str "c"; str "a"; str "ca"] /\
  turned 1 (str "abc") = str "bca".
Proof. split; vm_compute; reflexivity. Qed.

(* The trie example finds every string in every round. *)
Theorem C129_trie : forall rounds str_list, (forall s, In s str_list -> s <> []) ->
  trie_example02 rounds str_list = Ok (inr (rounds * length str_list)).
Proof. exact trie_example_ok. Qed.
Print Assumptions C129_trie.

Example C129_ex_trie : trie_example02 3 [str "ab"; str "b"; str "ab"; str "abc"] = Ok (inr 12).
Proof. vm_compute. reflexivity. Qed.

(* As written, it makes 11724200 searches. *)
Theorem C129_trie_program : exists l count,
  create_string_list (str "abcdefghijklmnopqrstuvwxyzABCDEFGHIJKLMNOPQRSTUVWXYZ0123456789") = Ok l /\
  trie_example02 100 l = Ok (inr count) /\ N.of_nat count = 11724200%N.
Proof.
  set (s := str _). exists (all_pieces s). eexists. destruct (C129_strings s) as (E & Hn & Hc).
  split; [exact E|]. split; [apply C129_trie; exact Hn|]. change (length s) with 62 in Hc. lia.
Qed.
Print Assumptions C129_trie_program.

(* An empty string is reported as missing, although it was inserted. *)
Theorem C129_empty_refuted : forall rounds str_list, 0 < rounds -> In [] str_list ->
  trie_example02 rounds str_list = Ok (inl []).
Proof. exact trie_example_empty. Qed.
Print Assumptions C129_empty_refuted.

Example C129_ex_empty : trie_example02 2 [str "ab"; []; str "a"] = Ok (inl []).
Proof. vm_compute. reflexivity. Qed.
