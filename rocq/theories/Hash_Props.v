(* C45: the hash of a range. *)
From Verif Require Import Base Hash_Model Hash_Spec Hash_Proofs.

(* hash(itr,length,seed) stays inside the range and is the left-to-right mix of the
   elements at exactly these positions. *)
Theorem C45_positions :
  forall (T : Type) (bytes : T -> list N) (s : list T) n seed, n <= length s ->
  hash_range bytes s n seed =
  Ok (mix_all (fun x h => compute_pod_hash (bytes x) h) (pick s (positions n)) seed) /\
  (forall i, In i (positions n) -> i < n).
Proof.
  intros T bytes s n seed Hn. split; [apply hash_ok; auto|].
  intros i Hi. apply positions_bound in Hi. lia.
Qed.
Print Assumptions C45_positions.

Example C45_positions_ex : positions 5 = [0; 1; 2; 3] /\
  hash_range char_as_int (str "abcde") 5 7 = Ok (mix_all (fun x h => compute_pod_hash (char_as_int x) h) (str "abcd") 7%N).
Proof. split; vm_compute; reflexivity. Qed.

(* When the length is a multiple of 64 or one of 2, 4, 8, 16, 32, every element is
   mixed in exactly once, in order. *)
Theorem C45_all_elements :
  forall (T : Type) (bytes : T -> list N) (s : list T) seed,
  length s mod 64 = 0 \/ In (length s) [2; 4; 8; 16; 32] ->
  hash_sequence bytes s seed = Ok (mix_all (fun x h => compute_pod_hash (bytes x) h) s seed).
Proof.
  intros T bytes s seed H. unfold hash_sequence. rewrite hash_ok by lia.
  rewrite positions_all by auto. rewrite pick_seq by lia. now rewrite firstn_all.
Qed.
Print Assumptions C45_all_elements.

Example C45_all_elements_ex :
  hash_sequence char_as_int (str "abcdefgh") 7 = Ok (mix_all (fun x h => compute_pod_hash (char_as_int x) h) (str "abcdefgh") 7%N).
Proof. vm_compute. reflexivity. Qed.

(* For such lengths the hash can be computed piece by piece. *)
Theorem C45_chain :
  forall (T : Type) (bytes : T -> list N) (s t : list T) seed,
  length s mod 64 = 0 -> length t mod 64 = 0 ->
  hash_sequence bytes (s ++ t) seed = (h <- hash_sequence bytes s seed ;; hash_sequence bytes t h).
Proof.
  intros T bytes s t seed Hs Ht.
  rewrite (C45_all_elements T bytes s) by auto. cbn [bind].
  rewrite (C45_all_elements T bytes t) by auto.
  rewrite (C45_all_elements T bytes (s ++ t)).
  - unfold mix_all. now rewrite fold_left_app.
  - left. rewrite app_length. rewrite Nat.add_mod, Hs, Ht by lia. reflexivity.
Qed.
Print Assumptions C45_chain.

Example C45_ex :
  hash_string (str "ab") hash_seed = Ok (mix_all (fun x h => compute_pod_hash (char_as_int x) h) (str "ab") hash_seed) /\
  hash_string (str "ab") hash_seed <> hash_string (str "ba") hash_seed /\
  hash_string (str "abcdefgh") hash_seed <> hash_string (str "abcdefgi") hash_seed.
Proof. split; [|split]; vm_compute; congruence. Qed.

(* What is mixed: for a string the characters as signed ints, byte by byte. *)
Theorem C45_string : forall s seed,
  exists h, hash_string s seed = Ok h /\
    Z.of_N h = mix_string (pick s (positions (length s))) (Z.of_N seed).
Proof. exact string_mix. Qed.
Print Assumptions C45_string.
Example C45_string_ex :
  hash_string (str "ab") hash_seed = Ok (Z.to_N (mix_string (str "ab") (Z.of_N hash_seed))) /\
  hash_string ["200"%char; "a"%char] 7%N = Ok (Z.to_N (mix_int 97 (mix_int (-56) 7))).
Proof. split; vm_compute; reflexivity. Qed.

(* the value is one of unsigned int *)
Theorem C45_range : forall s seed h, (seed < 2 ^ 32)%N -> hash_string s seed = Ok h -> (h < 2 ^ 32)%N.
Proof. exact string_range. Qed.
Print Assumptions C45_range.
Example C45_range_ex : hash_string (str "abcd") (2 ^ 32 - 1) = Ok 3151843426%N.
Proof. vm_compute. reflexivity. Qed.

(* For an odd length the last element is never looked at, so all strings of one
   character have the same hash, the seed. *)
Theorem C45_last_element_refuted :
  forall (T : Type) (bytes : T -> list N) (s : list T) x y seed, Nat.even (length s) = true ->
  hash_sequence bytes (s ++ [x]) seed = hash_sequence bytes (s ++ [y]) seed.
Proof.
  intros T bytes s x y seed H. unfold hash_sequence. rewrite !hash_ok by lia. rewrite !app_length.
  do 2 f_equal. apply pick_ext. intros i Hi. apply positions_bound in Hi. cbn [length] in Hi.
  assert ((length s + 1) mod 2 = 1) as E.
  { apply Nat.even_spec in H. destruct H as (m & ->). rewrite Nat.add_comm, Nat.mul_comm, Nat.mod_add by lia. reflexivity. }
  rewrite E in Hi. rewrite !nth_error_app1 by lia. reflexivity.
Qed.
Print Assumptions C45_last_element_refuted.

Example C45_last_element_refuted_ex : hash_sequence (fun x : N => [x]) [1; 2; 3]%N 9 = hash_sequence (fun x : N => [x]) [1; 2; 200]%N 9.
Proof. vm_compute. reflexivity. Qed.

(* Blocks after the first size start at the beginning again: of 96 elements the
   last 32 are ignored. *)
Theorem C45_restart_refuted :
  forall (T : Type) (bytes : T -> list N) (s t u : list T) seed, length s = 64 -> length t = 32 -> length u = 32 ->
  hash_sequence bytes (s ++ t) seed = hash_sequence bytes (s ++ u) seed.
Proof.
  intros T bytes s t u seed Hs Ht Hu. unfold hash_sequence. rewrite !hash_ok by lia. rewrite !app_length, Ht, Hu, Hs.
  do 2 f_equal. apply pick_ext. intros i Hi.
  assert (i < 64).
  { assert (positions (64 + 32) = seq 0 64 ++ seq 0 32) as E by reflexivity. rewrite E in Hi.
    rewrite in_app_iff, !in_seq in Hi. lia. }
  rewrite !nth_error_app1 by lia. reflexivity.
Qed.
Print Assumptions C45_restart_refuted.

Example C45_refuted_ex : hash_string (str "a") hash_seed = Ok hash_seed /\ hash_string (str "b") hash_seed = Ok hash_seed.
Proof. split; vm_compute; reflexivity. Qed.

(* the seed used when none is given, 0xAAAAAAAA, is the hash of the empty string *)
Theorem C45_default_seed : hash_string [] hash_seed = Ok 0xAAAAAAAA%N.
Proof. reflexivity. Qed.
Print Assumptions C45_default_seed.
Example C45_default_seed_ex : hash_string (str "a") hash_seed = hash_string (str "a") 2863311530.
Proof. reflexivity. Qed.
