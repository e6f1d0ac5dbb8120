(* Properties C39, C40, C53. *)
From Verif Require Import Base Codec_Model Bits_Model Bits_Spec Bits_Proofs.

(* C39 *)
Theorem C39_bit_addressing :
  forall i s, i < 8 * length s ->
  (exists b, bit_state i s = Ok b /\ nth_error (bits_of s) i = Some b) /\
  (exists t, set_bit_high i s = Ok t /\ bits_of t = upd (bits_of s) i true /\ length t = length s) /\
  (exists t, set_bit_low i s = Ok t /\ bits_of t = upd (bits_of s) i false /\ length t = length s).
Proof.
  intros i s H. split; [now apply bit_state_ok|]. split; [now apply set_bit_high_ok|now apply set_bit_low_ok].
Qed.
Print Assumptions C39_bit_addressing.

Example C39_bit_addressing_ex :
  bit_state 8 (str "ab") = Ok false /\ bit_state 15 [zero; ascii_of_nat 128] = Ok true /\
  set_bit_high 12 [zero; zero] = Ok [zero; ascii_of_nat 16] /\ bits_of [zero; ascii_of_nat 16] = upd (repeat false 16) 12 true.
Proof. vm_compute. repeat split. Qed.

(* an index at or past the end is an access outside the array *)
Theorem C39_bit_addressing_out_of_range :
  forall i s, 8 * length s <= i ->
  bit_state i s = UB /\ set_bit_high i s = UB /\ set_bit_low i s = UB.
Proof. exact bit_out_of_range. Qed.
Print Assumptions C39_bit_addressing_out_of_range.

Example C39_out_of_range_ex : bit_state 16 (str "ab") = UB /\ set_bit_low 100 (str "ab") = UB.
Proof. split; reflexivity. Qed.

Theorem C39_high_bit_count :
  (forall s, high_bit_count s = Ok (N.of_nat (ones_in (bits_of s)))) /\
  (forall w v, high_bit_count_int w v = Ok (N.of_nat (ones_in (low_bits (8 * w) v)))).
Proof. split; [exact high_bit_count_ok|exact high_bit_count_int_ok]. Qed.
Print Assumptions C39_high_bit_count.

Example C39_high_bit_count_ex :
  high_bit_count [ascii_of_nat 255; zero; ascii_of_nat 129] = Ok 10%N /\ high_bit_count_int 2 0x1FFFF%N = Ok 16%N.
Proof. split; vm_compute; reflexivity. Qed.

Theorem C39_hamming_distance :
  forall s1 s2, length s1 = length s2 ->
  hamming_distance s1 s2 = Ok (N.of_nat (differing (bits_of s1) (bits_of s2))).
Proof. exact hamming_ok. Qed.
Print Assumptions C39_hamming_distance.

Example C39_hamming_ex :
  hamming_distance [zero; zero] [ascii_of_nat 255; ascii_of_nat 1] = Ok 9%N /\
  differing (bits_of [zero; zero]) (bits_of [ascii_of_nat 255; ascii_of_nat 1]) = 9.
Proof. split; vm_compute; reflexivity. Qed.

(* and it is a metric on strings of one length *)
Theorem C39_hamming_metric :
  forall a b c, length a = length b -> length b = length c ->
  exists ab bc ac, hamming_distance a b = Ok ab /\ hamming_distance b c = Ok bc /\ hamming_distance a c = Ok ac /\
  hamming_distance b a = Ok ab /\ (ab = 0%N <-> a = b) /\ (ac <= ab + bc)%N.
Proof.
  intros a b c H1 H2. do 3 eexists.
  split; [now apply hamming_ok|]. split; [now apply hamming_ok|].
  split; [apply hamming_ok; congruence|]. split; [rewrite differing_sym; now apply hamming_ok|]. split.
  - split.
    + intros E. apply bits_of_inj, differing_zero; [|lia]. rewrite !bits_of_length. lia.
    + intros ->. rewrite differing_refl. reflexivity.
  - pose proof (differing_triangle (bits_of a) (bits_of b) (bits_of c)) as T.
    rewrite !bits_of_length in T. specialize (T ltac:(lia) ltac:(lia)). lia.
Qed.
Print Assumptions C39_hamming_metric.

Example C39_hamming_metric_ex :
  hamming_distance (str "ab") (str "cd") = Ok 3%N /\ hamming_distance (str "cd") (str "ee") = Ok 3%N /\
  hamming_distance (str "ab") (str "ee") = Ok 4%N.
Proof. repeat split; vm_compute; reflexivity. Qed.

Theorem C39_hamming_different_lengths :
  forall s1 s2, length s1 <> length s2 -> hamming_distance s1 s2 = Ok 18446744073709551615%N.
Proof.
  intros s1 s2 H. unfold hamming_distance. destruct (Nat.eqb_spec (length s1) (length s2)); [congruence|reflexivity].
Qed.
Print Assumptions C39_hamming_different_lengths.

Example C39_hamming_different_lengths_ex : hamming_distance (str "ab") (str "abc") = Ok (2 ^ 64 - 1)%N.
Proof. reflexivity. Qed.

Example C39_example :
  bit_state 9 (str "ab") = Ok true /\ set_bit_high 0 (str "b") = Ok (str "c") /\ set_bit_low 0 (str "c") = Ok (str "b") /\
  high_bit_count (str "abc") = Ok 10%N /\ hamming_distance (str "abc") (str "abd") = Ok 3%N /\
  high_bit_count_int 4 0xF00F0001%N = Ok 9%N.
Proof. repeat split; reflexivity. Qed.

Theorem C39_elementwise_returns :
  forall (A : Type) (eqb : A -> A -> bool) s1 s2 fuel, 0 < fuel ->
  (length s1 <> length s2 -> hamming_distance_elementwise eqb fuel s1 s2 = Ok 18446744073709551615%N) /\
  (s1 = [] /\ s2 = [] -> hamming_distance_elementwise eqb fuel s1 s2 = Ok 0%N).
Proof.
  intros A eqb s1 s2 fuel Hf. unfold hamming_distance_elementwise. split.
  - intros H. destruct (Nat.eqb_spec (length s1) (length s2)); [congruence|reflexivity].
  - intros [-> ->]. destruct fuel; [lia|reflexivity].
Qed.
Print Assumptions C39_elementwise_returns.

Example C39_elementwise_returns_ex : hamming_distance_elementwise Nat.eqb 1 [1; 2] [1] = Ok (2 ^ 64 - 1)%N /\
  hamming_distance_elementwise Nat.eqb 1 [] [] = Ok 0%N.
Proof. split; reflexivity. Qed.

(* hamming_distance_elementwise never returns on non-empty sequences of equal length *)
Theorem C39_hamming_elementwise_refuted :
  forall (A : Type) (eqb : A -> A -> bool) s1 s2 fuel, length s1 = length s2 -> s1 <> [] ->
  hamming_distance_elementwise eqb fuel s1 s2 = OutOfFuel.
Proof. exact (@hde_diverges). Qed.
Print Assumptions C39_hamming_elementwise_refuted.

Example C39_hamming_elementwise_refuted_ex : hamming_distance_elementwise Nat.eqb 1000 [1; 2] [1; 3] = OutOfFuel.
Proof. vm_compute. reflexivity. Qed.

(* C40 *)
Theorem C40_interleave :
  forall s1 s2 out, length s1 = length s2 -> 2 * length s1 <= length out ->
  exists t, twoway_bitwise_interleave s1 s2 out = Ok (true, t ++ skipn (2 * length s1) out) /\
    length t = 2 * length s1 /\ bits_of t = alternate (bits_of s1) (bits_of s2).
Proof. exact interleave_ok. Qed.
Print Assumptions C40_interleave.

Example C40_interleave_ex :
  twoway_bitwise_interleave [ascii_of_nat 255; zero] [zero; ascii_of_nat 255] (str "abcde") =
    Ok (true, map ascii_of_nat [85; 85; 170; 170] ++ str "e").
Proof. vm_compute. reflexivity. Qed.

(* lossless: both inputs are determined by the written bits *)
Theorem C40_interleave_injective :
  forall a b c d, length a = length b -> length c = length d ->
  alternate (bits_of a) (bits_of b) = alternate (bits_of c) (bits_of d) -> a = c /\ b = d.
Proof.
  intros a b c d H1 H2 E. apply alternate_inj in E; [|rewrite !bits_of_length; lia|rewrite !bits_of_length; lia].
  destruct E as [E1 E2]. split; now apply bits_of_inj.
Qed.
Print Assumptions C40_interleave_injective.

Example C40_interleave_injective_ex :
  alternate (bits_of (str "a")) (bits_of (str "b")) <> alternate (bits_of (str "b")) (bits_of (str "a")).
Proof. vm_compute. discriminate. Qed.

Theorem C40_interleave_different_lengths :
  forall s1 s2 out, length s1 <> length s2 ->
  twoway_bitwise_interleave s1 s2 out = Ok (false, out) /\ twoway_bitwise_interleave_str s1 s2 out = Ok (false, out).
Proof.
  intros s1 s2 out H. unfold twoway_bitwise_interleave_str, twoway_bitwise_interleave.
  destruct (Nat.eqb_spec (length s1) (length s2)); [congruence|auto].
Qed.
Print Assumptions C40_interleave_different_lengths.

Example C40_interleave_different_lengths_ex : twoway_bitwise_interleave (str "a") (str "bc") (str "old") = Ok (false, str "old").
Proof. reflexivity. Qed.

(* the std::string version sizes its output at half of what it writes *)
Theorem C40_interleave_string_refuted :
  forall s1 s2 out, length s1 = length s2 -> s1 <> [] -> twoway_bitwise_interleave_str s1 s2 out = UB.
Proof. exact interleave_str_ub. Qed.
Print Assumptions C40_interleave_string_refuted.

Example C40_interleave_string_refuted_ex : twoway_bitwise_interleave_str (str "a") (str "b") [] = UB.
Proof. vm_compute. reflexivity. Qed.

(* n-way tables: bit j of the index goes to bit j*n, all other bits are zero *)
Theorem C40_nway_table :
  forall n i m, In n [2;4;8]%N -> i < 256 ->
  exists v, nth_error (create_nway_interleave_table n) i = Some v /\
  N.testbit v (N.of_nat m) = (if (m mod N.to_nat n =? 0) && (m / N.to_nat n <? 8)
                   then N.testbit (N.of_nat i) (N.of_nat (m / N.to_nat n)) else false).
Proof. exact nway_ok. Qed.
Print Assumptions C40_nway_table.

Example C40_nway_table_ex :
  nth_error (create_nway_interleave_table 2) 255 = Some 0x5555%N /\
  nth_error (create_nway_interleave_table 8) 129 = Some 0x0100000000000001%N.
Proof. split; vm_compute; reflexivity. Qed.

Example C40_example :
  twoway_bitwise_interleave (str "a") (str "b") [zero; zero] = Ok (true, [ascii_of_nat 9; ascii_of_nat 60]) /\
  nth_error (create_nway_interleave_table 4) 3 = Some 17%N.
Proof. split; reflexivity. Qed.

(* C53: bitwise_transform is the bitwise operation on every bit *)
Theorem C53_bitwise_transform :
  forall o s1 s2 out, length s1 <= length s2 -> length s1 <= length out ->
  exists t, bitwise_transform o s1 s2 out = Ok (t ++ skipn (length s1) out) /\ length t = length s1 /\
    bits_of t = map (fun p => match o with eAND => fst p && snd p | eOR => fst p || snd p | eXOR => xorb (fst p) (snd p) end)
                    (combine (bits_of s1) (bits_of s2)).
Proof.
  intros o s1 s2 out H1 H2. destruct (bitwise_transform_ok o s1 s2 out H1 H2) as (t & E & Hl & Hb).
  exists t. destruct o; auto.
Qed.
Print Assumptions C53_bitwise_transform.

Example C53_bitwise_transform_ex :
  bitwise_transform eOR (str "a") (str "bc") (str "xyz") = Ok (str "cyz") /\
  bitwise_transform eAND (str "ab") (str "bc") (str "xyz") = Ok (str "`bz").
Proof. split; vm_compute; reflexivity. Qed.

(* string version: the result replaces the output; operands of different lengths are refused *)
Theorem C53_string :
  forall o s1 s2 out,
  (length s1 <> length s2 -> bitwise_transform_str o s1 s2 out = Ok out) /\
  (length s1 = length s2 -> exists t, bitwise_transform_str o s1 s2 out = Ok t /\ length t = length s1 /\
    bits_of t = map (fun p => match o with eAND => fst p && snd p | eOR => fst p || snd p | eXOR => xorb (fst p) (snd p) end)
                    (combine (bits_of s1) (bits_of s2))).
Proof.
  intros o s1 s2 out. unfold bitwise_transform_str. destruct (Nat.eqb_spec (length s1) (length s2)) as [E|E]; cbn [negb]; split; intros H; try congruence; try reflexivity.
  destruct (C53_bitwise_transform o s1 s2 (resize out (length s1))) as (t & -> & Ht & Hb); [lia|rewrite Codec_Proofs.resize_length; lia|].
  rewrite skipn_all2 by (rewrite Codec_Proofs.resize_length; lia). rewrite app_nil_r. eauto.
Qed.
Print Assumptions C53_string.

Example C53_string_ex :
  bitwise_transform_str eOR (str "a") (str "b") (str "old") = Ok (str "c") /\
  bitwise_transform_str eOR (str "a") (str "bb") (str "old") = Ok (str "old").
Proof. split; vm_compute; reflexivity. Qed.

(* XOR twice restores the first operand (string version) *)
Theorem C53_xor_involution :
  forall s1 s2 o1 o2, length s1 = length s2 ->
  (t <- bitwise_transform_str eXOR s1 s2 o1 ;; bitwise_transform_str eXOR t s2 o2) = Ok s1.
Proof.
  intros s1 s2 o1 o2 Hl. unfold bitwise_transform_str. rewrite Hl, Nat.eqb_refl. cbn [negb].
  destruct (bitwise_transform_ok eXOR s1 s2 (resize o1 (length s2))) as (t & -> & Ht & Hb);
    [lia|rewrite Codec_Proofs.resize_length; lia|]. cbn [bind].
  rewrite skipn_all2 by (rewrite Codec_Proofs.resize_length; lia). rewrite app_nil_r.
  rewrite Ht, Hl, Nat.eqb_refl. cbn [negb].
  destruct (bitwise_transform_ok eXOR t s2 (resize o2 (length s2))) as (u & -> & Hu & Hb2);
    [lia|rewrite Codec_Proofs.resize_length; lia|].
  rewrite skipn_all2 by (rewrite Codec_Proofs.resize_length; lia). rewrite app_nil_r.
  f_equal. apply bits_of_inj. rewrite Hb2, Hb. cbn [bool_op].
  assert (Hbl : length (bits_of s1) = length (bits_of s2)) by (rewrite !bits_of_length; lia).
  revert Hbl. generalize (bits_of s1) (bits_of s2). intros l.
  induction l as [|x l IH]; intros [|y m] H; try discriminate; auto.
  cbn [combine map fst snd]. rewrite IH by (injection H; auto). f_equal. destruct x, y; reflexivity.
Qed.
Print Assumptions C53_xor_involution.

Example C53_xor_involution_ex :
  (t <- bitwise_transform_str eXOR (str "text") (str "key!") [] ;; bitwise_transform_str eXOR t (str "key!") (str "x")) = Ok (str "text") /\
  bitwise_transform_str eXOR (str "text") (str "key!") [] <> Ok (str "text").
Proof. split; vm_compute; [reflexivity|discriminate]. Qed.

Example C53_example : bitwise_transform_str eXOR (str "ab") (str "cd") [] = Ok [ascii_of_nat 2; ascii_of_nat 6] /\
  bitwise_transform_str eAND (str "ab") (str "c") (str "old") = Ok (str "old").
Proof. split; reflexivity. Qed.
