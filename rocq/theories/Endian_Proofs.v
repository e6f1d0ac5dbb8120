From Verif Require Import Base Binary_Model Binary_Spec.
Open Scope N_scope.

Lemma byte_bit v i j : (j < 8)%N -> N.testbit (byte_at v i) j = N.testbit v (8 * N.of_nat i + j).
Proof.
  intros H. unfold byte_at. change 256 with (2 ^ 8). rewrite <- N.pow_mul_r.
  rewrite N.mod_pow2_bits_low by exact H. rewrite N.div_pow2_bits. f_equal. lia.
Qed.

Lemma byte_at_lt v i : byte_at v i < 256.
Proof. apply N.mod_lt. lia. Qed.

Lemma byte_ext u v i k : (forall j, j < 8 -> N.testbit u (8 * N.of_nat i + j) = N.testbit v (8 * N.of_nat k + j)) ->
  byte_at u i = byte_at v k.
Proof.
  intros H. apply N.bits_inj. intros j. destruct (N.lt_ge_cases j 8) as [L|L].
  - rewrite !byte_bit by exact L. now apply H.
  - rewrite !N.bits_above_log2; auto.
    + pose proof (byte_at_lt v k). destruct (N.eq_dec (byte_at v k) 0) as [->|NZ]; [simpl; lia|].
      apply N.log2_lt_pow2; [lia|]. apply N.lt_le_trans with (2 ^ 8); [exact H0|]. apply N.pow_le_mono_r; lia.
    + pose proof (byte_at_lt u i). destruct (N.eq_dec (byte_at u i) 0) as [->|NZ]; [simpl; lia|].
      apply N.log2_lt_pow2; [lia|]. apply N.lt_le_trans with (2 ^ 8); [exact H0|]. apply N.pow_le_mono_r; lia.
Qed.

Definition flip (nbytes m : N) : N := 8 * (nbytes - 1 - m / 8) + m mod 8.

(* checks a statement about every bit number below n *)
Lemma below_ind (n : nat) (P : N -> Prop) : Forall P (map N.of_nat (seq 0 n)) -> forall m, m < N.of_nat n -> P m.
Proof.
  intros H m Hm. rewrite Forall_forall in H. apply H. apply in_map_iff. exists (N.to_nat m).
  split; [lia|]. apply in_seq. lia.
Qed.

Ltac bit_rw :=
  rewrite ?N.lor_spec, ?N.land_spec; unfold shl32, shl64;
  repeat first
    [ rewrite N.shiftr_spec by lia
    | rewrite N.mod_pow2_bits_low by lia
    | rewrite N.shiftl_spec_high' by lia
    | rewrite N.shiftl_spec_low by lia ].
Ltac bit_fin :=
  repeat match goal with
         | |- context [N.testbit (Npos ?p) ?k] => let r := eval vm_compute in (N.testbit (Npos p) k) in change (N.testbit (Npos p) k) with r
         end;
  rewrite ?andb_false_r, ?andb_true_r, ?orb_false_r, ?orb_false_l; cbn [orb];
  reflexivity.
Ltac bit_case := bit_rw; bit_fin.

Lemma convert16_bit v m : m < 16 -> N.testbit (convert16 v) m = N.testbit v (flip 2 m).
Proof.
  revert m. apply (below_ind 16 (fun m => N.testbit (convert16 v) m = N.testbit v (flip 2 m))).
  cbn [seq map]. unfold convert16. repeat constructor; bit_case.
Qed.

Lemma convert64_bit v m : m < 64 -> N.testbit (convert64 v) m = N.testbit v (flip 8 m).
Proof.
  revert m. apply (below_ind 64 (fun m => N.testbit (convert64 v) m = N.testbit v (flip 8 m))).
  cbn [seq map]. unfold convert64. repeat constructor; bit_case.
Qed.

Lemma lt_pow2_bits x n : (forall m, n <= m -> N.testbit x m = false) -> x < 2 ^ n.
Proof.
  intros H. destruct (N.lt_ge_cases x (2 ^ n)) as [L|G]; auto. exfalso.
  assert (x <> 0) by (pose proof (N.pow_nonzero 2 n); lia).
  assert (n <= N.log2 x) by (rewrite <- (N.log2_pow2 n) by lia; now apply N.log2_le_mono).
  pose proof (N.bit_log2 x H0) as Hb. rewrite H in Hb by exact H1. discriminate.
Qed.

Lemma bits_high x n m : x < 2 ^ n -> n <= m -> N.testbit x m = false.
Proof.
  intros H1 H2. destruct (N.eq_dec x 0) as [->|NZ]; [apply N.bits_0|].
  apply N.bits_above_log2. apply N.lt_le_trans with n; [|exact H2]. apply N.log2_lt_pow2; lia.
Qed.

Lemma land_mask_lt a k n : k < 2 ^ n -> N.land a k < 2 ^ n.
Proof. intros H. apply lt_pow2_bits. intros m Hm. now rewrite N.land_spec, (bits_high k n m), andb_false_r. Qed.

Lemma lor_lt a b n : a < 2 ^ n -> b < 2 ^ n -> N.lor a b < 2 ^ n.
Proof. intros H1 H2. apply lt_pow2_bits. intros m Hm. now rewrite N.lor_spec, (bits_high a n m), (bits_high b n m). Qed.

Lemma convert16_lt v : convert16 v < 2 ^ 16.
Proof. unfold convert16. repeat apply lor_lt; apply land_mask_lt; reflexivity. Qed.
Lemma convert32_lt v : convert32 v < 2 ^ 32.
Proof. unfold convert32. repeat apply lor_lt; apply land_mask_lt; reflexivity. Qed.
Lemma convert64_lt v : convert64 v < 2 ^ 64.
Proof. unfold convert64. repeat apply lor_lt; apply land_mask_lt; reflexivity. Qed.

Lemma flip_byte n i j : (N.of_nat i < n) -> j < 8 ->
  flip n (8 * N.of_nat i + j) = 8 * (n - 1 - N.of_nat i) + j.
Proof.
  intros Hi Hj. unfold flip. rewrite (N.mul_comm 8 (N.of_nat i)).
  rewrite N.div_add_l, N.div_small, N.add_0_r by lia.
  rewrite (N.add_comm (N.of_nat i * 8)), N.mod_add, N.mod_small by lia. reflexivity.
Qed.

Lemma flip_flip n m : m < 8 * n -> flip n (flip n m) = m.
Proof.
  intros H. unfold flip at 2. pose proof (N.mod_lt m 8 ltac:(lia)) as Hr. pose proof (N.div_mod m 8 ltac:(lia)) as D.
  set (q := m / 8) in *. set (r := m mod 8) in *. clearbody q r.
  replace (n - 1 - q) with (N.of_nat (N.to_nat (n - 1 - q))) by lia.
  rewrite flip_byte by lia. lia.
Qed.

Lemma flip_lt n m : m < 8 * n -> flip n m < 8 * n.
Proof.
  intros H. unfold flip. pose proof (N.mod_lt m 8 ltac:(lia)). pose proof (N.div_mod m 8 ltac:(lia)).
  set (q := m / 8) in *. set (r := m mod 8) in *. clearbody q r. lia.
Qed.

(* [f] reverses the n bytes of every n-byte value *)
Definition reverses (n : nat) (f : N -> N) : Prop :=
  forall v, f v < 256 ^ N.of_nat n /\
    forall m, m < 8 * N.of_nat n -> N.testbit (f v) m = N.testbit v (flip (N.of_nat n) m).

Lemma reverses16 : reverses 2 convert16.
Proof. intros v. split; [apply convert16_lt|apply convert16_bit]. Qed.
Lemma reverses64 : reverses 8 convert64.
Proof. intros v. split; [apply convert64_lt|apply convert64_bit]. Qed.

Lemma pow256 n : 256 ^ n = 2 ^ (8 * n).
Proof. change 256 with (2 ^ 8). now rewrite <- N.pow_mul_r. Qed.

Lemma reverses_bytes n f v : reverses n f -> le_bytes n (f v) = rev (le_bytes n v).
Proof.
  intros R. destruct (R v) as [_ B].
  assert (E : forall i, (i < n)%nat -> byte_at (f v) i = byte_at v (n - 1 - i)%nat).
  { intros i Hi. apply byte_ext. intros j Hj. rewrite B by lia. rewrite flip_byte by lia. f_equal. lia. }
  unfold le_bytes. apply nth_error_ext. intros i. destruct (Nat.lt_ge_cases i n) as [L|G].
  - rewrite (nth_error_nth' _ "000"%char) by (rewrite map_length, seq_length; exact L).
    rewrite (nth_error_nth' (rev _) "000"%char) by (rewrite rev_length, map_length, seq_length; exact L).
    rewrite rev_nth by (rewrite map_length, seq_length; exact L). rewrite map_length, seq_length.
    rewrite (nth_indep _ _ (ascii_of_N (byte_at (f v) 0))) by (rewrite map_length, seq_length; exact L).
    rewrite (map_nth (fun i => ascii_of_N (byte_at (f v) i))).
    rewrite (nth_indep _ "000"%char (ascii_of_N (byte_at v 0))) by (rewrite map_length, seq_length; lia).
    rewrite (map_nth (fun i => ascii_of_N (byte_at v i))). rewrite !seq_nth by lia. simpl plus.
    rewrite E by exact L. do 2 f_equal. f_equal. lia.
  - rewrite (proj2 (nth_error_None _ i)) by (rewrite map_length, seq_length; exact G).
    symmetry. apply nth_error_None. rewrite rev_length, map_length, seq_length. exact G.
Qed.

Lemma reverses_involution n f v : reverses n f -> v < 256 ^ N.of_nat n -> f (f v) = v.
Proof.
  intros R H. apply N.bits_inj. intros m. destruct (N.lt_ge_cases m (8 * N.of_nat n)) as [L|G].
  - rewrite (proj2 (R (f v))) by exact L. rewrite (proj2 (R v)) by now apply flip_lt. now rewrite flip_flip.
  - rewrite pow256 in H. rewrite (bits_high v _ m H G). apply bits_high with (8 * N.of_nat n); auto.
    rewrite <- pow256. apply R.
Qed.

Lemma le_digits_bytes w v : le_digits w v = le_bytes w v.
Proof.
  revert v; induction w as [|w IH]; intros v; auto. cbn [le_digits]. rewrite IH. unfold le_bytes.
  cbn [seq map]. rewrite <- seq_shift, map_map. f_equal.
  - unfold byte_at. now rewrite N.pow_0_r, N.div_1_r.
  - apply map_ext. intros i. f_equal. unfold byte_at. rewrite N.div_div by (try lia; apply N.pow_nonzero; lia).
    f_equal. f_equal. rewrite Nat2N.inj_succ, N.pow_succ_r'. reflexivity.
Qed.

Lemma store_host le w v : store le w v = host_bytes le w v.
Proof. unfold store, host_bytes, be_bytes. now rewrite le_digits_bytes. Qed.

Lemma le_value_digits w v : v < 256 ^ N.of_nat w -> le_value (le_digits w v) = v.
Proof.
  revert v; induction w as [|w IH]; intros v H.
  - simpl in *. lia.
  - cbn [le_digits le_value]. rewrite N_ascii_embedding by (apply N.mod_lt; lia).
    rewrite IH. { pose proof (N.div_mod v 256 ltac:(lia)). lia. }
    rewrite Nat2N.inj_succ, N.pow_succ_r' in H. apply N.div_lt_upper_bound; lia.
Qed.

Lemma load_host le w v : v < 256 ^ N.of_nat w -> load le (host_bytes le w v) = v.
Proof.
  intros H. rewrite <- store_host. unfold load, store. destruct le; rewrite ?rev_involutive; now apply le_value_digits.
Qed.

Lemma host_bytes_length le w v : length (host_bytes le w v) = w.
Proof. unfold host_bytes, be_bytes, le_bytes. destruct le; now rewrite ?rev_length, map_length, seq_length. Qed.

(* two's complement *)
Lemma to_unsigned_lt bits z : to_unsigned bits z < 2 ^ bits.
Proof.
  unfold to_unsigned. pose proof (Z.mod_pos_bound z (2 ^ Z.of_N bits) ltac:(apply Z.pow_pos_nonneg; lia)).
  replace (2 ^ bits) with (Z.to_N (2 ^ Z.of_N bits)); [lia|].
  rewrite <- (N2Z.id (2 ^ bits)), N2Z.inj_pow. reflexivity.
Qed.

Lemma to_signed_unsigned bits z : 0 < bits -> (- 2 ^ Z.of_N (bits - 1) <= z < 2 ^ Z.of_N (bits - 1))%Z ->
  to_signed bits (to_unsigned bits z) = z.
Proof.
  intros Hb Hz. unfold to_signed, to_unsigned.
  assert (P : (2 ^ Z.of_N bits = 2 * 2 ^ Z.of_N (bits - 1))%Z).
  { rewrite <- Z.pow_succ_r by lia. f_equal. lia. }
  rewrite P. set (h := (2 ^ Z.of_N (bits - 1))%Z) in *.
  assert (Hh : 2 ^ (bits - 1) = Z.to_N h).
  { unfold h. rewrite <- (N2Z.id (2 ^ (bits - 1))), N2Z.inj_pow. reflexivity. }
  assert (0 < h)%Z by (unfold h; apply Z.pow_pos_nonneg; lia).
  rewrite Hh. clearbody h.
  destruct (Z.lt_ge_cases z 0) as [L|G].
  - assert (E : (z mod (2 * h) = z + 2 * h)%Z).
    { rewrite <- (Z.mod_add z 1) by lia. rewrite Z.mod_small; lia. }
    rewrite E. destruct (N.ltb_spec (Z.to_N (z + 2 * h)) (Z.to_N h)); lia.
  - rewrite Z.mod_small by lia. destruct (N.ltb_spec (Z.to_N z) (Z.to_N h)); lia.
Qed.

Lemma to_unsigned_signed bits v : 0 < bits -> v < 2 ^ bits -> to_unsigned bits (to_signed bits v) = v.
Proof.
  intros Hb Hv. unfold to_signed, to_unsigned.
  assert (P : (2 ^ Z.of_N bits = Z.of_N (2 ^ bits))%Z) by (rewrite N2Z.inj_pow; reflexivity).
  rewrite P. set (m := 2 ^ bits) in *. clearbody m.
  destruct (v <? 2 ^ (bits - 1)).
  - rewrite Z.mod_small by lia. lia.
  - rewrite <- (Z.mod_add _ 1) by lia. rewrite Z.mod_small by lia. lia.
Qed.

Lemma convert32_bytes v : v < 2 ^ 32 ->
  le_bytes 4 (convert32 v) = [ascii_of_N (byte_at v 3); "000"%char; ascii_of_N (byte_at v 1); "000"%char].
Proof.
  intros H. unfold le_bytes. cbn [seq map].
  assert (B : forall m, m < 32 -> N.testbit (convert32 v) m =
     if (m <? 8) then N.testbit v (m + 24) else if (16 <=? m) && (m <? 24) then N.testbit v (m - 8) else false).
  { apply (below_ind 32 (fun m => N.testbit (convert32 v) m =
     if (m <? 8) then N.testbit v (m + 24) else if (16 <=? m) && (m <? 24) then N.testbit v (m - 8) else false)).
    cbn [seq map]. unfold convert32.
    repeat (apply Forall_cons; [bit_rw; repeat match goal with
         | |- context [N.testbit v ?k] => rewrite (bits_high v 32 k H) by (vm_compute; discriminate)
         end; bit_fin|]). constructor. }
  assert (E0 : byte_at (convert32 v) 0 = byte_at v 3).
  { apply byte_ext. intros j Hj. rewrite B by lia. destruct (N.ltb_spec (8 * N.of_nat 0 + j) 8); [|lia]. f_equal. lia. }
  assert (Z0 : forall i, byte_at 0 i = 0).
  { intros i. unfold byte_at. rewrite N.div_0_l by (apply N.pow_nonzero; lia). reflexivity. }
  assert (E1 : byte_at (convert32 v) 1 = 0).
  { rewrite <- (Z0 O). apply byte_ext. intros j Hj. rewrite N.bits_0, B by lia.
    destruct (N.ltb_spec (8 * N.of_nat 1 + j) 8); [lia|]. destruct (N.leb_spec 16 (8 * N.of_nat 1 + j)); [lia|]. reflexivity. }
  assert (E2 : byte_at (convert32 v) 2 = byte_at v 1).
  { apply byte_ext. intros j Hj. rewrite B by lia.
    destruct (N.ltb_spec (8 * N.of_nat 2 + j) 8); [lia|]. destruct (N.leb_spec 16 (8 * N.of_nat 2 + j)); [|lia].
    destruct (N.ltb_spec (8 * N.of_nat 2 + j) 24); [|lia]. cbn [andb]. f_equal. lia. }
  assert (E3 : byte_at (convert32 v) 3 = 0).
  { rewrite <- (Z0 O). apply byte_ext. intros j Hj. rewrite N.bits_0, B by lia.
    destruct (N.ltb_spec (8 * N.of_nat 3 + j) 8); [lia|]. destruct (N.ltb_spec (8 * N.of_nat 3 + j) 24); [lia|].
    now rewrite andb_false_r. }
  rewrite E0, E1, E2, E3. reflexivity.
Qed.
