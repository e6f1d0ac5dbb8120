(* Proofs about the hash function. *)
From Verif Require Import Base Hash_Model Hash_Spec.

Section P.
Context {T : Type}.
Variable bytes : T -> list N.
Let mix x h := compute_pod_hash (bytes x) h.

Lemma pick_app (s : list T) a b : pick s (a ++ b) = pick s a ++ pick s b.
Proof. unfold pick. apply flat_map_app. Qed.

Lemma pick_seq (s : list T) m : m <= length s -> pick s (seq 0 m) = firstn m s.
Proof.
  induction m as [|m IH]; intros Hm; [reflexivity|].
  rewrite seq_S, pick_app, IH by lia. cbn [plus]. unfold pick at 1. cbn [flat_map].
  destruct (nth_error s m) as [x|] eqn:E; [|apply nth_error_None in E; lia].
  rewrite app_nil_r. symmetry. apply firstn_S_nth. exact E.
Qed.

Lemma mix_app xs ys h : mix_all mix (xs ++ ys) h = mix_all mix ys (mix_all mix xs h).
Proof. unfold mix_all. apply fold_left_app. Qed.

Lemma inner_ok s (h0 : N) : forall b itr h, itr + b <= length s -> h = mix_all mix (firstn itr s) h0 ->
  for_up 0 b (fun _ '(itr, h) => e <- rd s itr ;; Ok (S itr, compute_pod_hash (bytes e) h)) (itr, h) =
  Ok (itr + b, mix_all mix (firstn (itr + b) s) h0).
Proof.
  intros b itr h Hb Hh. apply holds_eq.
  pose proof (for_up_rule (S := nat * N) (fun k '(i, h) => i = itr + k /\ h = mix_all mix (firstn i s) h0)
    (fun _ '(itr, h) => e <- rd s itr ;; Ok (S itr, compute_pod_hash (bytes e) h)) b 0 (itr, h)) as R.
  eapply holds_weaken; [apply R|].
  - intros k [i h'] Hk (-> & ->).
    destruct (nth_error s (itr + k)) as [x|] eqn:E; [|apply nth_error_None in E; lia].
    rewrite (rd_nth _ _ _ E). cbn [bind holds]. split; [lia|]. rewrite (firstn_S_nth _ _ _ E), mix_app. reflexivity.
  - split; [lia|exact Hh].
  - intros [i h'] (-> & ->). simpl. reflexivity.
Qed.

Lemma block_ok b s len h : 0 < b -> len <= length s ->
  compute_block bytes b s len h = Ok (len mod b, mix_all mix (pick s (seq 0 (b * (len / b)))) h).
Proof.
  intros Hb Hl. unfold compute_block. apply holds_eq.
  apply (loop_rule (fun '(itr, l, h') => itr + l = len /\ itr mod b = 0 /\ h' = mix_all mix (firstn itr s) h)
           (fun '(itr, l, h') => l)).
  - intros [[itr l] h'] (Hs & Hm & ->). destruct (b <=? l) eqn:E; cbn [negb].
    + apply Nat.leb_le in E.
      rewrite (inner_ok s h b itr) by (auto; lia). cbn [bind holds].
      split; [|lia]. split; [lia|]. split; [|reflexivity].
      rewrite <- (Nat.mul_1_l b) at 1. rewrite Nat.mod_add by lia. exact Hm.
    + apply Nat.leb_gt in E. simpl. 
      assert (len / b = itr / b /\ len mod b = l) as (Eq & Em).
      { rewrite <- Hs. apply Nat.div_exact in Hm; [|lia]. rewrite Hm at 1 3.
        rewrite !(Nat.add_comm (b * _) l), !(Nat.mul_comm b (itr / b)).
        rewrite Nat.div_add, Nat.mod_add by lia.
        rewrite Nat.div_small, Nat.mod_small by lia. split; lia. }
      rewrite Eq, Em. f_equal. apply Nat.div_exact in Hm; [|lia]. rewrite <- Hm.
      rewrite pick_seq by lia. reflexivity.
  - split; [lia|]. split; [apply Nat.mod_0_l; lia|reflexivity].
  - lia.
Qed.

(* one "if (length >= 2^b) compute_block<2^b>" with length < 2^(b+1) *)
Lemma step_ok b s len h : len <= length s -> len < 2 ^ S b ->
  (if 2 ^ b <=? len then compute_block bytes (2 ^ b) s len h else Ok (len, h)) =
  Ok (len mod 2 ^ b, mix_all mix (pick s (bit_block len b)) h).
Proof.
  intros Hl Hlt. assert (0 < 2 ^ b) as Hp by (apply Nat.neq_0_lt_0, Nat.pow_nonzero; lia).
  assert (2 ^ S b = 2 * 2 ^ b) as Ep by (apply Nat.pow_succ_r'). 
  unfold bit_block. 
  destruct (2 ^ b <=? len) eqn:E.
  - apply Nat.leb_le in E. rewrite block_ok by lia.
    assert (len / 2 ^ b = 1) as E1.
    { symmetry. apply (Nat.div_unique len (2 ^ b) 1 (len - 2 ^ b)); lia. }
    rewrite E1, Nat.mul_1_r. rewrite Nat.testbit_odd, Nat.shiftr_div_pow2, E1. reflexivity.
  - apply Nat.leb_gt in E. rewrite Nat.mod_small by lia.
    rewrite Nat.testbit_odd, Nat.shiftr_div_pow2, Nat.div_small by lia. reflexivity.
Qed.

Lemma testbit_mod n a b : b < a -> Nat.testbit (n mod 2 ^ a) b = Nat.testbit n b.
Proof.
  intros H. assert (Hp : forall k, 2 ^ k <> 0) by (intros; apply Nat.pow_nonzero; lia).
  rewrite !Nat.testbit_odd, !Nat.shiftr_div_pow2.
  replace a with (b + S (a - S b)) by lia. rewrite Nat.pow_add_r.
  rewrite Nat.mod_mul_r by auto.
  rewrite (Nat.mul_comm (2 ^ b)), Nat.div_add by auto.
  rewrite Nat.div_small by (apply Nat.mod_upper_bound; auto). rewrite Nat.add_0_l.
  rewrite Nat.pow_succ_r'. rewrite Nat.mod_mul_r by auto.
  rewrite Nat.odd_add, Nat.odd_mul. change (Nat.odd 2) with false. rewrite andb_false_l, xorb_false_r.
  rewrite <- (Nat.bit0_mod (n / 2 ^ b)). rewrite Nat.bit0_odd.
  destruct (Nat.odd (n / 2 ^ b)); reflexivity.
Qed.

Lemma bit_block_mod n a b : b < a -> bit_block (n mod 2 ^ a) b = bit_block n b.
Proof. intros H. unfold bit_block. now rewrite testbit_mod. Qed.

Lemma mod_mod_pow n a b : b <= a -> (n mod 2 ^ a) mod 2 ^ b = n mod 2 ^ b.
Proof.
  intros H. replace a with (b + (a - b)) by lia. rewrite Nat.pow_add_r.
  assert (Hp : forall k, 2 ^ k <> 0) by (intros; apply Nat.pow_nonzero; lia).
  rewrite Nat.mod_mul_r by auto. rewrite Nat.mul_comm, Nat.mod_add by auto. apply Nat.mod_mod. auto.
Qed.

Lemma bit_stage n a s h : n <= length s -> 
  (if 2 ^ a <=? n mod 2 ^ S a then compute_block bytes (2 ^ a) s (n mod 2 ^ S a) h else Ok (n mod 2 ^ S a, h)) =
  Ok (n mod 2 ^ a, mix_all mix (pick s (bit_block n a)) h).
Proof.
  intros Hn. assert (Hp : forall k, 2 ^ k <> 0) by (intros; apply Nat.pow_nonzero; lia).
  rewrite step_ok.
  - rewrite bit_block_mod by lia. rewrite mod_mod_pow by lia. reflexivity.
  - pose proof (Nat.mod_le n (2 ^ S a) (Hp (S a))). lia.
  - apply Nat.mod_upper_bound. auto.
Qed.

Lemma first_stage n s h : n <= length s ->
  (if 64 <=? n then compute_block bytes 64 s n h else Ok (n, h)) =
  Ok (n mod 2 ^ 6, mix_all mix (pick s (seq 0 (64 * (n / 64)))) h).
Proof.
  intros Hn. change (2 ^ 6) with 64. destruct (64 <=? n) eqn:E.
  - apply block_ok; lia.
  - apply Nat.leb_gt in E. rewrite Nat.mod_small, Nat.div_small by lia. reflexivity.
Qed.

Lemma hash_ok s n seed : n <= length s ->
  hash_range bytes s n seed = Ok (mix_all mix (pick s (positions n)) seed).
Proof.
  intros Hn. unfold hash_range, hash_blocks. rewrite first_stage by auto. cbn [bind].
  change 32 with (2 ^ 5) at 1 2. rewrite (bit_stage n 5) by auto. cbn [bind].
  change 16 with (2 ^ 4) at 1 2. rewrite (bit_stage n 4) by auto. cbn [bind].
  change 8 with (2 ^ 3) at 1 2. rewrite (bit_stage n 3) by auto. cbn [bind].
  change 4 with (2 ^ 2) at 1 2. rewrite (bit_stage n 2) by auto. cbn [bind].
  change 2 with (2 ^ 1) at 1 3. rewrite (bit_stage n 1) by auto. cbn [bind].
  unfold positions. rewrite !pick_app, !mix_app.
  destruct (n mod 2 ^ 1 =? 0) eqn:E; [|reflexivity].
  apply Nat.eqb_eq in E. rewrite E. reflexivity.
Qed.

End P.

Lemma testbit_le n b : Nat.testbit n b = true -> 1 <= b -> 2 ^ b <= n - n mod 2.
Proof.
  intros H Hb. rewrite Nat.testbit_odd, Nat.shiftr_div_pow2 in H.
  assert (Hp : forall k, 2 ^ k <> 0) by (intros; apply Nat.pow_nonzero; lia).
  assert (n / 2 ^ b <> 0) as Hq by (intros E; rewrite E in H; discriminate).
  destruct b as [|b]; [lia|]. rewrite Nat.pow_succ_r' in *.
  rewrite <- Nat.div_div in Hq by auto.
  assert (2 ^ b <= n / 2).
  { destruct (Nat.lt_ge_cases (n / 2) (2 ^ b)) as [Hlt|]; auto. rewrite Nat.div_small in Hq by auto. lia. }
  pose proof (Nat.div_mod n 2 ltac:(lia)). lia.
Qed.

Lemma bit_block_bound n b i : 1 <= b -> In i (bit_block n b) -> i < n - n mod 2.
Proof.
  unfold bit_block. intros Hb. destruct (Nat.testbit n b) eqn:E; [|intros []].
  rewrite in_seq. intros Hi. pose proof (testbit_le n b E Hb). lia.
Qed.

Lemma positions_bound n i : In i (positions n) -> i < n - n mod 2.
Proof.
  unfold positions. rewrite !in_app_iff, in_seq. intros [H|H].
  - pose proof (Nat.div_mod n 64 ltac:(lia)).
    assert (n mod 2 = (n mod 64) mod 2) as E by (symmetry; apply (mod_mod_pow n 6 1); lia).
    pose proof (Nat.mod_le (n mod 64) 2 ltac:(lia)). lia.
  - repeat (destruct H as [H|H]; [revert H; apply bit_block_bound; lia|]). revert H; apply bit_block_bound; lia.
Qed.

Lemma pick_ext {T} (s t : list T) ps : (forall i, In i ps -> nth_error s i = nth_error t i) -> pick s ps = pick t ps.
Proof.
  induction ps as [|i ps IH]; intros H; [reflexivity|].
  unfold pick in *. cbn [flat_map]. rewrite H by (left; auto). f_equal. apply IH. intros; apply H; right; auto.
Qed.

Lemma positions_all n : n mod 64 = 0 \/ In n [2; 4; 8; 16; 32] -> positions n = seq 0 n.
Proof.
  intros [H|H].
  - unfold positions. assert (forall b, b < 6 -> bit_block n b = []) as E.
    { intros b Hb. unfold bit_block. rewrite <- (testbit_mod n 6 b Hb). change (2 ^ 6) with 64. rewrite H.
      rewrite Nat.bits_0. reflexivity. }
    rewrite !E by lia. rewrite !app_nil_r. f_equal.
    pose proof (Nat.div_mod n 64 ltac:(lia)). lia.
  - simpl in H. destruct H as [<-|[<-|[<-|[<-|[<-|[]]]]]]; reflexivity.
Qed.

Lemma lxor_Z : forall a b, Z.of_N (N.lxor a b) = Z.lxor (Z.of_N a) (Z.of_N b).
Proof. intros [|a] [|b]; reflexivity. Qed.

Lemma even_Z : forall b h, Z.of_N (mix_even b h) = step1 (Z.of_N b) (Z.of_N h).
Proof.
  intros b h. unfold mix_even, step1, u32. rewrite !lxor_Z, !N2Z.inj_mod by discriminate.
  rewrite N.shiftl_mul_pow2, N.shiftr_div_pow2, !N2Z.inj_mul, N2Z.inj_div. reflexivity.
Qed.

Lemma odd_Z : forall b h, Z.of_N (mix_odd b h) = step2 (Z.of_N b) (Z.of_N h).
Proof.
  intros b h. unfold mix_odd, step2, inv32, u32. rewrite lxor_Z. f_equal.
  match goal with |- context [(?x mod 2 ^ 32)%N] =>
    lazymatch x with (_ + _)%N => pose proof (N.mod_lt x (2 ^ 32) ltac:(discriminate)) as Hb end end.
  rewrite !N2Z.inj_sub by lia. rewrite !N2Z.inj_mod by discriminate.
  rewrite N2Z.inj_add, lxor_Z, !N2Z.inj_mod by discriminate.
  rewrite N.shiftl_mul_pow2, N.shiftr_div_pow2, N2Z.inj_mul, N2Z.inj_div. reflexivity.
Qed.

Lemma char_bytes : forall c, map Z.of_N (char_as_int c) = map (byte_of (signed_char c)) [0; 1; 2; 3]%Z.
Proof. intros c. destruct c as [[] [] [] [] [] [] [] []]; vm_compute; reflexivity. Qed.

Lemma char_mix : forall c h, Z.of_N (compute_pod_hash (char_as_int c) h) = mix_int (signed_char c) (Z.of_N h).
Proof.
  intros c h. pose proof (char_bytes c) as Hb.
  destruct (char_as_int c) as [|b0 [|b1 [|b2 [|b3 [|]]]]]; try discriminate.
  cbn [map] in Hb. injection Hb as H0 H1 H2 H3.
  cbn [compute_pod_hash]. rewrite odd_Z, even_Z, odd_Z, even_Z, H0, H1, H2, H3. reflexivity.
Qed.

Lemma string_mix : forall s seed, exists h, hash_string s seed = Ok h /\
  Z.of_N h = mix_string (pick s (positions (length s))) (Z.of_N seed).
Proof.
  intros s seed. unfold hash_string. rewrite hash_ok by lia. eexists. split; [reflexivity|].
  unfold mix_all, mix_string. generalize (pick s (positions (length s))). intros l. revert seed.
  induction l as [|c l IH]; intros seed; cbn [fold_left]; [reflexivity|]. rewrite IH, char_mix. reflexivity.
Qed.

Lemma lxor_below : forall a b k, (a < 2 ^ k)%N -> (b < 2 ^ k)%N -> (N.lxor a b < 2 ^ k)%N.
Proof.
  intros a b k Ha Hb.
  assert (H : forall x, (x < 2 ^ k)%N -> forall i, (k <= i)%N -> N.testbit x i = false).
  { intros x Hx i Hi. destruct (N.eq_dec x 0) as [->|Hn]; [apply N.bits_0|].
    apply N.bits_above_log2. apply N.log2_lt_pow2 in Hx; lia. }
  destruct (N.eq_dec (N.lxor a b) 0) as [->|Hn]; [apply N.neq_0_lt_0, N.pow_nonzero; lia|].
  apply N.log2_lt_pow2; [lia|]. destruct (N.lt_ge_cases (N.log2 (N.lxor a b)) k) as [Hl|Hl]; [exact Hl|].
  pose proof (N.bit_log2 _ Hn) as Hb2. rewrite N.lxor_spec, (H a Ha), (H b Hb) in Hb2 by lia. discriminate.
Qed.

Lemma mix_below : forall bs h, (h < 2 ^ 32)%N -> (compute_pod_hash bs h < 2 ^ 32)%N.
Proof.
  assert (Hm : forall x, (x mod 2 ^ 32 < 2 ^ 32)%N) by (intros; apply N.mod_lt; discriminate).
  fix IH 1. intros [|b0 [|b1 bs]] h Hh; cbn [compute_pod_hash]; [exact Hh|exact Hh|].
  apply IH. assert (H1 : (mix_even b0 h < 2 ^ 32)%N).
  { unfold mix_even, u32. apply lxor_below; [exact Hh|]. apply lxor_below; apply Hm. }
  unfold mix_odd, inv32, u32. apply lxor_below; [exact H1|]. lia.
Qed.

Lemma string_range : forall s seed h, (seed < 2 ^ 32)%N -> hash_string s seed = Ok h -> (h < 2 ^ 32)%N.
Proof.
  intros s seed h Hs. unfold hash_string. rewrite hash_ok by lia. intros H. injection H as <-.
  unfold mix_all. generalize (pick s (positions (length s))). intros l. revert seed Hs.
  induction l as [|c l IH]; intros seed Hs; cbn [fold_left]; [exact Hs|]. apply IH.
  apply (mix_below (char_as_int c) seed Hs).
Qed.
