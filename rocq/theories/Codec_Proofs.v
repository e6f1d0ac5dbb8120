From Verif Require Import Base Codec_Tables Codec_Model Codec_Spec Edit_Proofs.
Local Ltac Zify.zify_post_hook ::= Z.div_mod_to_equations.

(* ---------- finite domains ---------- *)
Definition all_bytes : list ascii := map ascii_of_nat (seq 0 256).

Lemma nat_of_ascii_lt c : nat_of_ascii c < 256.
Proof. destruct c as [[] [] [] [] [] [] [] []]; vm_compute; lia. Qed.

Lemma in_all_bytes c : In c all_bytes.
Proof.
  unfold all_bytes. apply in_map_iff. exists (nat_of_ascii c). split.
  - apply ascii_nat_embedding.
  - apply in_seq. pose proof (nat_of_ascii_lt c). lia.
Qed.

Lemma all_bytes_spec (P : ascii -> bool) : forallb P all_bytes = true -> forall c, P c = true.
Proof. intros H c. rewrite forallb_forall in H. apply H, in_all_bytes. Qed.

Lemma N_of_ascii_lt c : (N_of_ascii c < 256)%N.
Proof. pose proof (nat_of_ascii_lt c). unfold nat_of_ascii in H. lia. Qed.

Lemma to_byte_small n : (n < 256)%N -> N_of_ascii (to_byte n) = n.
Proof. intros H. unfold to_byte. rewrite N.mod_small by exact H. now apply N_ascii_embedding. Qed.

Lemma to_byte_N c : to_byte (N_of_ascii c) = c.
Proof. unfold to_byte. rewrite N.mod_small by apply N_of_ascii_lt. apply ascii_N_embedding. Qed.

Definition ascii_eqb_refl := Ascii.eqb_refl.

(* equality of an outcome with an expected byte, decided *)
Definition ok_is (m : outcome ascii) (c : ascii) : bool :=
  match m with Ok d => Ascii.eqb d c | _ => false end.
Lemma ok_is_true m c : ok_is m c = true -> m = Ok c.
Proof. destruct m; simpl; try discriminate. intros H. apply Ascii.eqb_eq in H. congruence. Qed.
Definition okN_is (m : outcome N) (c : N) : bool :=
  match m with Ok d => N.eqb d c | _ => false end.
Lemma okN_is_true m c : okN_is m c = true -> m = Ok c.
Proof. destruct m; simpl; try discriminate. intros H. apply N.eqb_eq in H. congruence. Qed.

(* ---------- bit arithmetic ---------- *)
Lemma land_shift_small a b n : (b < 2 ^ n)%N -> N.land (a * 2 ^ n) b = 0%N.
Proof.
  intros H. apply N.bits_inj. intros k. rewrite N.land_spec, N.bits_0.
  destruct (N.lt_ge_cases k n) as [L|L].
  - now rewrite N.mul_pow2_bits_low.
  - replace b with (b mod 2 ^ n)%N by (apply N.mod_small; exact H).
    rewrite N.mod_pow2_bits_high by exact L. apply andb_false_r.
Qed.

Lemma lor_add a b n : (b < 2 ^ n)%N -> N.lor (a * 2 ^ n) b = (a * 2 ^ n + b)%N.
Proof.
  intros H. pose proof (land_shift_small a b n H) as E.
  rewrite <- N.lxor_lor by exact E. symmetry. now apply N.add_nocarry_lxor.
Qed.

Lemma land63 a : N.land a 63 = (a mod 64)%N.
Proof. change 63%N with (N.ones 6). now rewrite N.land_ones. Qed.
Lemma land255 a : N.land a 255 = (a mod 256)%N.
Proof. change 255%N with (N.ones 8). now rewrite N.land_ones. Qed.

Lemma block3 a b c : (b < 256)%N -> (c < 256)%N ->
  N.lor (N.lor (N.shiftl a 16) (N.shiftl b 8)) c = (a * 65536 + b * 256 + c)%N.
Proof.
  intros Hb Hc. rewrite !N.shiftl_mul_pow2.
  change (2 ^ 16)%N with (2 ^ 8 * 2 ^ 8)%N.
  rewrite (N.mul_assoc a).
  assert (E1 : N.lor (a * 2 ^ 8 * 2 ^ 8) (b * 2 ^ 8) = ((a * 2 ^ 8 + b) * 2 ^ 8)%N).
  { rewrite <- N.mul_assoc, <- N.pow_add_r. change (8 + 8)%N with 16%N.
    rewrite lor_add; [|change (2 ^ 16)%N with 65536%N; change (2 ^ 8)%N with 256%N; lia].
    change (2 ^ 16)%N with 65536%N. change (2 ^ 8)%N with 256%N. lia. }
  rewrite E1. rewrite lor_add by (change (2 ^ 8)%N with 256%N; exact Hc).
  change (2 ^ 8)%N with 256%N. lia.
Qed.

Lemma block2 a b : (b < 256)%N -> N.lor (N.shiftl a 16) (N.shiftl b 8) = (a * 65536 + b * 256)%N.
Proof.
  intros Hb. pose proof (block3 a b 0 Hb ltac:(lia)) as H. rewrite N.lor_0_r in H. rewrite H. lia.
Qed.

Lemma block1 a : N.shiftl a 16 = (a * 65536)%N.
Proof. now rewrite N.shiftl_mul_pow2. Qed.

Lemma dblock4 a b c d : (b < 64)%N -> (c < 64)%N -> (d < 64)%N ->
  N.lor (N.lor (N.lor (N.shiftl a 18) (N.shiftl b 12)) (N.shiftl c 6)) d
  = (a * 262144 + b * 4096 + c * 64 + d)%N.
Proof.
  intros Hb Hc Hd. rewrite !N.shiftl_mul_pow2.
  rewrite (lor_add a (b * 2 ^ 12) 18) by (change (2 ^ 12)%N with 4096%N; change (2 ^ 18)%N with 262144%N; lia).
  replace (a * 2 ^ 18 + b * 2 ^ 12)%N with ((a * 64 + b) * 2 ^ 12)%N
    by (change (2 ^ 12)%N with 4096%N; change (2 ^ 18)%N with 262144%N; lia).
  rewrite lor_add by (change (2 ^ 12)%N with 4096%N; change (2 ^ 6)%N with 64%N; lia).
  replace ((a * 64 + b) * 2 ^ 12 + c * 2 ^ 6)%N with (((a * 64 + b) * 64 + c) * 2 ^ 6)%N
    by (change (2 ^ 12)%N with 4096%N; change (2 ^ 6)%N with 64%N; lia).
  rewrite lor_add by (change (2 ^ 6)%N with 64%N; lia).
  change (2 ^ 6)%N with 64%N. lia.
Qed.

(* ---------- generic buffers ---------- *)
Lemma resize_length s n : length (resize s n) = n.
Proof. unfold resize. rewrite app_length, firstn_length, repeat_length. lia. Qed.

Lemma resize_app a b : resize (a ++ b) (length a) = a.
Proof.
  unfold resize. rewrite firstn_app_len, app_length.
  replace (length a - (length a + length b)) with 0 by lia. apply app_nil_r.
Qed.

Lemma map_inplace_ok (f : ascii -> outcome ascii) (g : ascii -> ascii) s :
  (forall c, f c = Ok (g c)) -> map_inplace f s = Ok (map g s).
Proof.
  intros Hf. apply holds_eq. unfold map_inplace.
  pose proof (for_up_rule (S := list ascii)
      (fun i t => t = map g (firstn i s) ++ skipn i s)) as R.
  eapply holds_weaken; [apply R|].
  - intros k t Hk ->.
    destruct (nth_error s k) as [x|] eqn:Ex; [|apply nth_error_None in Ex; lia].
    rewrite (skipn_nth_cons _ _ _ Ex), (firstn_S_nth _ _ _ Ex), map_app. cbn [map].
    set (rest := skipn (S k) s). set (dn := map g (firstn k s)).
    assert (Hl : length dn = k) by (unfold dn; rewrite map_length, firstn_length; lia).
    clearbody rest dn. rewrite <- Hl, rd_here. cbn [bind]. rewrite Hf. cbn [bind].
    rewrite wr_here. cbn [holds]. now rewrite <- app_assoc.
  - reflexivity.
  - intros t ->. cbn [plus]. now rewrite firstn_all, skipn_all, app_nil_r.
Qed.

(* ---------- hex ---------- *)
Lemma hex_lut_ok c :
  exists w, lookup hex_lut (byte c) = Ok w /\
    to_byte w = hex_digit (N_of_ascii c / 16) /\ to_byte (N.shiftr w 8) = hex_digit (N_of_ascii c mod 16).
Proof.
  pose (P := fun c => match lookup hex_lut (byte c) with
    | Ok w => Ascii.eqb (to_byte w) (hex_digit (N_of_ascii c / 16)) &&
              Ascii.eqb (to_byte (N.shiftr w 8)) (hex_digit (N_of_ascii c mod 16))
    | _ => false end).
  assert (H : P c = true) by (apply all_bytes_spec; vm_compute; reflexivity).
  unfold P in H. destruct (lookup hex_lut (byte c)) as [w| |]; try discriminate.
  apply andb_prop in H. destruct H as [H1 H2]. apply Ascii.eqb_eq in H1, H2. eauto.
Qed.

Lemma hex_text_length s : length (hex_text s) = 2 * length s.
Proof. unfold hex_text. induction s as [|c s IH]; simpl in *; auto. lia. Qed.

Lemma hex_text_app a b : hex_text (a ++ b) = hex_text a ++ hex_text b.
Proof. unfold hex_text. now rewrite map_app, concat_app. Qed.

Lemma list_split2 {A} (l : list A) : 2 <= length l -> exists x y r, l = x :: y :: r.
Proof. destruct l as [|x [|y r]]; simpl; try lia. eauto. Qed.

Lemma convert_bin_to_hex_ok s out : 2 * length s <= length out ->
  convert_bin_to_hex s out = Ok (hex_text s ++ skipn (2 * length s) out).
Proof.
  intros Hout. apply holds_eq. unfold convert_bin_to_hex.
  pose proof (for_up_rule (S := list ascii)
      (fun i t => exists gap, t = hex_text (firstn i s) ++ gap /\ gap = skipn (2 * i) out)) as R.
  eapply holds_weaken; [apply R|].
  - intros k t Hk (gap & -> & Hg).
    destruct (nth_error s k) as [c|] eqn:Ec; [|apply nth_error_None in Ec; lia].
    rewrite (rd_nth _ _ _ Ec). cbn [bind].
    destruct (hex_lut_ok c) as (w & Ew & E1 & E2). rewrite Ew. cbn [bind].
    rewrite E1, E2.
    assert (Hgl : 2 <= length gap) by (rewrite Hg, skipn_length; lia).
    destruct (list_split2 gap Hgl) as (x & y & r & ->).
    assert (Hl : length (hex_text (firstn k s)) = 2 * k)
      by (rewrite hex_text_length, firstn_length; lia).
    rewrite <- Hl. rewrite wr_here. cbn [bind].
    replace (length (hex_text (firstn k s)) + 1)
      with (length (hex_text (firstn k s) ++ [hex_digit (N_of_ascii c / 16)]))
      by (rewrite app_length; reflexivity).
    rewrite (app_cons_assoc (hex_text (firstn k s))). rewrite wr_here. cbn [holds].
    exists r. split.
    + rewrite (firstn_S_nth _ _ _ Ec), hex_text_app. rewrite <- !app_assoc. reflexivity.
    + replace (2 * S k) with (2 + 2 * k) by lia. rewrite <- skipn_skipn, <- Hg. reflexivity.
  - exists out. auto.
  - intros t (gap & -> & ->). cbn [plus]. now rewrite firstn_all.
Qed.

Lemma convert_bin_to_hex_str_ok s output :
  convert_bin_to_hex_str s output = Ok (hex_text s).
Proof.
  unfold convert_bin_to_hex_str. rewrite convert_bin_to_hex_ok by (rewrite resize_length; lia).
  rewrite skipn_all2 by (rewrite resize_length; lia). now rewrite app_nil_r.
Qed.

(* the decoder's view of one character *)
Definition hex_read (c : ascii) : N := match hex_value c with Some v => v | None => 0%N end.

Lemma hex_to_bin_ok c : lookup hex_to_bin_table (byte c) = Ok (hex_read c) /\ (hex_read c < 16)%N.
Proof.
  pose (P := fun c => okN_is (lookup hex_to_bin_table (byte c)) (hex_read c) && N.ltb (hex_read c) 16).
  assert (H : P c = true) by (apply all_bytes_spec; vm_compute; reflexivity).
  unfold P in H. apply andb_prop in H. destruct H as [H1 H2].
  split; [now apply okN_is_true|lia].
Qed.

Fixpoint hex_decode (s : list ascii) : list ascii :=
  match s with
  | a :: b :: s' => ascii_of_N (16 * hex_read a + hex_read b) :: hex_decode s'
  | _ => []
  end.

Lemma hex_pair_byte a b :
  to_byte (N.lor (N.shiftl (hex_read a) 4) (hex_read b)) = ascii_of_N (16 * hex_read a + hex_read b).
Proof.
  destruct (hex_to_bin_ok a) as [_ Ha]. destruct (hex_to_bin_ok b) as [_ Hb].
  rewrite N.shiftl_mul_pow2, lor_add by (change (2 ^ 4)%N with 16%N; lia).
  unfold to_byte. change (2 ^ 4)%N with 16%N. rewrite N.mod_small by lia. f_equal. lia.
Qed.

Lemma hex_decode_length s n : length s = 2 * n -> length (hex_decode s) = n.
Proof.
  revert s; induction n as [|n IH]; intros [|a [|b s]] H; simpl in *; try lia.
  rewrite IH by lia. reflexivity.
Qed.

Lemma convert_hex_to_bin_ok s out n : length s = 2 * n -> s <> [] -> n <= length out ->
  convert_hex_to_bin s out = Ok (true, hex_decode s ++ skipn n out).
Proof.
  intros Hs Hne Hout. unfold convert_hex_to_bin.
  destruct (Nat.eqb_spec (length s) 0) as [E|_]; [destruct s; [congruence|discriminate]|].
  replace (length s mod 2 =? 1) with false.
  2: { symmetry. apply Nat.eqb_neq. rewrite Hs, Nat.mul_comm, Nat.mod_mul by lia. lia. }
  apply holds_eq.
  eapply holds_bind2 with (P := fun o => o = hex_decode s ++ skipn n out); [|intros o ->; reflexivity].
  apply loop_rule with
    (I := fun '(itr, o, pos) => exists dn gap rest, o = dn ++ gap /\ length dn = pos /\ itr = 2 * pos /\
        rest = skipn itr s /\ dn ++ hex_decode rest = hex_decode s /\ gap = skipn pos out /\ pos <= n)
    (mu := fun '(itr, o, pos) => length s - itr).
  - intros [[itr o] pos] (dn & gap & rest & -> & <- & -> & Hr & Hd & Hg & Hp).
    destruct (Nat.eqb_spec (length s) (2 * length dn)) as [E|E].
    + cbn [holds]. subst rest. rewrite <- E, skipn_all in Hd. simpl in Hd. rewrite app_nil_r in Hd.
      rewrite Hd, Hg. f_equal. f_equal. lia.
    + assert (Hlen : length rest = 2 * (n - length dn)) by (subst rest; rewrite skipn_length; lia).
      destruct (list_split2 rest ltac:(lia)) as (a & b & r & Er).
      assert (Es : s = firstn (2 * length dn) s ++ a :: b :: r).
      { rewrite <- Er, Hr. symmetry. apply firstn_skipn. }
      assert (Hfl : length (firstn (2 * length dn) s) = 2 * length dn) by (rewrite firstn_length; lia).
      assert (R0 : rd s (2 * length dn) = Ok a).
      { rewrite Es. rewrite <- Hfl at 2. apply rd_here. }
      assert (R1 : rd s (2 * length dn + 1) = Ok b).
      { rewrite Es. rewrite (app_cons_assoc _ a).
        replace (2 * length dn + 1) with (length (firstn (2 * length dn) s ++ [a]))
          by (rewrite app_length, Hfl; reflexivity). apply rd_here. }
      rewrite R0. cbn [bind]. destruct (hex_to_bin_ok a) as [-> Ha]. cbn [bind].
      rewrite R1. cbn [bind]. destruct (hex_to_bin_ok b) as [-> Hb]. cbn [bind].
      rewrite hex_pair_byte.
      destruct gap as [|g gap].
      { exfalso. apply (f_equal (@length ascii)) in Hg. rewrite skipn_length in Hg. simpl in Hg. lia. }
      rewrite wr_here. cbn [bind holds]. split; [|lia].
      exists (dn ++ [ascii_of_N (16 * hex_read a + hex_read b)]), gap, r.
      split; [now rewrite <- app_assoc|]. split; [rewrite app_length; simpl; lia|].
      split; [rewrite ?app_length; simpl; lia|].
      split.
      { replace (2 * length dn + 2) with (2 + 2 * length dn) by lia.
        rewrite <- skipn_skipn, <- Hr, Er. reflexivity. }
      split; [rewrite <- Hd, Er, <- app_assoc; reflexivity|].
      split; [|lia]. replace (length dn + 1) with (1 + length dn) by lia.
      rewrite <- skipn_skipn, <- Hg. reflexivity.
  - exists [], out, s. simpl. repeat split; auto; lia.
  - lia.
Qed.

Lemma hex_decode_text s : hex_decode (hex_text s) = s.
Proof.
  induction s as [|c s IH]; auto.
  change (hex_text (c :: s)) with
    (hex_digit (N_of_ascii c / 16) :: hex_digit (N_of_ascii c mod 16) :: hex_text s).
  cbn [hex_decode]. rewrite IH. f_equal.
  pose (P := fun c => Ascii.eqb (ascii_of_N (16 * hex_read (hex_digit (N_of_ascii c / 16))
                       + hex_read (hex_digit (N_of_ascii c mod 16)))) c).
  apply Ascii.eqb_eq. change (P c = true). apply all_bytes_spec. vm_compute. reflexivity.
Qed.

Lemma hex_decode_lower s : hex_decode (map lower s) = hex_decode s.
Proof.
  assert (H : forall c, hex_read (lower c) = hex_read c).
  { intros c. apply N.eqb_eq. pose (P := fun c => N.eqb (hex_read (lower c)) (hex_read c)).
    change (P c = true). apply all_bytes_spec. vm_compute. reflexivity. }
  assert (G : forall n s, length s <= n -> hex_decode (map lower s) = hex_decode s).
  { induction n as [|n IH]; intros [|a [|b t]] Hn; simpl in *; auto; try lia.
    rewrite !H, IH by lia. reflexivity. }
  apply (G (length s)); auto.
Qed.

Lemma hex_roundtrip s out output2 : s <> [] ->
  exists t, convert_bin_to_hex_str s out = Ok t /\ t = hex_text s /\ length t = 2 * length s /\
    convert_hex_to_bin_str t output2 = Ok (true, s) /\
    convert_hex_to_bin_str (map lower t) output2 = Ok (true, s).
Proof.
  intros Hs. exists (hex_text s). rewrite convert_bin_to_hex_str_ok.
  split; auto. split; auto. split; [apply hex_text_length|].
  assert (Hl : length (hex_text s) = 2 * length s) by apply hex_text_length.
  assert (Hp : 0 < length s) by (destruct s; [congruence|simpl; lia]).
  assert (G : forall t, length t = 2 * length s -> hex_decode t = s ->
              convert_hex_to_bin_str t output2 = Ok (true, s)).
  { intros t Ht Hd. unfold convert_hex_to_bin_str.
    destruct (Nat.eqb_spec (length t) 0); [lia|]. cbn [orb].
    replace (length t mod 2 =? 1) with false.
    2: { symmetry. apply Nat.eqb_neq. rewrite Ht, Nat.mul_comm, Nat.mod_mul by lia. lia. }
    replace (length t / 2) with (length s) by (rewrite Ht, Nat.mul_comm, Nat.div_mul; lia).
    rewrite (convert_hex_to_bin_ok t _ (length s)); auto.
    - rewrite Hd. rewrite skipn_all2 by (rewrite resize_length; lia). now rewrite app_nil_r.
    - destruct t; [simpl in *; lia|discriminate].
    - rewrite resize_length. lia. }
  split; apply G.
  - exact Hl.
  - apply hex_decode_text.
  - now rewrite map_length.
  - rewrite hex_decode_lower. apply hex_decode_text.
Qed.

Lemma hex_refused s output : s = [] \/ length s mod 2 = 1 ->
  convert_hex_to_bin_str s output = Ok (false, output) /\
  convert_hex_to_bin s output = Ok (false, output).
Proof.
  intros [->|H]; [split; reflexivity|].
  unfold convert_hex_to_bin_str, convert_hex_to_bin. rewrite H.
  destruct (length s =? 0); auto.
Qed.

(* acceptance depends on the length only *)
Lemma hex_accepts s output : s <> [] -> length s mod 2 = 0 ->
  convert_hex_to_bin_str s output = Ok (true, hex_decode s).
Proof.
  intros Hs Hm. pose proof (Nat.div_mod (length s) 2 ltac:(lia)) as E. rewrite Hm in E.
  unfold convert_hex_to_bin_str.
  destruct (Nat.eqb_spec (length s) 0); [destruct s; [congruence|discriminate]|].
  rewrite Hm. cbn [orb Nat.eqb].
  rewrite (convert_hex_to_bin_ok s _ (length s / 2)); auto.
  - rewrite skipn_all2 by (rewrite resize_length; lia). now rewrite app_nil_r.
  - lia.
  - rewrite resize_length. lia.
Qed.

Lemma hex_decode_nth s i a b :
  nth_error s (2 * i) = Some a -> nth_error s (2 * i + 1) = Some b ->
  nth_error (hex_decode s) i = Some (ascii_of_N (16 * hex_read a + hex_read b)).
Proof.
  revert s; induction i as [|i IH]; intros s Ha Hb.
  - destruct s as [|x [|y s]]; try discriminate. injection Ha as ->. injection Hb as ->. reflexivity.
  - replace (2 * S i) with (S (S (2 * i))) in Ha by lia.
    replace (2 * S i + 1) with (S (S (2 * i + 1))) in Hb by lia.
    destruct s as [|x [|y s]]; try discriminate. cbn [hex_decode nth_error] in *. now apply IH.
Qed.

(* ---------- base64 ---------- *)
Definition letter (n : N) : ascii := nth (N.to_nat n) b64_alphabet zero.

Lemma lookup_b64 n : (n < 64)%N -> lookup bin_to_base64_table n = Ok (letter n).
Proof.
  intros H. apply ok_is_true.
  assert (G : forallb (fun k => ok_is (lookup bin_to_base64_table (N.of_nat k)) (letter (N.of_nat k))) (seq 0 64) = true)
    by (vm_compute; reflexivity).
  rewrite forallb_forall in G. specialize (G (N.to_nat n)). rewrite N2Nat.id in G.
  apply G. apply in_seq. lia.
Qed.

Lemma unb64_letter n : (n < 64)%N -> unb64 (letter n) = Ok n /\ letter n <> "="%char.
Proof.
  intros H.
  assert (G : forallb (fun k => okN_is (unb64 (letter (N.of_nat k))) (N.of_nat k) &&
              negb (Ascii.eqb (letter (N.of_nat k)) "="%char)) (seq 0 64) = true)
    by (vm_compute; reflexivity).
  rewrite forallb_forall in G. specialize (G (N.to_nat n)). rewrite N2Nat.id in G.
  assert (Hi : In (N.to_nat n) (seq 0 64)) by (apply in_seq; lia).
  specialize (G Hi). apply andb_prop in G. destruct G as [G1 G2]. split.
  - now apply okN_is_true.
  - intros E. rewrite E in G2. discriminate.
Qed.

Definition L1 (a : ascii) : N := (N_of_ascii a / 4)%N.
Definition L2 (a b : ascii) : N := (N_of_ascii a mod 4 * 16 + N_of_ascii b / 16)%N.
Definition L3 (b c : ascii) : N := (N_of_ascii b mod 16 * 4 + N_of_ascii c / 64)%N.
Definition L4 (c : ascii) : N := (N_of_ascii c mod 64)%N.

Lemma L_bounds a b : (L1 a < 64 /\ L2 a b < 64 /\ L3 a b < 64 /\ L4 a < 64)%N.
Proof.
  unfold L1, L2, L3, L4. pose proof (N_of_ascii_lt a). pose proof (N_of_ascii_lt b). lia.
Qed.

Fixpoint enc (s : list ascii) : list ascii :=
  match s with
  | a :: b :: c :: s' => letter (L1 a) :: letter (L2 a b) :: letter (L3 b c) :: letter (L4 c) :: enc s'
  | [a; b] => [letter (L1 a); letter (L2 a b); letter (L3 b zero); "="%char]
  | [a] => [letter (L1 a); letter (L2 a zero); "="%char; "="%char]
  | [] => []
  end.

Lemma list_ind3 {A} (P : list A -> Prop) :
  P [] -> (forall a, P [a]) -> (forall a b, P [a; b]) ->
  (forall a b c s, P s -> P (a :: b :: c :: s)) -> forall s, P s.
Proof.
  intros H0 H1 H2 H3 s.
  assert (G : forall n s, length s <= n -> P s).
  { induction n as [|n IH]; intros [|a [|b [|c t]]] Hn; simpl in *; try lia; auto.
    apply H3, IH. lia. }
  apply (G (length s)); auto.
Qed.

(* enc is RFC 4648 base64 *)
Lemma bits_L1 a : bits_value (firstn 6 (bits8 a)) = N.to_nat (L1 a).
Proof.
  apply Nat.eqb_eq. pose (P := fun a => bits_value (firstn 6 (bits8 a)) =? N.to_nat (L1 a)).
  change (P a = true). apply all_bytes_spec. vm_compute. reflexivity.
Qed.
Lemma bits_L4 a : bits_value (skipn 2 (bits8 a)) = N.to_nat (L4 a).
Proof.
  apply Nat.eqb_eq. pose (P := fun a => bits_value (skipn 2 (bits8 a)) =? N.to_nat (L4 a)).
  change (P a = true). apply all_bytes_spec. vm_compute. reflexivity.
Qed.
Lemma bits_L2 a b : bits_value (skipn 6 (bits8 a) ++ firstn 4 (bits8 b)) = N.to_nat (L2 a b).
Proof.
  apply Nat.eqb_eq.
  pose (P := fun a => forallb (fun b => bits_value (skipn 6 (bits8 a) ++ firstn 4 (bits8 b)) =? N.to_nat (L2 a b)) all_bytes).
  assert (H : P a = true) by (apply all_bytes_spec; vm_compute; reflexivity).
  unfold P in H. rewrite forallb_forall in H. apply H, in_all_bytes.
Qed.
Lemma bits_L3 a b : bits_value (skipn 4 (bits8 a) ++ firstn 2 (bits8 b)) = N.to_nat (L3 a b).
Proof.
  apply Nat.eqb_eq.
  pose (P := fun a => forallb (fun b => bits_value (skipn 4 (bits8 a) ++ firstn 2 (bits8 b)) =? N.to_nat (L3 a b)) all_bytes).
  assert (H : P a = true) by (apply all_bytes_spec; vm_compute; reflexivity).
  unfold P in H. rewrite forallb_forall in H. apply H, in_all_bytes.
Qed.

Definition letters_of (l : list bool) : list ascii :=
  map (fun g => nth (bits_value g) b64_alphabet zero) (groups6 (pad6 l)).

Lemma letters_of_24 a b c l :
  letters_of (bits8 a ++ bits8 b ++ bits8 c ++ l)
  = letter (L1 a) :: letter (L2 a b) :: letter (L3 b c) :: letter (L4 c) :: letters_of l.
Proof.
  unfold letter. rewrite <- bits_L1, <- bits_L2, <- bits_L3, <- bits_L4.
  unfold letters_of, pad6.
  assert (E : (6 - length (bits8 a ++ bits8 b ++ bits8 c ++ l) mod 6) mod 6 = (6 - length l mod 6) mod 6).
  { f_equal. f_equal. rewrite !app_length. change (length (bits8 a)) with 8.
    change (length (bits8 b)) with 8. change (length (bits8 c)) with 8.
    replace (8 + (8 + (8 + length l))) with (length l + 4 * 6) by lia. apply Nat.mod_add. lia. }
  rewrite E. rewrite <- !app_assoc. reflexivity.
Qed.

Lemma enc_is_base64 s : enc s = base64_text s.
Proof.
  induction s as [|a|a b|a b c s IH] using list_ind3.
  - reflexivity.
  - unfold base64_text. cbn [map concat]. rewrite app_nil_r.
    change (map _ (groups6 (pad6 (bits8 a)))) with
      [nth (bits_value (firstn 6 (bits8 a))) b64_alphabet zero;
       nth (bits_value (skipn 6 (bits8 a) ++ firstn 4 (bits8 zero))) b64_alphabet zero].
    rewrite bits_L1, bits_L2. reflexivity.
  - unfold base64_text. cbn [map concat]. rewrite app_nil_r.
    change (map _ (groups6 (pad6 (bits8 a ++ bits8 b)))) with
      [nth (bits_value (firstn 6 (bits8 a))) b64_alphabet zero;
       nth (bits_value (skipn 6 (bits8 a) ++ firstn 4 (bits8 b))) b64_alphabet zero;
       nth (bits_value (skipn 4 (bits8 b) ++ firstn 2 (bits8 zero))) b64_alphabet zero].
    rewrite bits_L1, bits_L2, bits_L3. reflexivity.
  - cbn [enc]. rewrite IH. unfold base64_text. cbn [map concat].
    fold (letters_of (concat (map bits8 s))).
    fold (letters_of (bits8 a ++ bits8 b ++ bits8 c ++ concat (map bits8 s))).
    rewrite letters_of_24. cbv zeta. cbn [app length].
    do 4 f_equal. f_equal. f_equal. f_equal. f_equal.
    set (n := length (letters_of (concat (map bits8 s)))).
    replace (S (S (S (S n)))) with (n + 1 * 4) by lia. now rewrite Nat.mod_add by lia.
Qed.

Lemma enc_length s : length (enc s) = (length s / 3) * 4 + (if 0 <? length s mod 3 then 4 else 0).
Proof.
  induction s as [|a|a b|a b c s IH] using list_ind3; try reflexivity.
  cbn [enc length]. rewrite IH.
  replace (S (S (S (length s)))) with (length s + 1 * 3) by lia.
  rewrite Nat.mod_add, Nat.div_add by lia. lia.
Qed.

Lemma b64char3 a b c :
  let block := N.lor (N.lor (N.shiftl (byte a) 16) (N.shiftl (byte b) 8)) (byte c) in
  b64char block 18 = Ok (letter (L1 a)) /\ b64char block 12 = Ok (letter (L2 a b)) /\
  b64char block 6 = Ok (letter (L3 b c)) /\ b64char block 0 = Ok (letter (L4 c)).
Proof.
  cbv zeta. unfold b64char, byte.
  pose proof (N_of_ascii_lt a). pose proof (N_of_ascii_lt b). pose proof (N_of_ascii_lt c).
  rewrite block3 by assumption. rewrite !land63, !N.shiftr_div_pow2.
  change (2 ^ 18)%N with 262144%N. change (2 ^ 12)%N with 4096%N. change (2 ^ 6)%N with 64%N.
  change (2 ^ 0)%N with 1%N.
  destruct (L_bounds a b) as (B1 & B2 & _ & _). destruct (L_bounds b c) as (_ & _ & B3 & _).
  destruct (L_bounds c c) as (_ & _ & _ & B4).
  unfold L1, L2, L3, L4 in *.
  repeat split; (rewrite <- lookup_b64 by assumption; f_equal; lia).
Qed.

(* write four characters into a buffer *)
Lemma put_here (a : list ascii) x b v : put (a ++ x :: b) (length a) v = Ok (a ++ v :: b, S (length a)).
Proof. unfold put. now rewrite wr_here. Qed.

Lemma put_here' (a : list ascii) x b v n : n = length a ->
  put (a ++ x :: b) n v = Ok ((a ++ [v]) ++ b, length (a ++ [v])).
Proof.
  intros ->. rewrite put_here, app_length. simpl. rewrite Nat.add_1_r. now rewrite <- app_assoc.
Qed.

Lemma list_split4 {A} (l : list A) : 4 <= length l -> exists x y z w r, l = x :: y :: z :: w :: r.
Proof. destruct l as [|x [|y [|z [|w r]]]]; simpl; try lia. intros _. now exists x, y, z, w, r. Qed.
Lemma list_split3 {A} (l : list A) : 3 <= length l -> exists x y z r, l = x :: y :: z :: r.
Proof. destruct l as [|x [|y [|z r]]]; simpl; try lia. intros _. now exists x, y, z, r. Qed.

Lemma rd_app_plus {A} (p r : list A) k : rd (p ++ r) (length p + k) = rd r k.
Proof. rewrite rd_app_r by lia. f_equal. lia. Qed.

Lemma enc_app3 p r : length p mod 3 = 0 -> enc (p ++ r) = enc p ++ enc r.
Proof.
  induction p as [|a|a b|a b c s IH] using list_ind3; intros H; try (simpl in H; discriminate); auto.
  cbn [app enc]. rewrite IH; auto.
  cbn [length] in H. replace (S (S (S (length s)))) with (length s + 1 * 3) in H by lia.
  now rewrite Nat.mod_add in H by lia.
Qed.

Lemma convert_bin_to_base64_ok s out : length (enc s) <= length out ->
  convert_bin_to_base64 s out = Ok (length (enc s), enc s ++ skipn (length (enc s)) out).
Proof.
  intros Hout. apply holds_eq. unfold convert_bin_to_base64. cbv zeta.
  rewrite <- enc_length.
  pose proof (Nat.div_mod (length s) 3 ltac:(lia)) as DM.
  pose proof (Nat.mod_upper_bound (length s) 3 ltac:(lia)) as MB.
  eapply holds_bind2 with (P := fun '(itr, o, pos) => exists p rest gap, s = p ++ rest /\ length p = itr /\
      itr = 3 * (length s / 3) /\ o = enc p ++ gap /\ length (enc p) = pos /\ gap = skipn pos out).
  { pose proof (for_up_rule (S := (nat * list ascii * nat)%type)
      (fun i '(itr, o, pos) => exists p rest gap, s = p ++ rest /\ length p = itr /\ itr = 3 * i /\
         o = enc p ++ gap /\ length (enc p) = pos /\ gap = skipn pos out)) as R.
    eapply holds_weaken; [apply R|].
    - intros k [[itr o] pos] Hk (p & rest & gap & Es & <- & Hi & -> & <- & Hg).
      assert (Hr : 3 <= length rest).
      { apply (f_equal (@length ascii)) in Es. rewrite app_length in Es. lia. }
      destruct (list_split3 rest Hr) as (a & b & c & r & ->).
      assert (R0 : rd s (length p) = Ok a) by (rewrite Es; apply rd_here).
      assert (R1 : rd s (length p + 1) = Ok b) by (rewrite Es, rd_app_plus; reflexivity).
      assert (R2 : rd s (length p + 2) = Ok c) by (rewrite Es, rd_app_plus; reflexivity).
      rewrite R0, R1, R2. cbn [bind].
      destruct (b64char3 a b c) as (E1 & E2 & E3 & E4). cbv zeta in *.
      assert (Hp : length p mod 3 = 0) by (rewrite Hi, Nat.mul_comm, Nat.mod_mul; lia).
      assert (Hgl : 4 <= length gap).
      { subst gap. rewrite skipn_length. rewrite Es, enc_app3 in Hout by exact Hp.
        rewrite app_length in Hout. cbn [enc length] in Hout. lia. }
      destruct (list_split4 gap Hgl) as (x & y & z & w & g & ->).
      rewrite E1. cbn [bind]. rewrite (put_here' (enc p)) by reflexivity. cbn [bind].
      rewrite E2. cbn [bind]. rewrite put_here' by reflexivity. cbn [bind].
      rewrite E3. cbn [bind]. rewrite put_here' by reflexivity. cbn [bind].
      rewrite E4. cbn [bind]. rewrite put_here' by reflexivity. cbn [bind holds].
      exists (p ++ [a; b; c]), r, g.
      rewrite (enc_app3 p [a; b; c] Hp). cbn [enc]. rewrite <- !app_assoc. cbn [app].
      rewrite !app_length in *. cbn [length] in *.
      split; [exact Es|]. split; [lia|]. split; [lia|]. split; [reflexivity|]. split; [reflexivity|].
      replace (length (enc p) + 4) with (4 + length (enc p)) by lia.
      rewrite <- skipn_skipn, <- Hg. reflexivity.
    - exists [], s, out. auto 10.
    - intros [[itr o] pos]. cbn [plus]. intros (p & rest & gap & H1 & H2 & H3 & H4).
      exists p, rest, gap. auto. }
  intros [[itr o] pos] (p & rest & gap & Es & <- & Hi & -> & <- & Hg).
  assert (Hp : length p mod 3 = 0) by (rewrite Hi, Nat.mul_comm, Nat.mod_mul; lia).
  assert (Hr : length rest = length s mod 3).
  { apply (f_equal (@length ascii)) in Es. rewrite app_length in Es. lia. }
  assert (Ee : enc s = enc p ++ enc rest) by (rewrite Es at 1; now apply enc_app3).
  assert (Hgl : length (enc rest) <= length gap).
  { subst gap. rewrite skipn_length. rewrite Ee, app_length in Hout. lia. }
  assert (Hfin : forall g2, gap = firstn (length (enc rest)) gap ++ g2 ->
      enc p ++ enc rest ++ g2 = enc s ++ skipn (length (enc s)) out).
  { intros g2 E. rewrite Ee, <- app_assoc. f_equal. f_equal.
    rewrite app_length, Nat.add_comm, <- skipn_skipn, <- Hg. rewrite E at 1.
    rewrite skipn_app. rewrite firstn_length. rewrite Nat.min_l by exact Hgl.
    rewrite skipn_all2 by (rewrite firstn_length; lia). now rewrite Nat.sub_diag. }
  rewrite <- Hr in *. destruct rest as [|a [|b [|c r]]].
  - cbn [length bind holds]. f_equal.
    specialize (Hfin gap eq_refl). cbn [enc app] in Hfin. exact Hfin.
  - cbn [length]. assert (R0 : rd s (length p) = Ok a) by (rewrite Es; apply rd_here).
    rewrite R0. cbn [bind].
    destruct (b64char3 a zero zero) as (E1 & E2 & _ & _). cbv zeta in E1, E2.
    change (byte zero) with 0%N in E1, E2. rewrite N.shiftl_0_l, !N.lor_0_r in E1, E2.
    destruct (list_split4 gap Hgl) as (x & y & z & w & g & ->).
    rewrite E1. cbn [bind]. rewrite (put_here' (enc p)) by reflexivity. cbn [bind].
    rewrite E2. cbn [bind]. rewrite put_here' by reflexivity. cbn [bind].
    rewrite put_here' by reflexivity. cbn [bind].
    rewrite put_here' by reflexivity. cbn [bind holds]. f_equal.
    specialize (Hfin g eq_refl). rewrite <- Hfin, <- !app_assoc. reflexivity.
  - cbn [length]. assert (R0 : rd s (length p) = Ok a) by (rewrite Es; apply rd_here).
    assert (R1 : rd s (length p + 1) = Ok b) by (rewrite Es, rd_app_plus; reflexivity).
    rewrite R0, R1. cbn [bind].
    destruct (b64char3 a b zero) as (E1 & E2 & E3 & _). cbv zeta in E1, E2, E3.
    change (byte zero) with 0%N in E1, E2, E3. rewrite !N.lor_0_r in E1, E2, E3.
    destruct (list_split4 gap Hgl) as (x & y & z & w & g & ->).
    rewrite E1. cbn [bind]. rewrite (put_here' (enc p)) by reflexivity. cbn [bind].
    rewrite E2. cbn [bind]. rewrite put_here' by reflexivity. cbn [bind].
    rewrite E3. cbn [bind]. rewrite put_here' by reflexivity. cbn [bind].
    rewrite put_here' by reflexivity. cbn [bind holds]. f_equal.
    specialize (Hfin g eq_refl). rewrite <- Hfin, <- !app_assoc. reflexivity.
  - exfalso. simpl length in *. lia.
Qed.

Lemma convert_bin_to_base64_str_ok s output : convert_bin_to_base64_str s output = Ok (base64_text s).
Proof.
  unfold convert_bin_to_base64_str. rewrite convert_bin_to_base64_ok.
  - cbn [bind]. rewrite resize_app, enc_is_base64. reflexivity.
  - rewrite resize_length, enc_length.
    pose proof (Nat.div_mod (length s) 3 ltac:(lia)).
    pose proof (Nat.mod_upper_bound (length s) 3 ltac:(lia)).
    destruct (0 <? length s mod 3) eqn:E; lia.
Qed.
