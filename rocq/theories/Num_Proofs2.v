(* Proofs about integer formatting and strtk::fast. *)
From Verif Require Import Base Codec_Proofs Num_Tables Num_Model Num_Spec Num_Proofs.
Open Scope Z_scope.

(* ------------------------------------------------------------------ *)
(* digit tables *)
Definition lut_entry (lut : list ascii) (k : nat) (limit : Z) (i : nat) : bool :=
  let l := sub lut (k * i, k * i + k)%nat in
  (k * i + k <=? length lut)%nat && (length l =? k)%nat && forallb digb l &&
  (dec_value l =? Z.of_nat i) &&
  ((Z.of_nat i <? limit) || negb (Ascii.eqb (hd "000"%char l) "0")).

Definition lut_ok (lut : list ascii) (k : nat) (limit base : Z) : Prop :=
  forall i, (Z.of_nat i < base) -> lut_entry lut k limit i = true.

Lemma lut3_ok : lut_ok rev_3digit_lut 3 100 1000.
Proof.
  intros i Hi. assert (H : forallb (lut_entry rev_3digit_lut 3 100) (seq 0 1000) = true) by (vm_compute; reflexivity).
  rewrite forallb_forall in H. apply H. apply in_seq. lia.
Qed.

Lemma lut2_ok : lut_ok rev_2digit_lut 2 10 100.
Proof.
  intros i Hi. assert (H : forallb (lut_entry rev_2digit_lut 2 10) (seq 0 100) = true) by (vm_compute; reflexivity).
  rewrite forallb_forall in H. apply H. apply in_seq. lia.
Qed.

(* invariant: value is what is left of v, the rest is in the buffer *)
Definition finv (v : Z) (st : fstate) : Prop :=
  let '(value, b, itr) := st in
  (length b = buffer_size /\ itr <= buffer_size)%nat /\
  0 <= value < 10 ^ (Z.of_nat itr - 12) /\
  Forall is_digit (skipn itr b) /\
  v = value * 10 ^ Z.of_nat (buffer_size - itr) + dec_value (skipn itr b) /\
  (value = 0 -> skipn itr b <> [] /\ hd "000"%char (skipn itr b) <> "0"%char).

Lemma pow10_split a b : 0 <= a -> 0 <= b -> 10 ^ (a + b) = 10 ^ a * 10 ^ b.
Proof. intros. apply Z.pow_add_r; lia. Qed.

Lemma room_of value e k : 10 ^ k <= value < 10 ^ e -> 0 <= k -> k < e.
Proof.
  intros [H1 H2] Hk. destruct (Z.lt_ge_cases k e); auto.
  destruct (Z.lt_ge_cases e 0).
  - rewrite (Z.pow_neg_r 10 e) in H2 by lia. pose proof (Z.pow_pos_nonneg 10 k). lia.
  - assert (10 ^ e <= 10 ^ k) by (apply Z.pow_le_mono_r; lia). lia.
Qed.

Lemma emit_loop_ok lut k limit base v st :
  (1 <= k)%nat -> limit = 10 ^ (Z.of_nat k - 1) -> base = 10 ^ Z.of_nat k -> lut_ok lut k limit base ->
  finv v st ->
  holds (emit_loop lut k limit base st) (fun st' => finv v st' /\ fst (fst st') < limit).
Proof.
  intros Hk Hl Hb Hlut Hi. unfold emit_loop.
  apply (loop_rule (finv v) (fun st => snd st)); auto.
  2:{ destruct st as [[value b] itr]. destruct Hi as ((_ & Hi) & _). unfold buffer_size in *. cbn [snd]. lia. }
  clear st Hi. intros [[value b] itr] Hi. cbn [snd].
  destruct (Z.leb_spec limit value) as [Hge|Hlt].
  2:{ simpl. auto. }
  pose proof Hi as Hi0. destruct Hi0 as ((Hlen & Hitr) & Hv & Hd & Hval & Hz).
  assert (Hlp : 0 < limit) by (subst limit; apply Z.pow_pos_nonneg; lia).
  assert (Hbl : base = 10 * limit).
  { subst. replace (Z.of_nat k) with (1 + (Z.of_nat k - 1)) at 1 by lia.
    rewrite pow10_split by lia. reflexivity. }
  set (q := value / base). set (r := value - q * base).
  assert (Hdm : value = base * q + value mod base) by (apply Z.div_mod; lia).
  assert (Hmb : 0 <= value mod base < base) by (apply Z.mod_pos_bound; lia).
  assert (Hr : 0 <= r < base) by (unfold r; lia).
  assert (Hroom : Z.of_nat k - 1 < Z.of_nat itr - 12).
  { apply (room_of value); subst; lia. }
  pose proof (Hlut (Z.to_nat r) ltac:(lia)) as He. unfold lut_entry in He.
  rewrite !andb_true_iff in He. destruct He as ((((He1 & He2) & He3) & He4) & He5).
  apply Nat.leb_le in He1. apply Nat.eqb_eq in He2. apply digb_all in He3. apply Z.eqb_eq in He4.
  rewrite Z2Nat.id in He4, He5 by lia.
  unfold put_lut. replace (itr <? k)%nat with false by (symmetry; apply Nat.ltb_ge; lia).
  replace (r <? 0) with false by lia.
  replace (length lut <? k * Z.to_nat r + k)%nat with false by (symmetry; apply Nat.ltb_ge; lia).
  set (l := sub lut (k * Z.to_nat r, k * Z.to_nat r + k)%nat) in *.
  cbn [bind holds].
  assert (Es : skipn (itr - k) (firstn (itr - k) b ++ l ++ skipn itr b) = l ++ skipn itr b).
  { rewrite <- (firstn_length_le b (n := itr - k)) at 1 by lia. apply skipn_app_len. }
  split; [|cbn [snd]; lia]. unfold finv. rewrite Es. split; [|split; [|split; [|split]]].
  - rewrite !app_length, firstn_length, skipn_length, He2, Hlen. lia.
  - split; [apply Z.div_pos; lia|].
    apply Z.div_lt_upper_bound; [lia|].
    replace (base * 10 ^ (Z.of_nat (itr - k) - 12)) with (10 ^ (Z.of_nat itr - 12)); [lia|].
    subst base. rewrite <- pow10_split by lia. f_equal. lia.
  - apply Forall_app. auto.
  - rewrite dec_value_app, He4, skipn_length, Hlen.
    replace (buffer_size - (itr - k))%nat with (k + (buffer_size - itr))%nat by lia.
    rewrite Nat2Z.inj_add, pow10_split, <- Hb by lia. rewrite Hval at 1.
    unfold r. ring.
  - intros Hq. assert (Hrv : r = value) by (unfold r; rewrite Hq; lia).
    destruct l as [|x l]; [simpl in He2; lia|]. cbn [app hd] in *. split; [discriminate|].
    replace (r <? limit) with false in He5 by lia. cbn [orb] in He5.
    destruct (Ascii.eqb_spec x "0"); auto. discriminate.
Qed.

Lemma put_char_ok c b itr : (length b = buffer_size)%nat -> (1 <= itr <= buffer_size)%nat ->
  exists b', put_char c b itr = Ok (b', (itr - 1)%nat) /\ length b' = buffer_size /\
             skipn (itr - 1) b' = c :: skipn itr b.
Proof.
  intros Hl Hi. destruct itr as [|i]; [lia|]. cbn [put_char].
  assert (E : b = firstn i b ++ nth i b "000"%char :: skipn (S i) b).
  { rewrite <- (firstn_skipn i b) at 1. f_equal.
    rewrite (skipn_nth_cons b i (nth i b "000"%char)); auto.
    apply nth_error_nth'. lia. }
  exists (firstn i b ++ c :: skipn (S i) b).
  assert (Hw : wr b i c = Ok (firstn i b ++ c :: skipn (S i) b)).
  { rewrite E at 1. generalize (nth i b "000"%char). intros x.
    replace i with (length (firstn i b)) at 3 by (apply firstn_length_le; lia). apply wr_here. }
  rewrite Hw. cbn [bind]. replace (S i - 1)%nat with i by lia. split; auto. split.
  - rewrite app_length, firstn_length. cbn [length]. rewrite skipn_length. lia.
  - rewrite <- (firstn_length_le b (n := i)) at 1 by lia. apply skipn_app_len.
Qed.

Lemma emit_ok v negative : 0 <= v < 10 ^ 20 ->
  holds (emit v negative) (fun s =>
    exists ds, digits ds /\ (ds = ["0"%char] \/ hd "000"%char ds <> "0"%char) /\ v = dec_value ds /\
      s = if negative && negb (v =? 0) then "-"%char :: ds else ds).
Proof.
  intros Hv. unfold emit. set (b0 := repeat "000"%char buffer_size). cbv zeta.
  destruct (Z.eqb_spec v 0) as [->|Hnz].
  { cbn. exists ["0"%char]. rewrite andb_false_r. unfold digits. repeat split; auto; try discriminate.
    apply digb_all. reflexivity. }
  cbn [negb]. rewrite andb_true_r.
  eapply holds_bind2 with (P := fun x => (snd x <= buffer_size)%nat /\
     exists ds, digits ds /\ hd "000"%char ds <> "0"%char /\ v = dec_value ds /\
       skipn (snd x) (fst x) = if negative then "-"%char :: ds else ds).
  2:{ intros [b itr] (_ & ds & H1 & H2 & H3 & H4). cbn [fst snd] in H4. cbn. exists ds. auto. }
  assert (H0 : finv v (v, b0, buffer_size)).
  { unfold finv. assert (E : skipn buffer_size b0 = []) by reflexivity. rewrite E.
    split; [split; [reflexivity|lia]|]. split; [exact Hv|]. split; [constructor|].
    split; [change (dec_value []) with 0; rewrite Nat.sub_diag; simpl; lia|]. lia. }
  eapply holds_bind2; [apply (emit_loop_ok _ _ _ _ v); try exact lut3_ok; try reflexivity; auto|].
  intros [[v1 b1] i1] [Hi1 Hlt1]. cbn [fst] in Hlt1.
  eapply holds_bind2; [apply (emit_loop_ok _ _ _ _ v); try exact lut2_ok; try reflexivity; auto|].
  intros [[v2 b2] i2] [Hi2 Hlt2]. cbn [fst] in Hlt2.
  destruct Hi2 as ((Hl2 & Hi2) & Hv2 & Hd2 & Hval2 & Hz2).
  eapply holds_bind2 with (P := fun x => length (fst x) = buffer_size /\ (11 <= snd x <= buffer_size)%nat /\
     digits (skipn (snd x) (fst x)) /\ hd "000"%char (skipn (snd x) (fst x)) <> "0"%char /\
     v = dec_value (skipn (snd x) (fst x))).
  - destruct (Z.eqb_spec v2 0) as [E2|E2].
    + cbn [holds fst snd]. destruct (Hz2 E2) as [Hz3 Hz4].
      split; auto. split; [|split; [split; auto|split; auto]].
      * assert (0 <= Z.of_nat i2 - 12); [|lia].
        destruct (Z.lt_ge_cases (Z.of_nat i2 - 12) 0); [|lia].
        rewrite Z.pow_neg_r in Hv2 by lia. lia.
      * rewrite E2 in Hval2. lia.
    + assert (Hroom : 0 < Z.of_nat i2 - 12) by (apply (room_of v2); change (10 ^ 0) with 1; lia).
      rewrite Z.mod_small by lia.
      set (c := ascii_of_N (Z.to_N (48 + v2))).
      assert (Hc : N_of_ascii c = Z.to_N (48 + v2)) by (apply N_ascii_embedding; lia).
      destruct (put_char_ok c b2 i2) as (b3 & E3 & Hl3 & Hs3); [auto|lia|].
      rewrite E3. cbn [holds fst snd]. rewrite Hs3. split; auto. split; [lia|].
      split; [split; [discriminate|]|].
      { constructor; auto. unfold is_digit. lia. }
      cbn [hd]. split.
      { intros E. rewrite E in Hc. change (N_of_ascii "0") with 48%N in Hc. lia. }
      rewrite dec_value_cons, skipn_length, Hl2, Hval2. f_equal.
      f_equal. unfold digit_val. rewrite Hc. lia.
  - intros [b3 i3] (Hl3 & Hi3 & Hd3 & Hh3 & Hval3). cbn [fst snd] in *.
    destruct negative.
    + destruct (put_char_ok "-"%char b3 i3) as (b4 & E4 & Hl4 & Hs4); [auto|lia|].
      rewrite E4. cbn [holds fst snd]. split; [lia|]. exists (skipn i3 b3). auto.
    + cbn [holds fst snd]. split; [lia|]. exists (skipn i3 b3). auto.
Qed.

Lemma format_unsigned_ok v : 0 <= v < 10 ^ 20 ->
  holds (format_unsigned v) (fun s => canonical s v /\ unsigned_text s v).
Proof.
  intros Hv. eapply holds_weaken; [apply emit_ok; auto|].
  intros s (ds & H1 & H2 & H3 & H4). cbn [andb] in H4. subst s. split.
  - exists ds. split; auto. split; auto. left. split; [lia|]. auto.
  - exists [], ds. auto.
Qed.

Lemma format_signed_ok T v : lo T = - hi T - 1 -> 0 < hi T < 10 ^ 19 -> lo T <= v <= hi T ->
  holds (format_signed T v) (fun s => canonical s v /\ signed_text s v).
Proof.
  intros Hlo Hhi Hv. unfold format_signed. cbv zeta.
  destruct (Z.ltb_spec v 0).
  - rewrite Z.mod_small by lia. eapply holds_weaken; [apply emit_ok; lia|].
    intros s (ds & H1 & H2 & H3 & H4). replace (- v =? 0) with false in H4 by lia. cbn [andb negb] in H4.
    subst s. split.
    + exists ds. split; auto. split; auto. right. split; [lia|]. split; auto. lia.
    + exists ["-"%char], ds. split; auto. split; auto. right. split; auto. lia.
  - eapply holds_weaken; [apply emit_ok; lia|].
    intros s (ds & H1 & H2 & H3 & H4). cbn [andb] in H4. subst s. split.
    + exists ds. split; [auto|]. split; [auto|]. left. split; [lia|auto].
    + exists [], ds. auto 6.
Qed.

(* canonical notation is unique *)
Lemma digits_inj : forall a b, length a = length b -> Forall is_digit a -> Forall is_digit b ->
  dec_value a = dec_value b -> a = b.
Proof.
  induction a as [|c a IH]; intros [|d b] Hl Ha Hb E; try discriminate; auto.
  inversion Ha; inversion Hb; subst. injection Hl as Hl.
  rewrite !dec_value_cons, Hl in E.
  pose proof (dec_bounds _ H2) as B1. pose proof (dec_bounds _ H6) as B2. rewrite Hl in B1.
  pose proof (digit_range _ H1). pose proof (digit_range _ H5). pose proof (pow10_pos (length b)).
  assert (Hq : digit_val c = digit_val d) by nia.
  assert (c = d).
  { unfold digit_val in Hq. rewrite <- (ascii_N_embedding c), <- (ascii_N_embedding d).
    f_equal. lia. }
  subst d. f_equal. apply IH; auto. nia.
Qed.

Lemma canon_digits_len a b : digits a -> digits b ->
  (a = ["0"%char] \/ hd "000"%char a <> "0"%char) -> (b = ["0"%char] \/ hd "000"%char b <> "0"%char) ->
  dec_value a = dec_value b -> (length a <= length b)%nat.
Proof.
  intros [Ha Da] [Hb Db] Ca Cb E.
  destruct b as [|d b]; [congruence|]. destruct a as [|c a]; [congruence|].
  destruct Ca as [Ca|Ca]; [rewrite Ca; cbn [length]; lia|]. cbn [hd] in Ca.
  pose proof (dec_lower _ _ Da Ca). pose proof (dec_bounds _ Db).
  destruct (le_lt_dec (length (c :: a)) (length (d :: b))); auto.
  cbn [length] in *.
  assert (10 ^ Z.of_nat (S (length b)) <= 10 ^ Z.of_nat (length a)) by (apply Z.pow_le_mono_r; lia).
  lia.
Qed.

Lemma canonical_unique s t v : canonical s v -> canonical t v -> s = t.
Proof.
  intros (a & Da & Ca & Ha) (b & Db & Cb & Hb).
  assert (E : dec_value a = dec_value b) by lia.
  assert (a = b).
  { apply digits_inj; [|apply Da|apply Db|auto].
    pose proof (canon_digits_len a b Da Db Ca Cb E). symmetry in E.
    pose proof (canon_digits_len b a Db Da Cb Ca E). lia. }
  subst b. destruct Ha as [(? & -> & _)|(? & -> & _)]; destruct Hb as [(? & -> & _)|(? & -> & _)]; auto; lia.
Qed.
