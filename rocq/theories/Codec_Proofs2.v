From Verif Require Import Base Codec_Tables Codec_Model Codec_Spec Edit_Proofs Codec_Proofs.
Local Ltac Zify.zify_post_hook ::= Z.div_mod_to_equations.

Lemma block_byte_eq block sh v : (block / 2 ^ sh mod 256 = N_of_ascii v)%N -> block_byte block sh = v.
Proof.
  intros H. unfold block_byte. rewrite land255, N.shiftr_div_pow2, H. apply to_byte_N.
Qed.

Lemma dec4 a b c :
  let block := N.lor (N.lor (N.lor (N.shiftl (L1 a) 18) (N.shiftl (L2 a b) 12)) (N.shiftl (L3 b c) 6)) (L4 c) in
  block_byte block 16 = a /\ block_byte block 8 = b /\ block_byte block 0 = c.
Proof.
  cbv zeta.
  destruct (L_bounds a b) as (B1 & B2 & _ & _). destruct (L_bounds b c) as (_ & _ & B3 & _).
  destruct (L_bounds c c) as (_ & _ & _ & B4).
  rewrite dblock4 by assumption.
  pose proof (N_of_ascii_lt a). pose proof (N_of_ascii_lt b). pose proof (N_of_ascii_lt c).
  unfold L1, L2, L3, L4 in *.
  repeat split; apply block_byte_eq.
  - change (2 ^ 16)%N with 65536%N. lia.
  - change (2 ^ 8)%N with 256%N. lia.
  - change (2 ^ 0)%N with 1%N. lia.
Qed.

Lemma dec3 a b :
  let block := N.lor (N.lor (N.shiftl (L1 a) 18) (N.shiftl (L2 a b) 12)) (N.shiftl (L3 b zero) 6) in
  block_byte block 16 = a /\ block_byte block 8 = b.
Proof.
  pose proof (dec4 a b zero) as H. cbv zeta in *.
  change (L4 zero) with 0%N in H. rewrite N.lor_0_r in H. tauto.
Qed.

Lemma dec2 a :
  let block := N.lor (N.shiftl (L1 a) 18) (N.shiftl (L2 a zero) 12) in
  block_byte block 16 = a.
Proof.
  pose proof (dec3 a zero) as H. cbv zeta in *.
  change (L3 zero zero) with 0%N in H. rewrite N.shiftl_0_l, N.lor_0_r in H. tauto.
Qed.

Lemma enc_length_ge s : length s <= length (enc s).
Proof.
  rewrite enc_length. pose proof (Nat.div_mod (length s) 3 ltac:(lia)).
  pose proof (Nat.mod_upper_bound (length s) 3 ltac:(lia)).
  destruct (0 <? length s mod 3) eqn:E; lia.
Qed.

(* where the text ends once the padding is dropped *)
Definition text_end (s : list ascii) : nat :=
  length s / 3 * 4 + match length s mod 3 with 1 => 2 | 2 => 3 | _ => 0 end.

Lemma rd_from_end_app {A} (p q : list A) k : k <= length q -> rd_from_end (p ++ q) k = rd_from_end q k.
Proof.
  intros H. unfold rd_from_end. rewrite app_length.
  destruct (Nat.ltb_spec (length p + length q) k); [lia|].
  destruct (Nat.ltb_spec (length q) k); [lia|].
  rewrite rd_app_r by lia. f_equal. lia.
Qed.

Lemma end_ok s : s <> [] ->
  (e2 <- rd_from_end (enc s) 2 ;;
   (if Ascii.eqb "="%char e2 then Ok (length (enc s) - 2)
    else e1 <- rd_from_end (enc s) 1 ;;
         if Ascii.eqb "="%char e1 then Ok (length (enc s) - 1) else Ok (length (enc s))))
  = Ok (text_end s).
Proof.
  unfold text_end.
  assert (NE : forall n, (n < 64)%N -> Ascii.eqb "="%char (letter n) = false).
  { intros n Hn. apply Ascii.eqb_neq. intros E. apply (proj2 (unb64_letter n Hn)). congruence. }
  induction s as [|a|a b|a b c s IH] using list_ind3; intros Hs.
  - congruence.
  - reflexivity.
  - destruct (L_bounds b zero) as (_ & _ & B3 & _).
    cbn [enc length]. unfold rd_from_end. cbn [length Nat.ltb Nat.leb Nat.sub rd nth_error bind].
    now rewrite NE by exact B3.
  - assert (D : (length (a :: b :: c :: s)) / 3 = S (length s / 3) /\ length (a :: b :: c :: s) mod 3 = length s mod 3).
    { cbn [length]. replace (S (S (S (length s)))) with (length s + 1 * 3) by lia.
      rewrite Nat.div_add, Nat.mod_add by lia. lia. }
    destruct D as [-> ->].
    destruct s as [|d s].
    + destruct (L_bounds b c) as (_ & _ & B3 & _). destruct (L_bounds c c) as (_ & _ & _ & B4).
      cbn [enc length]. unfold rd_from_end. cbn [length Nat.ltb Nat.leb Nat.sub rd nth_error bind].
      rewrite NE by exact B3. cbn [bind]. now rewrite NE by exact B4.
    + specialize (IH ltac:(discriminate)).
      pose proof (enc_length_ge (d :: s)) as G.
      assert (L4' : 4 <= length (enc (d :: s))).
      { rewrite enc_length. destruct s as [|x [|y s]]; try (cbn; lia).
        replace (length (d :: x :: y :: s)) with (length s + 1 * 3) by (cbn [length]; lia).
        rewrite Nat.div_add by lia. lia. }
      change (enc (a :: b :: c :: d :: s)) with
        ([letter (L1 a); letter (L2 a b); letter (L3 b c); letter (L4 c)] ++ enc (d :: s)).
      set (e := enc (d :: s)) in *. set (q := length (d :: s) / 3) in *.
      set (m := match length (d :: s) mod 3 with 1 => 2 | 2 => 3 | _ => 0 end) in *.
      clearbody e q m. clear D G || clear G.
      rewrite !rd_from_end_app by lia. rewrite app_length. cbn [length].
      destruct (rd_from_end e 2) as [e2| |]; cbn [bind] in *; try discriminate.
      destruct (Ascii.eqb "="%char e2).
      { injection IH as IH. f_equal. lia. }
      destruct (rd_from_end e 1) as [e1| |]; cbn [bind] in *; try discriminate.
      destruct (Ascii.eqb "="%char e1); injection IH as IH; f_equal; lia.
Qed.

Lemma unb1 a : unb64 (letter (L1 a)) = Ok (L1 a).
Proof. apply unb64_letter. apply (L_bounds a a). Qed.
Lemma unb2 a b : unb64 (letter (L2 a b)) = Ok (L2 a b).
Proof. apply unb64_letter. apply (L_bounds a b). Qed.
Lemma unb3 a b : unb64 (letter (L3 a b)) = Ok (L3 a b).
Proof. apply unb64_letter. apply (L_bounds a b). Qed.
Lemma unb4 a : unb64 (letter (L4 a)) = Ok (L4 a).
Proof. apply unb64_letter. apply (L_bounds a a). Qed.

Lemma rd_at (t p r : list ascii) x k : t = p ++ r -> nth_error r k = Some x -> rd t (length p + k) = Ok x.
Proof. intros -> H. rewrite rd_app_plus. now apply rd_nth. Qed.

Lemma text_end_div s : text_end s / 4 = length s / 3 /\
  text_end s mod 4 = match length s mod 3 with 1 => 2 | 2 => 3 | _ => 0 end /\
  3 * text_end s / 4 = length s.
Proof.
  unfold text_end. pose proof (Nat.div_mod (length s) 3 ltac:(lia)) as H.
  pose proof (Nat.mod_upper_bound (length s) 3 ltac:(lia)) as H2.
  set (q := length s / 3) in *. set (r := length s mod 3) in *. rewrite H. clearbody q r.
  destruct r as [|[|[|r]]]; try lia; (split; [|split]).
  all: try (rewrite Nat.div_add_l by lia; simpl Nat.div; lia).
  all: try (rewrite Nat.add_comm, Nat.mod_add by lia; reflexivity).
  all: lia.
Qed.

Lemma convert_base64_to_bin_ok s out : s <> [] -> length s <= length out ->
  convert_base64_to_bin (enc s) out = Ok (length s, s ++ skipn (length s) out).
Proof.
  intros Hs Hout. unfold convert_base64_to_bin.
  set (t := enc s). pose proof (end_ok s Hs) as He. fold t in He.
  destruct (rd_from_end t 2) as [e2| |]; cbn [bind] in He |- *; try discriminate.
  rewrite He. cbn [bind]. cbv zeta. clear He e2.
  destruct (text_end_div s) as (-> & Em & ->). rewrite Em.
  pose proof (Nat.div_mod (length s) 3 ltac:(lia)) as DM.
  pose proof (Nat.mod_upper_bound (length s) 3 ltac:(lia)) as MB.
  apply holds_eq.
  eapply holds_bind2 with (P := fun '(itr, o, pos) => exists p rest gap, s = p ++ rest /\ length p = pos /\
      pos = 3 * (length s / 3) /\ o = p ++ gap /\ length (enc p) = itr /\ gap = skipn pos out).
  { pose proof (for_up_rule (S := (nat * list ascii * nat)%type)
      (fun i '(itr, o, pos) => exists p rest gap, s = p ++ rest /\ length p = pos /\ pos = 3 * i /\
         o = p ++ gap /\ length (enc p) = itr /\ gap = skipn pos out)) as R.
    eapply holds_weaken; [apply R|].
    - intros k [[itr o] pos] Hk (p & rest & gap & Es & <- & Hi & -> & <- & Hg).
      assert (Hr : 3 <= length rest).
      { apply (f_equal (@length ascii)) in Es. rewrite app_length in Es. lia. }
      destruct (list_split3 rest Hr) as (a & b & c & r & ->).
      assert (Hp : length p mod 3 = 0) by (rewrite Hi, Nat.mul_comm, Nat.mod_mul; lia).
      assert (Et : t = enc p ++ enc (a :: b :: c :: r)) by (unfold t; rewrite Es; now apply enc_app3).
      cbn [enc] in Et.
      assert (R0 : rd t (length (enc p)) = Ok (letter (L1 a))) by (rewrite Et; apply rd_here).
      rewrite R0. cbn [bind]. rewrite unb1. cbn [bind].
      rewrite (rd_at _ _ _ (letter (L2 a b)) 1 Et) by reflexivity. cbn [bind]. rewrite unb2. cbn [bind].
      rewrite (rd_at _ _ _ (letter (L3 b c)) 2 Et) by reflexivity. cbn [bind]. rewrite unb3. cbn [bind].
      rewrite (rd_at _ _ _ (letter (L4 c)) 3 Et) by reflexivity. cbn [bind]. rewrite unb4. cbn [bind].
      destruct (dec4 a b c) as (-> & -> & ->).
      assert (Hgl : 3 <= length gap).
      { subst gap. rewrite skipn_length. rewrite Es in Hout.
        rewrite app_length in Hout. cbn [length] in Hout. lia. }
      destruct (list_split3 gap Hgl) as (x & y & z & g & ->).
      rewrite (put_here' p) by reflexivity. cbn [bind].
      rewrite put_here' by reflexivity. cbn [bind].
      rewrite put_here' by reflexivity. cbn [bind holds].
      exists (p ++ [a; b; c]), r, g. rewrite (enc_app3 p [a; b; c] Hp). cbn [enc].
      rewrite <- !app_assoc. cbn [app]. rewrite !app_length. cbn [length].
      split; [exact Es|]. split; [lia|]. split; [lia|]. split; [reflexivity|]. split; [reflexivity|].
      replace (length p + 3) with (3 + length p) by lia.
      rewrite <- skipn_skipn, <- Hg. reflexivity.
    - exists [], s, out. auto 10.
    - intros [[itr o] pos]. cbn [plus]. intros (p & rest & gap & H1 & H2 & H3 & H4).
      exists p, rest, gap. auto. }
  intros [[itr o] pos] (p & rest & gap & Es & <- & Hi & -> & <- & Hg).
  assert (Hp : length p mod 3 = 0) by (rewrite Hi, Nat.mul_comm, Nat.mod_mul; lia).
  assert (Hr : length rest = length s mod 3).
  { apply (f_equal (@length ascii)) in Es. rewrite app_length in Es. lia. }
  assert (Et : t = enc p ++ enc rest) by (unfold t; rewrite Es at 1; now apply enc_app3).
  assert (Hgl : length rest <= length gap).
  { subst gap. rewrite skipn_length. rewrite Es, app_length in Hout. lia. }
  assert (Hfin : forall g2, gap = firstn (length rest) gap ++ g2 ->
      p ++ rest ++ g2 = s ++ skipn (length s) out).
  { intros g2 E. rewrite Es, <- app_assoc. f_equal. f_equal.
    rewrite app_length, Nat.add_comm, <- skipn_skipn, <- Hg. rewrite E at 1.
    rewrite skipn_app. rewrite firstn_length. rewrite Nat.min_l by exact Hgl.
    rewrite skipn_all2 by (rewrite firstn_length; lia). now rewrite Nat.sub_diag. }
  rewrite <- Hr in *. destruct rest as [|a [|b [|c r]]].
  - cbn [length bind holds]. f_equal.
    specialize (Hfin gap eq_refl). cbn [app] in Hfin. exact Hfin.
  - cbn [length]. cbn [enc] in Et.
    assert (R0 : rd t (length (enc p)) = Ok (letter (L1 a))) by (rewrite Et; apply rd_here).
    rewrite R0. cbn [bind]. rewrite unb1. cbn [bind].
    rewrite (rd_at _ _ _ (letter (L2 a zero)) 1 Et) by reflexivity. cbn [bind]. rewrite unb2. cbn [bind].
    pose proof (dec2 a) as D. cbv zeta in D. rewrite D.
    destruct gap as [|x g]; [simpl in Hgl; lia|].
    rewrite (put_here' p) by reflexivity. cbn [bind holds]. f_equal.
    specialize (Hfin g eq_refl). rewrite <- Hfin, <- !app_assoc. reflexivity.
  - cbn [length]. cbn [enc] in Et.
    assert (R0 : rd t (length (enc p)) = Ok (letter (L1 a))) by (rewrite Et; apply rd_here).
    rewrite R0. cbn [bind]. rewrite unb1. cbn [bind].
    rewrite (rd_at _ _ _ (letter (L2 a b)) 1 Et) by reflexivity. cbn [bind]. rewrite unb2. cbn [bind].
    rewrite (rd_at _ _ _ (letter (L3 b zero)) 2 Et) by reflexivity. cbn [bind]. rewrite unb3. cbn [bind].
    destruct (dec3 a b) as (-> & ->).
    destruct (list_split2 gap Hgl) as (x & y & g & ->).
    rewrite (put_here' p) by reflexivity. cbn [bind].
    rewrite put_here' by reflexivity. cbn [bind holds]. f_equal.
    specialize (Hfin g eq_refl). rewrite <- Hfin, <- !app_assoc. reflexivity.
  - exfalso. simpl length in *. lia.
Qed.

Lemma base64_roundtrip s o1 o2 : s <> [] ->
  (t <- convert_bin_to_base64_str s o1 ;; convert_base64_to_bin_str t o2) = Ok s.
Proof.
  intros Hs. rewrite convert_bin_to_base64_str_ok. cbn [bind]. rewrite <- enc_is_base64.
  unfold convert_base64_to_bin_str. rewrite convert_base64_to_bin_ok; auto.
  - cbn [bind]. now rewrite resize_app.
  - rewrite resize_length. apply enc_length_ge.
Qed.

(* ---------- memory safety of the decoder on arbitrary text ---------- *)
Lemma unb64_total c : exists v, unb64 c = Ok v.
Proof.
  pose (P := fun c => match unb64 c with Ok _ => true | _ => false end).
  assert (H : P c = true) by (apply all_bytes_spec; vm_compute; reflexivity).
  unfold P in H. destruct (unb64 c); try discriminate. eauto.
Qed.

Lemma wr_len (s : list ascii) i v : i < length s -> exists s', wr s i v = Ok s' /\ length s' = length s.
Proof.
  intros H. exists (upd s i v). split; [now apply wr_ok|apply upd_length].
Qed.

Lemma put_len s i v : i < length s -> exists s', put s i v = Ok (s', S i) /\ length s' = length s.
Proof.
  intros H. destruct (wr_len s i v H) as (s' & E & L). exists s'. unfold put. rewrite E. auto.
Qed.

Lemma rd_total {A} (s : list A) i : i < length s -> exists c, rd s i = Ok c.
Proof.
  intros H. destruct (nth_error s i) as [c|] eqn:E; [|apply nth_error_None in E; lia].
  exists c. now apply rd_nth.
Qed.

Lemma base64_decode_safe s out : 2 <= length s -> length s <= length out ->
  exists n out', convert_base64_to_bin s out = Ok (n, out') /\ n <= length s /\ length out' = length out.
Proof.
  intros Hs Hout.
  assert (H : holds (convert_base64_to_bin s out) (fun '(n, o) => n <= length s /\ length o = length out)).
  2: { destruct (convert_base64_to_bin s out) as [[n o]| |]; simpl in H; try contradiction.
       exists n, o. tauto. }
  unfold convert_base64_to_bin.
  unfold rd_from_end.
  destruct (Nat.ltb_spec (length s) 2); [lia|]. destruct (Nat.ltb_spec (length s) 1); [lia|].
  destruct (rd_total s (length s - 2) ltac:(lia)) as (e2 & ->).
  destruct (rd_total s (length s - 1) ltac:(lia)) as (e1 & ->). cbn [bind].
  apply holds_bind2 with (P := fun e => e <= length s).
  { destruct (Ascii.eqb "="%char e2); [simpl; lia|]. destruct (Ascii.eqb "="%char e1); simpl; lia. }
  intros e He. cbv zeta.
  pose proof (Nat.div_mod e 4 ltac:(lia)) as DM.
  pose proof (Nat.mod_upper_bound e 4 ltac:(lia)) as MB.
  eapply holds_bind2 with (P := fun '(itr, o, pos) => itr = 4 * (e / 4) /\ pos = 3 * (e / 4) /\ length o = length out).
  { pose proof (for_up_rule (S := (nat * list ascii * nat)%type)
      (fun i '(itr, o, pos) => itr = 4 * i /\ pos = 3 * i /\ length o = length out)) as R.
    eapply holds_weaken; [apply R|].
    - intros k [[itr o] pos] Hk (-> & -> & Ho).
      destruct (rd_total s (4 * k) ltac:(lia)) as (c0 & ->).
      destruct (rd_total s (4 * k + 1) ltac:(lia)) as (c1 & ->).
      destruct (rd_total s (4 * k + 2) ltac:(lia)) as (c2 & ->).
      destruct (rd_total s (4 * k + 3) ltac:(lia)) as (c3 & ->).
      cbn [bind].
      destruct (unb64_total c0) as (v0 & ->). destruct (unb64_total c1) as (v1 & ->).
      destruct (unb64_total c2) as (v2 & ->). destruct (unb64_total c3) as (v3 & ->). cbn [bind].
      match goal with |- context [put o (3 * k) ?v] =>
        destruct (put_len o (3 * k) v ltac:(lia)) as (o1 & -> & H1) end. cbn [bind].
      match goal with |- context [put o1 (S (3 * k)) ?v] =>
        destruct (put_len o1 (S (3 * k)) v ltac:(lia)) as (o2 & -> & H2) end. cbn [bind].
      match goal with |- context [put o2 (S (S (3 * k))) ?v] =>
        destruct (put_len o2 (S (S (3 * k))) v ltac:(lia)) as (o3 & -> & H3) end. cbn [bind holds].
      lia.
    - auto.
    - intros [[itr o] pos]. auto. }
  intros [[itr o] pos] (-> & -> & Ho).
  apply holds_bind2 with (P := fun o => length o = length out).
  2: { intros o' Ho'. cbn [holds]. split; auto. lia. }
  destruct (e mod 4) as [|[|[|[|r]]]] eqn:Er; try (cbn [holds]; exact Ho).
  - destruct (rd_total s (4 * (e / 4)) ltac:(lia)) as (c0 & ->).
    destruct (rd_total s (4 * (e / 4) + 1) ltac:(lia)) as (c1 & ->). cbn [bind].
    destruct (unb64_total c0) as (v0 & ->). destruct (unb64_total c1) as (v1 & ->). cbn [bind].
    match goal with |- context [put o (3 * (e / 4)) ?v] =>
        destruct (put_len o (3 * (e / 4)) v ltac:(lia)) as (o1 & -> & H1) end. cbn [bind holds]. lia.
  - destruct (rd_total s (4 * (e / 4)) ltac:(lia)) as (c0 & ->).
    destruct (rd_total s (4 * (e / 4) + 1) ltac:(lia)) as (c1 & ->).
    destruct (rd_total s (4 * (e / 4) + 2) ltac:(lia)) as (c2 & ->). cbn [bind].
    destruct (unb64_total c0) as (v0 & ->). destruct (unb64_total c1) as (v1 & ->).
    destruct (unb64_total c2) as (v2 & ->). cbn [bind].
    match goal with |- context [put o (3 * (e / 4)) ?v] =>
        destruct (put_len o (3 * (e / 4)) v ltac:(lia)) as (o1 & -> & H1) end. cbn [bind].
    match goal with |- context [put o1 (S (3 * (e / 4))) ?v] =>
        destruct (put_len o1 (S (3 * (e / 4))) v ltac:(lia)) as (o2 & -> & H2) end. cbn [bind holds]. lia.
Qed.

Lemma base64_decode_short s out : length s < 2 -> convert_base64_to_bin s out = UB.
Proof.
  intros H. unfold convert_base64_to_bin, rd_from_end.
  destruct (Nat.ltb_spec (length s) 2); [reflexivity|lia].
Qed.

(* ---------- printable, case ---------- *)
Definition to_printable (c : ascii) : ascii := if printable c then c else "."%char.

Lemma printable_ok s : convert_to_printable_chars s = Ok (map to_printable s).
Proof.
  unfold convert_to_printable_chars. apply map_inplace_ok. intros c. apply ok_is_true.
  pose (P := fun c => ok_is (v <- lookup printable_char_table (byte c) ;; Ok (to_byte v)) (to_printable c)).
  change (P c = true). apply all_bytes_spec. vm_compute. reflexivity.
Qed.

Lemma upper_ok s : convert_to_uppercase s = Ok (map upper s).
Proof.
  unfold convert_to_uppercase. apply map_inplace_ok. intros c. apply ok_is_true.
  pose (P := fun c => ok_is (Ok (to_byte (c_toupper (byte c)))) (upper c)).
  change (P c = true). apply all_bytes_spec. vm_compute. reflexivity.
Qed.

Lemma lower_ok s : convert_to_lowercase s = Ok (map lower s).
Proof.
  unfold convert_to_lowercase. apply map_inplace_ok. intros c. apply ok_is_true.
  pose (P := fun c => ok_is (Ok (to_byte (c_tolower (byte c)))) (lower c)).
  change (P c = true). apply all_bytes_spec. vm_compute. reflexivity.
Qed.
