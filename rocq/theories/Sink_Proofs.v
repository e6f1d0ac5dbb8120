(* Proofs about the sinks. *)
From Verif Require Import Base Codec_Model Codec_Spec Codec_Proofs Codec_Proofs2 Codec_Props Split_Model Split_Spec Split_Proofs Parse_Model
  Parse_Spec Parse_Proofs Parse_Props Sink_Model Sink_Spec.
Local Open Scope nat_scope.

Lemma range_only_ok {A} (p : A -> bool) s : range_only_contains p s = Ok (forallb p s).
Proof.
  apply holds_eq. unfold range_only_contains.
  apply loop_rule with (I := fun itr => itr <= length s /\ forallb p (firstn itr s) = true)
    (mu := fun itr => length s - itr).
  - intros itr (Hi & Hp). destruct (Nat.eqb_spec (length s) itr) as [<-|Hne].
    + cbn [holds]. now rewrite firstn_all in Hp.
    + destruct (rd_ok s itr ltac:(lia)) as (c & E & N). rewrite E. cbn [bind].
      destruct (p c) eqn:Ec; cbn [negb holds].
      * split; [|lia]. split; [lia|]. rewrite Nat.add_1_r, (firstn_S_nth _ _ _ N), forallb_app, Hp. cbn. now rewrite Ec.
      * symmetry. apply not_true_is_false. intros H. rewrite forallb_forall in H.
        rewrite H in Ec; [discriminate|]. eapply nth_error_In; eauto.
  - split; [lia|]. reflexivity.
  - lia.
Qed.

Lemma nth_error_rev {A} (l : list A) i : i < length l -> nth_error (rev l) i = nth_error l (length l - 1 - i).
Proof.
  intros H. destruct l as [|d l']; [cbn in H; lia|]. set (l := d :: l') in *.
  rewrite (nth_error_nth' (rev l) d) by (rewrite rev_length; lia).
  rewrite (nth_error_nth' l d) by lia. rewrite rev_nth by lia. f_equal. f_equal. lia.
Qed.

Lemma reverse_bytes_ok t : reverse_bytes t = Ok (rev t).
Proof.
  apply holds_eq. unfold reverse_bytes.
  apply loop_rule with
    (I := fun '(i1, i2, u) => length u = length t /\ i1 + i2 = length t - 1 /\
       forall i, i < length t -> nth_error u i = nth_error t (if (i <? i1) || (i2 <? i) then length t - 1 - i else i))
    (mu := fun '(i1, i2, _) => i2 - i1).
  - intros [[i1 i2] u] (Hl & Hs & Hu). destruct (Nat.ltb_spec i1 i2) as [Hlt|Hge].
    + destruct (rd_ok u i1 ltac:(lia)) as (a & Ea & Na). destruct (rd_ok u i2 ltac:(lia)) as (b & Eb & Nb).
      rewrite Ea, Eb. cbn [bind]. rewrite wr_ok by lia. cbn [bind]. rewrite wr_ok by (rewrite upd_length; lia). cbn [bind holds].
      split; [|lia]. rewrite !upd_length. split; auto. split; [lia|]. intros i Hi.
      rewrite Hu in Na by lia. rewrite Hu in Nb by lia.
      destruct (Nat.ltb_spec i1 i1); [lia|]. destruct (Nat.ltb_spec i2 i1); [lia|].
      destruct (Nat.ltb_spec i2 i2); [lia|]. cbn [orb] in Na, Nb.
      destruct (Nat.eq_dec i i2) as [->|N2].
      * rewrite nth_error_upd_same by (rewrite upd_length; lia).
        destruct (Nat.ltb_spec i2 (i1 + 1)); [lia|]. destruct (Nat.ltb_spec (i2 - 1) i2); [|lia]. cbn [orb].
        rewrite <- Na. f_equal. lia.
      * rewrite nth_error_upd_other by lia. destruct (Nat.eq_dec i i1) as [->|N1].
        -- rewrite nth_error_upd_same by lia. destruct (Nat.ltb_spec i1 (i1 + 1)); [|lia]. cbn [orb].
           rewrite <- Nb. f_equal. lia.
        -- rewrite nth_error_upd_other by lia. rewrite Hu by lia. f_equal.
           destruct (Nat.ltb_spec i i1), (Nat.ltb_spec i (i1 + 1)), (Nat.ltb_spec i2 i), (Nat.ltb_spec (i2 - 1) i); cbn [orb]; try lia.
    + cbn [holds]. symmetry. apply nth_error_ext. intros i. destruct (Nat.lt_ge_cases i (length t)) as [Hi|Hi].
      * rewrite Hu, nth_error_rev by lia. f_equal.
        destruct (Nat.ltb_spec i i1), (Nat.ltb_spec i2 i); cbn [orb]; lia.
      * transitivity (@None ascii); [|symmetry]; apply nth_error_None; rewrite ?rev_length; lia.
  - split; auto. split; [lia|]. intros i Hi. destruct (Nat.ltb_spec i 0); [lia|].
    destruct (Nat.ltb_spec (length t - 1) i); [lia|]. reflexivity.
  - lia.
Qed.

(* ---------------- hexadecimal ---------------- *)
Lemma hex_check_ok c : hex_value_check c = match hex_value c with Some _ => true | None => false end.
Proof.
  pose proof (nat_ascii_bounded c) as H. rewrite <- (ascii_nat_embedding c). revert H. generalize (nat_of_ascii c). intros n H.
  assert (X : forallb (fun n => Bool.eqb (hex_value_check (ascii_of_nat n))
    (match hex_value (ascii_of_nat n) with Some _ => true | None => false end)) (seq 0 256) = true) by (vm_compute; reflexivity).
  rewrite forallb_forall in X. apply Bool.eqb_prop. apply X. apply in_seq. lia.
Qed.
Lemma hex_checks_ok d : forallb hex_value_check d = true <-> hex_text_digits d.
Proof.
  unfold hex_text_digits. rewrite forallb_forall, Forall_forall.
  split; intros H c Hc; specialize (H c Hc); rewrite hex_check_ok in *; destruct (hex_value c); congruence.
Qed.

Lemma hex_prefix_ok s d : hex_written s d -> exists o, hex_prefix s = Ok o /\ skipn o s = d /\ length s - o = length d.
Proof.
  intros [(-> & Hn)|(Hd & Hs)].
  - exists 0. split; [|split; [reflexivity|lia]]. unfold hex_prefix.
    destruct (Nat.ltb_spec 2 (length d)) as [Hl|]; [|reflexivity].
    destruct d as [|a [|b [|c d]]]; cbn [length] in Hl; try lia. cbn [rd nth_error bind].
    destruct (Ascii.eqb_spec a "0"); [|reflexivity]. cbn [andb].
    destruct (Ascii.eqb_spec b "x"), (Ascii.eqb_spec b "X"); cbn [orb]; try reflexivity; exfalso; apply Hn;
      exists (c :: d); (split; [discriminate|]); subst; cbn; auto.
  - exists 2. assert (Hl : 2 <? length s = true).
    { destruct d; [congruence|]. destruct Hs as [-> | ->]; reflexivity. }
    unfold hex_prefix. rewrite Hl. destruct Hs as [-> | ->]; (split; [reflexivity|]; split; [reflexivity|cbn; lia]).
Qed.

Definition padded (d : list ascii) : list ascii := if Nat.odd (length d) then "0"%char :: d else d.

Lemma le_rev_snoc l c : little_endian (rev (l ++ [c])) = (256 * little_endian (rev l) + N_of_ascii c)%N.
Proof. rewrite rev_app_distr. cbn [rev app little_endian]. lia. Qed.
Lemma le_zeros j t : little_endian (repeat zero j ++ t) = (256 ^ N.of_nat j * little_endian t)%N.
Proof.
  induction j as [|j IH]; [cbn [repeat app]; change (N.of_nat 0) with 0%N; rewrite N.pow_0_r; lia|].
  cbn [repeat app little_endian]. rewrite IH, Nat2N.inj_succ, N.pow_succ_r'. change (N_of_ascii zero) with 0%N. lia.
Qed.
Lemma rev_repeat {A} (x : A) n : rev (repeat x n) = repeat x n.
Proof.
  induction n as [|n IH]; [reflexivity|]. cbn [repeat rev]. rewrite IH. clear IH.
  induction n as [|n IH]; [reflexivity|]. cbn [repeat app]. now rewrite IH.
Qed.

Lemma hex_number_app a b : hex_number (a ++ b) =
  fold_left (fun v c => (16 * v + match hex_value c with Some x => x | None => 0 end)%N) b (hex_number a).
Proof. unfold hex_number. now rewrite fold_left_app. Qed.

Lemma hex_read_value c : hex_value c <> None -> hex_read c = match hex_value c with Some x => x | None => 0%N end.
Proof. unfold hex_read. destruct (hex_value c); auto. Qed.

Lemma decode_value m : forall p, length p = 2 * m -> hex_text_digits p ->
  little_endian (rev (hex_decode p)) = hex_number p.
Proof.
  assert (G : forall m p acc pre, length p = 2 * m -> hex_text_digits p -> little_endian (rev pre) = acc ->
    little_endian (rev (pre ++ hex_decode p)) =
    fold_left (fun v c => (16 * v + match hex_value c with Some x => x | None => 0 end)%N) p acc).
  { clear m. induction m as [|m IH]; intros p acc pre Hl Hd Ha.
    - destruct p; [|cbn in Hl; lia]. cbn. now rewrite app_nil_r.
    - destruct p as [|a [|b p]]; cbn [length] in Hl; try lia. inversion Hd as [|? ? H1 Hd1]; subst.
      inversion Hd1 as [|? ? H2 Hd2]; subst. cbn [hex_decode fold_left].
      replace (pre ++ ascii_of_N (16 * hex_read a + hex_read b) :: hex_decode p)
        with ((pre ++ [ascii_of_N (16 * hex_read a + hex_read b)]) ++ hex_decode p) by (now rewrite <- app_assoc).
      apply IH; [lia|exact Hd2|]. rewrite le_rev_snoc.
      pose proof (proj2 (hex_to_bin_ok a)). pose proof (proj2 (hex_to_bin_ok b)).
      rewrite N_ascii_embedding by lia. rewrite (hex_read_value a H1), (hex_read_value b H2). lia. }
  intros p Hl Hd. specialize (G m p 0%N [] Hl Hd eq_refl). exact G.
Qed.

Lemma padded_number d : hex_number (padded d) = hex_number d.
Proof. unfold padded. destruct (Nat.odd (length d)); reflexivity. Qed.
Lemma padded_length d : length (padded d) = 2 * ((length d + 1) / 2).
Proof.
  unfold padded. destruct (Nat.odd (length d)) eqn:E.
  - apply Nat.odd_spec in E. destruct E as (m & E). cbn [length]. rewrite E.
    replace (2 * m + 1 + 1) with ((m + 1) * 2) by lia. rewrite Nat.div_mul by lia. lia.
  - assert (Ev : Nat.even (length d) = true) by (rewrite <- Nat.negb_odd, E; reflexivity).
    apply Nat.even_spec in Ev. destruct Ev as (m & Ev). rewrite Ev.
    replace (2 * m + 1) with (1 + m * 2) by lia. rewrite Nat.div_add by lia. cbn. lia.
Qed.
Lemma padded_digits d : hex_text_digits d -> hex_text_digits (padded d).
Proof. unfold padded. intros H. destruct (Nat.odd (length d)); auto. constructor; auto. discriminate. Qed.

Lemma hex_number_ok s d valid t : hex_written s d -> t <> [] ->
  (2 * length t < length d -> hex_to_number s valid t = Ok (valid, t)) /\
  (length d <= 2 * length t -> ~ hex_text_digits d -> hex_to_number s valid t = Ok (false, t)) /\
  (d = [] -> hex_to_number s valid t = Ok (false, repeat zero (length t))) /\
  (0 < length d <= 2 * length t -> hex_text_digits d ->
     exists t', hex_to_number s valid t = Ok (true, t') /\ length t' = length t /\
       little_endian t' = (hex_number d * 256 ^ N.of_nat (length t - (length d + 1) / 2))%N).
Proof.
  intros Hw Ht. destruct (hex_prefix_ok s d Hw) as (o & E & Ed & El).
  assert (HW : 1 <= length t) by (destruct t; [congruence|cbn; lia]).
  unfold hex_to_number. rewrite E. cbn [bind]. rewrite El, Ed. cbv zeta.
  split; [|split; [|split]].
  - intros H. destruct (Nat.ltb_spec (2 * length t) (length d)); [reflexivity|lia].
  - intros H Hn. destruct (Nat.ltb_spec (2 * length t) (length d)); [lia|]. rewrite range_only_ok. cbn [bind].
    destruct (forallb hex_value_check d) eqn:F; [exfalso; apply Hn; now apply hex_checks_ok|]. reflexivity.
  - intros ->. cbn [length]. destruct (Nat.ltb_spec (2 * length t) 0); [lia|]. rewrite range_only_ok. cbn [forallb bind negb].
    unfold copy_into. cbn [length Nat.add]. change (0 mod 2) with 0.
    destruct (Nat.leb_spec (0 + 0) (length (firstn (2 * length t) ("0"%char :: repeat zero (2 * length t - 1))))); [|lia].
    cbn [firstn app skipn bind Nat.add]. unfold convert_hex_to_bin. cbn [length Nat.eqb bind].
    rewrite reverse_bytes_ok, rev_repeat. reflexivity.
  - intros Hl Hd. destruct (Nat.ltb_spec (2 * length t) (length d)); [lia|]. rewrite range_only_ok.
    rewrite (proj2 (hex_checks_ok d) Hd). cbn [bind negb].
    set (buffer := firstn (2 * length t) ("0"%char :: repeat zero (2 * length t - 1))).
    assert (Hb : buffer = "0"%char :: repeat zero (2 * length t - 1)).
    { unfold buffer. apply firstn_all2. cbn [length]. rewrite repeat_length. lia. }
    assert (Hm : length d mod 2 = if Nat.odd (length d) then 1 else 0).
    { pose proof (Nat.div_mod (length d) 2 ltac:(lia)) as DM. pose proof (Nat.mod_upper_bound (length d) 2 ltac:(lia)) as MB.
      destruct (Nat.odd (length d)) eqn:O.
      - apply Nat.odd_spec in O. destruct O as (q & O). lia.
      - assert (Ev : Nat.even (length d) = true) by (rewrite <- Nat.negb_odd, O; reflexivity).
        apply Nat.even_spec in Ev. destruct Ev as (q & Ev). lia. }
    assert (Hbl : length buffer = 2 * length t) by (rewrite Hb; cbn [length]; rewrite repeat_length; lia).
    pose proof (padded_length d) as Hpl.
    assert (Hpl2 : length (padded d) = length d + length d mod 2).
    { rewrite Hm. unfold padded. destruct (Nat.odd (length d)); cbn [length]; lia. }
    assert (Hple : length (padded d) <= 2 * length t).
    { assert (length d <> 2 * length t \/ Nat.odd (length d) = false).
      { destruct (Nat.eq_dec (length d) (2 * length t)) as [X|]; auto. right. rewrite X. now rewrite Nat.odd_mul. }
      rewrite Hpl2, Hm. destruct (Nat.odd (length d)); [|lia]. destruct H0; [|discriminate]. lia. }
    unfold copy_into. destruct (Nat.leb_spec (length d mod 2 + length d) (length buffer)); [|lia]. cbn [bind].
    assert (Hf : firstn (length d + length d mod 2) (firstn (length d mod 2) buffer ++ d ++ skipn (length d mod 2 + length d) buffer) = padded d).
    { rewrite app_assoc. replace (firstn (length d mod 2) buffer ++ d) with (padded d).
      - rewrite <- Hpl2. apply firstn_app_len.
      - rewrite Hm, Hb. unfold padded. destruct (Nat.odd (length d)); reflexivity. }
    rewrite Hf. rewrite (convert_hex_to_bin_ok (padded d) _ ((length d + 1) / 2)); auto.
    + cbn [bind]. rewrite reverse_bytes_ok. cbn [bind]. eexists. split; [reflexivity|].
      assert (Hz : skipn ((length d + 1) / 2) (repeat zero (length t)) = repeat zero (length t - (length d + 1) / 2)).
      { replace (length t) with ((length d + 1) / 2 + (length t - (length d + 1) / 2)) at 1 by lia.
        rewrite repeat_app. rewrite <- (repeat_length zero ((length d + 1) / 2)) at 1. apply skipn_app_len. }
      rewrite Hz. split.
      * rewrite rev_length, app_length, repeat_length, (hex_decode_length _ _ Hpl). lia.
      * rewrite rev_app_distr, rev_repeat, le_zeros, (decode_value _ _ Hpl (padded_digits _ Hd)), padded_number. lia.
    + intros X. rewrite X in Hpl2. cbn in Hpl2. lia.
    + rewrite repeat_length. lia.
Qed.

(* every text is written in exactly one way *)
Lemma hex_written_exists s : exists d, hex_written s d.
Proof.
  destruct s as [|a [|b [|c r]]]; try (eexists; left; split; [reflexivity|intros (e & He & [H|H]); discriminate H]).
  - exists [a; b]. left. split; [reflexivity|]. intros (e & He & [H|H]); destruct e; try congruence; discriminate H.
  - destruct (ascii_dec a "0") as [->|Na]; [destruct (ascii_dec b "x") as [->|Nx]; [|destruct (ascii_dec b "X") as [->|NX]]|].
    + exists (c :: r). right. split; [discriminate|]. now left.
    + exists (c :: r). right. split; [discriminate|]. now right.
    + eexists. left. split; [reflexivity|]. intros (e & He & [H|H]); injection H; congruence.
    + eexists. left. split; [reflexivity|]. intros (e & He & [H|H]); injection H; congruence.
Qed.

(* ---------------- hex_to_string ---------------- *)
Lemma hex_string_ok s d out : hex_written s d ->
  (length d < 2 -> hex_to_string s out = Ok (false, out)) /\
  (2 <= length d -> length d mod 2 = 1 -> hex_to_string s out = Ok (false, resize out (length d / 2))) /\
  (2 <= length d -> length d mod 2 = 0 -> hex_to_string s out = Ok (true, hex_decode d)).
Proof.
  intros Hw. destruct (hex_prefix_ok s d Hw) as (o & E & Ed & El). unfold hex_to_string. rewrite E. cbn [bind]. rewrite El, Ed.
  split; [|split]; intros H; destruct (Nat.ltb_spec (length d) 2); try lia; auto.
  - intros Hm. unfold convert_hex_to_bin. rewrite Hm. destruct (Nat.eqb_spec (length d) 0); [lia|]. reflexivity.
  - intros Hm. assert (Hl : length d = 2 * (length d / 2)) by (pose proof (Nat.div_mod (length d) 2 ltac:(lia)); lia).
    assert (Hr : length (resize out (length d / 2)) = length d / 2).
    { unfold resize. rewrite app_length, firstn_length, repeat_length. lia. }
    rewrite (convert_hex_to_bin_ok d _ (length d / 2)); auto.
    + rewrite skipn_all2 by lia. now rewrite app_nil_r.
    + intros ->. cbn in H. lia.
    + lia.
Qed.

(* ---------------- truncated_int ---------------- *)
Lemma truncated_unknown {T} (conv : converter T) a r t : ~ In "."%char a -> (r = [] \/ exists b, r = "."%char :: b) ->
  truncated_int conv None (a ++ r) t = conv a t.
Proof.
  intros Ha Hr. unfold truncated_int.
  assert (E : holds (loop (S (length (a ++ r)))
        (fun itr =>
           if length (a ++ r) =? itr then Ok (inr itr)
           else c <- rd (a ++ r) itr ;; if Ascii.eqb c "." then Ok (inr itr) else Ok (inl (itr + 1))) 0) (fun n => n = length a)).
  { apply loop_rule with (I := fun itr => itr <= length a) (mu := fun itr => length (a ++ r) - itr).
    - intros itr Hi. rewrite app_length. destruct (Nat.eqb_spec (length a + length r) itr) as [He|Hne]; cbn [holds]; [lia|].
      destruct (Nat.lt_ge_cases itr (length a)) as [Hlt|Hge].
      + rewrite rd_app_l by lia. destruct (rd_ok a itr Hlt) as (c & E & N). rewrite E. cbn [bind].
        destruct (Ascii.eqb_spec c "."); cbn [holds]; [|lia]. subst c. exfalso. apply Ha. eapply nth_error_In; eauto.
      + assert (itr = length a) by lia. subst itr. destruct Hr as [->|(b & ->)]; [cbn in Hne; lia|].
        rewrite rd_here. cbn [bind]. reflexivity.
    - lia.
    - lia. }
  apply holds_ex in E. destruct E as (n & -> & ->). cbn [bind]. now rewrite firstn_app_len.
Qed.

Lemma groups6_in n : forall l g, length l <= n -> In g (groups6 l) -> length g = 6.
Proof.
  induction n as [|n IH]; intros l g Hl Hg.
  - destruct l; [destruct Hg|cbn in Hl; lia].
  - destruct l as [|a [|b [|c [|d [|e [|f l]]]]]]; try (destruct Hg; fail). cbn [groups6] in Hg. destruct Hg as [<-|Hg]; [reflexivity|].
    apply (IH l); auto. cbn [length] in Hl. lia.
Qed.
Lemma base64_number_ok bs valid t : bs <> [] -> length bs <= length t ->
  base64_to_number (base64_text bs) valid t = Ok (valid, rev (bs ++ repeat zero (length t - length bs))).
Proof.
  intros Hb Hl. unfold base64_to_number. rewrite range_only_ok. cbn [bind].
  assert (F : forallb base64_value_check (base64_text bs) = true).
  { apply forallb_forall. intros c Hc. unfold base64_text in Hc. apply in_app_or in Hc. destruct Hc as [Hc|Hc].
    - apply in_map_iff in Hc. destruct Hc as (g & <- & Hg).
      assert (Y : forallb base64_value_check b64_alphabet = true) by (vm_compute; reflexivity).
      rewrite forallb_forall in Y. apply Y. apply nth_In.
      apply (groups6_in _ _ _ (le_n _)) in Hg. change (length b64_alphabet) with 64.
      destruct g as [|a [|b [|c [|d [|e [|f [|h g]]]]]]]; try discriminate. unfold bits_value. cbn [fold_left].
      apply Nat.ltb_lt. destruct a, b, c, d, e, f; reflexivity.
    - apply repeat_spec in Hc. subst c. reflexivity. }
  rewrite F. cbn [negb].
  rewrite <- (enc_is_base64 bs). rewrite convert_base64_to_bin_ok by (auto; rewrite repeat_length; lia). cbn [bind].
  rewrite reverse_bytes_ok. cbn [bind]. f_equal. f_equal. f_equal. f_equal.
  replace (length t) with (length bs + (length t - length bs)) at 1 by lia. rewrite repeat_app.
  rewrite <- (repeat_length zero (length bs)) at 1. apply skipn_app_len.
Qed.
