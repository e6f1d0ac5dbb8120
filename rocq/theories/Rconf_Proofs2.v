(* Proofs: the digit table read outside its bounds. *)
From Verif Require Import Base Num_Spec Real_Model Real_Spec Real_Proofs Rconf_Model Rconf_Proofs.
From Coq Require Import ZArith.
Local Open Scope nat_scope.

Lemma high_no_digit c : (128 <= code c)%N -> ~ is_digit c.
Proof. unfold code, is_digit. lia. Qed.
Lemma zeros_digits I x : Forall is_digit I -> ~ starts is_digit x -> exists zs ds, I = zs ++ ds /\ Forall (eq "0"%char) zs /\ Forall is_digit ds /\ ~ starts (eq "0"%char) (ds ++ x).
Proof.
  intros HI Hx. destruct (span_ex (eq "0"%char) (ascii_dec_eq "0"%char) I) as (zs & ds & -> & Hz & Hd).
  exists zs, ds. apply Forall_app in HI as [_ HI]. repeat split; auto. destruct ds as [|c ds]; [|exact Hd]. cbn [app].
  destruct x as [|c x]; [auto|]. cbn in *. intros <-. apply Hx. exact dig_zero.
Qed.
Lemma digit_no_sign c : is_digit c \/ (128 <= code c)%N -> Ascii.eqb c "-" = false /\ Ascii.eqb c "+" = false /\ Ascii.eqb c "." = false.
Proof.
  intros H. repeat split; (destruct (Ascii.eqb_spec c "-"), (Ascii.eqb_spec c "+"), (Ascii.eqb_spec c "."); try reflexivity; subst c; unfold is_digit in H; cbn in H; lia).
Qed.

Section Parser.
Variable O : reals.
Variable k : config.
Hypothesis Lut : use_lut k = true.
Hypothesis Sgn : signed_char k = true.

Lemma look_outside c p r : (128 <= code c)%N -> look k (p ++ c :: r) (length p) = UB.
Proof.
  intros H. unfold look, table_at. rewrite Lut, Sgn, rd_at. cbn [bind]. unfold as_int. cbn [andb].
  destruct (N.leb_spec 128 (code c)); [|lia]. assert (Hb : (code c < 256)%N) by apply N_ascii_bounded.
  destruct (Z.ltb_spec (Z.of_N (code c) - 256) 0); [reflexivity|lia].
Qed.

Lemma k_parse_digits_ub n p ds c r d : Forall is_digit ds -> (128 <= code c)%N ->
  k_parse_digits O k n (p ++ ds ++ c :: r) (length p) d = UB.
Proof.
  intros Hd Hc. unfold k_parse_digits. set (s := p ++ ds ++ c :: r).
  set (I := fun (m : nat) (st : nat * real_t O) => exists a b x, ds = a ++ b /\ st = (length p + length a, x) /\ length b = m).
  assert (Bound : forall m st, I m st -> fst st < length s).
  { intros m st (a & b & x & Hab & -> & _). cbn [fst]. unfold s. rewrite Hab, !app_length. cbn [length]. lia. }
  assert (Step : forall to_end m st, I m st -> k_parse_digit O k to_end s st = UB \/
    exists m' st', m = S m' /\ k_parse_digit O k to_end s st = Ok (inl st') /\ I m' st').
  { intros to_end m st (a & b & x & Hab & -> & Hb). unfold k_parse_digit. rewrite <- app_length. destruct b as [|c' b].
    - left. rewrite app_nil_r in Hab. subst a. unfold s. rewrite app_assoc, look_outside by assumption. reflexivity.
    - right. cbn [length] in Hb. assert (Hc' : is_digit c') by (eapply Forall_forall; [exact Hd|subst ds; apply in_or_app; right; left; reflexivity]).
      assert (Es : s = (p ++ a) ++ c' :: (b ++ c :: r)) by (unfold s; rewrite Hab, <- !app_assoc; reflexivity).
      assert (Ed : look k s (length (p ++ a)) = Ok (Some (code c' - 48)%N)).
      { rewrite Es, look_here; [now apply digit_at_digit|]. right. right. destruct Hc'. unfold code. lia. }
      rewrite Ed. cbn [bind]. replace (length s =? length (p ++ a) + 1) with false
        by (symmetry; apply Nat.eqb_neq; rewrite Es, !app_length; cbn [length]; rewrite app_length; cbn [length]; lia).
      rewrite Bool.andb_false_r. exists (length b). eexists. split; [now rewrite Hb|]. split; [reflexivity|].
      exists (a ++ [c']), b. eexists. split; [now rewrite <- app_assoc|]. split; [|reflexivity]. f_equal. rewrite !app_length. cbn [length]. lia. }
  assert (Body : forall n m st, I m st -> k_body O k n s st = UB \/ exists m' st', m' < m /\ k_body O k n s st = Ok (inl st') /\ I m' st').
  { induction n0 as [|n0 IH]; intros m st HI; cbn [k_body].
    - destruct (Step false m st HI) as [->|(m' & st' & -> & -> & HI')]; [auto|]. right. exists m', st'. repeat split; auto.
    - destruct (Step true m st HI) as [->|(m' & st' & -> & -> & HI')]; [auto|]. cbn [bind].
      destruct (IH m' st' HI') as [->|(m2 & st2 & L & -> & HI2)]; [auto|]. right. exists m2, st2. repeat split; auto. }
  assert (Loop : forall fuel m st, I m st -> m < fuel -> loop fuel (fun st => if length s =? fst st then Ok (inr st) else k_body O k n s st) st = UB).
  { induction fuel as [|fuel IH]; intros m st HI Hm; [lia|]. cbn [loop]. pose proof (Bound m st HI).
    destruct (Nat.eqb_spec (length s) (fst st)); [lia|].
    destruct (Body n m st HI) as [->|(m' & st' & L & -> & HI')]; [reflexivity|]. apply (IH m'); [assumption|lia]. }
  apply (Loop _ (length ds)).
  - exists [], ds, d. cbn. repeat split. f_equal. lia.
  - unfold s. rewrite !app_length. cbn [length]. lia.
Qed.

(* leading zeros and digits *)


(* behind the sign *)
Lemma k_start_ub neg sg I c r t : sign_text neg sg -> Forall is_digit I -> (128 <= code c)%N -> k_parse_real O k (sg ++ I ++ c :: r) t = UB.
Proof.
  intros Hs HI Hc. set (s := sg ++ I ++ c :: r).
  destruct (zeros_digits I (c :: r) HI (high_no_digit c Hc)) as (zs & ds & E & Hz & Hd & Hn).
  assert (Hf : exists c1 y, I ++ c :: r = c1 :: y /\ (is_digit c1 \/ (128 <= code c1)%N)).
  { destruct I as [|c1 I]; [exists c, r|exists c1, (I ++ c :: r)]; split; auto. left. now inversion HI. }
  destruct Hf as (c1 & y & Ey & H1). destruct (digit_no_sign c1 H1) as (N1 & N2 & N3).
  assert (Es : s = sg ++ c1 :: y) by (unfold s; now rewrite Ey).
  assert (Ez : skip_zeros s (length sg) = Ok (length sg + length zs)).
  { unfold s. rewrite E, <- app_assoc. now apply skip_zeros_ok. }
  assert (Ed : forall d, k_parse_digits O k (int_ones k) s (length sg + length zs) d = UB).
  { intros d. unfold s. rewrite E, <- app_assoc, app_assoc, <- app_length. now apply k_parse_digits_ub. }
  assert (Hl : length s = length sg + S (length y)) by (rewrite Es, app_length; reflexivity).
  unfold k_parse_real. rewrite Hl. destruct (Nat.eqb_spec (length sg + S (length y)) 0); [lia|].
  destruct neg; cbn [sign_text] in Hs.
  - subst sg. replace (rd s 0) with (Ok "-"%char) by (rewrite Es; reflexivity). cbn [bind Ascii.eqb Bool.eqb orb andb].
    change (length ["-"%char]) with 1 in *. destruct (Nat.eqb_spec (1 + S (length y)) 1); [lia|].
    replace (rd s 1) with (Ok c1) by (rewrite Es; reflexivity). cbn [bind]. rewrite N3, Ez. cbn [bind]. now rewrite Ed.
  - destruct Hs as [->| ->].
    + replace (rd s 0) with (Ok c1) by (rewrite Es; reflexivity). cbn [bind]. rewrite N1, N2. cbn [orb andb].
      replace (rd s 0) with (Ok c1) by (rewrite Es; reflexivity). cbn [bind]. rewrite N3. cbn [length] in *. rewrite Ez. cbn [bind]. now rewrite Ed.
    + replace (rd s 0) with (Ok "+"%char) by (rewrite Es; reflexivity). cbn [bind Ascii.eqb Bool.eqb orb andb].
      change (length ["+"%char]) with 1 in *. destruct (Nat.eqb_spec (1 + S (length y)) 1); [lia|].
      replace (rd s 1) with (Ok c1) by (rewrite Es; reflexivity). cbn [bind]. rewrite N3, Ez. cbn [bind]. now rewrite Ed.
Qed.
End Parser.

(* without the table such a text is refused *)
Lemma start_refused O neg sg I c r t : sign_text neg sg -> Forall is_digit I -> (128 <= code c)%N -> parse_real O (sg ++ I ++ c :: r) t = Ok (false, t).
Proof.
  intros Hs HI Hc. set (s := sg ++ I ++ c :: r).
  destruct (zeros_digits I (c :: r) HI (high_no_digit c Hc)) as (zs & ds & E & Hz & Hd & Hn).
  assert (Hf : exists c1 y, I ++ c :: r = c1 :: y /\ (is_digit c1 \/ (128 <= code c1)%N)).
  { destruct I as [|c1 I]; [exists c, r|exists c1, (I ++ c :: r)]; split; auto. left. now inversion HI. }
  destruct Hf as (c1 & y & Ey & H1). destruct (digit_no_sign c1 H1) as (N1 & N2 & N3).
  assert (Es : s = sg ++ c1 :: y) by (unfold s; now rewrite Ey).
  assert (Ez : skip_zeros s (length sg) = Ok (length sg + length zs)).
  { unfold s. rewrite E, <- app_assoc. now apply skip_zeros_ok. }
  set (e := length (sg ++ I)).
  assert (Ed : forall d, parse_digits O s (length sg + length zs) d = Ok (e, push_all O ds d)).
  { intros d. unfold s, e. rewrite E. rewrite <- (app_assoc zs), app_assoc, <- app_length. rewrite parse_digits_ok; [|assumption|now apply high_no_digit].
    f_equal. f_equal. rewrite !app_length. lia. }
  assert (Hl : length s = length sg + S (length y)) by (rewrite Es, app_length; reflexivity).
  assert (He : length s <> e) by (unfold s, e; rewrite !app_length; cbn [length]; lia).
  assert (Er : rd s e = Ok c) by (unfold s, e; rewrite app_assoc; apply rd_at).
  assert (Nc : forall x, (code x < 128)%N -> Ascii.eqb c x = false) by (intros x Hx; destruct (Ascii.eqb_spec c x); [subst; lia|reflexivity]).
  assert (Et : parse_tail O s e neg = Ok (inr None)).
  { unfold parse_tail. destruct (Nat.eqb_spec (length s) e); [lia|]. rewrite Er. cbn [bind]. rewrite !Nc by (cbn; lia). cbn [orb bind].
    destruct (Nat.eqb_spec (length s) e); [lia|]. unfold is_suffix. rewrite !Nc by (cbn; lia). cbn [orb].
    unfold parse_word. rewrite Er. cbn [bind]. destruct (N.leb_spec (code c) 110); [lia|]. now rewrite Bool.andb_false_r. }
  unfold parse_real. destruct (Nat.eqb_spec (length s) 0); [lia|].
  destruct neg; cbn [sign_text] in Hs.
  - subst sg. replace (rd s 0) with (Ok "-"%char) by (rewrite Es; reflexivity). cbn [bind Ascii.eqb Bool.eqb orb andb].
    change (length ["-"%char]) with 1 in *. destruct (Nat.eqb_spec (length s) 1); [lia|].
    replace (rd s 1) with (Ok c1) by (rewrite Es; reflexivity). cbn [bind]. rewrite N3, Ez. cbn [bind]. rewrite Ed. cbn [bind].
    destruct (Nat.eqb_spec (length s) e); [lia|]. rewrite Er. cbn [bind]. rewrite Nc by (cbn; lia). cbn [bind]. now rewrite Et.
  - destruct Hs as [->| ->].
    + replace (rd s 0) with (Ok c1) by (rewrite Es; reflexivity). cbn [bind]. rewrite N1, N2. cbn [orb andb].
      replace (rd s 0) with (Ok c1) by (rewrite Es; reflexivity). cbn [bind]. rewrite N3. cbn [length] in *. rewrite Ez. cbn [bind]. rewrite Ed. cbn [bind].
      destruct (Nat.eqb_spec (length s) e); [lia|]. rewrite Er. cbn [bind]. rewrite Nc by (cbn; lia). cbn [bind]. now rewrite Et.
    + replace (rd s 0) with (Ok "+"%char) by (rewrite Es; reflexivity). cbn [bind Ascii.eqb Bool.eqb orb andb].
      change (length ["+"%char]) with 1 in *. destruct (Nat.eqb_spec (length s) 1); [lia|].
      replace (rd s 1) with (Ok c1) by (rewrite Es; reflexivity). cbn [bind]. rewrite N3, Ez. cbn [bind]. rewrite Ed. cbn [bind].
      destruct (Nat.eqb_spec (length s) e); [lia|]. rewrite Er. cbn [bind]. rewrite Nc by (cbn; lia). cbn [bind]. now rewrite Et.
Qed.
