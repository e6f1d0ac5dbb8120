(* Exact values, integers in doubles, the decimal sink. *)
From Verif Require Import Base Num_Spec Real_Model Real_Spec Real_Proofs Real_Proofs2 Real_Proofs3 Real_Float.
From Coq Require Import ZArith QArith Qpower Qfield SpecFloat.
Local Open Scope nat_scope.

(* ---- plain texts ---- *)
Lemma plain_only s neg I F e : Forall plain_char s -> ~ sloppy_text neg I F e s.
Proof.
  intros Hp (sg & m & x & -> & _ & _ & (c & n & sg2 & zs & ds & y & f & -> & _ & _ & _ & _ & Hf & _)).
  assert (X : plain_char f).
  { eapply Forall_forall; [exact Hp|]. apply in_or_app. right. apply in_or_app. right. right. do 4 (apply in_or_app; right). left. reflexivity. }
  destruct X as [X|X]; [now apply (suffix_not_digit f)|].
  destruct Hf as [<-|[<-|[<-|[<-|[]]]]]; cbn in X; repeat (destruct X as [X|X]; [discriminate|]); auto.
Qed.
Lemma plain_word s O neg w v p : Forall plain_char s -> s = p ++ w -> ~ word_value O neg w v.
Proof.
  intros Hp -> Hw. apply Forall_app in Hp. destruct Hp as [_ Hp].
  assert (X : exists c, In c w /\ (c = "n"%char \/ c = "N"%char)).
  { destruct Hw as [([H|[H|[H|[H|[]]]]] & _)|([H|[H|[]]] & _)]; subst w;
      first [exists "n"%char; split; [cbn; tauto|auto]|exists "N"%char; split; [cbn; tauto|auto]]. }
  destruct X as (c & Hc & Hn). rewrite Forall_forall in Hp. specialize (Hp c Hc).
  destruct Hp as [X|X]; [destruct Hn; subst; unfold is_digit in X; cbn in X; lia|].
  destruct Hn; subst; cbn in X; repeat (destruct X as [X|X]; [discriminate|]); auto.
Qed.

(* ---- exact arithmetic ---- *)
Lemma exact_push ds : Forall is_digit ds -> forall d : Q, (push_all exact ds d == d * inject_Z (10 ^ Z.of_nat (length ds)) + inject_Z (dec_value ds))%Q.
Proof.
  intros H. induction ds as [|c ds IH] using rev_ind; intros d.
  - cbn. ring.
  - apply Forall_app in H. destruct H as [H Hc]. inversion Hc as [|? ? Hc1 _]; subst.
    unfold push_all. rewrite fold_left_app. cbn [fold_left]. unfold push. cbn [r_add r_mul r_of exact].
    fold (push_all exact ds d). rewrite (IH H d). rewrite app_length. cbn [length].
    unfold dec_value. rewrite fold_left_app. cbn [fold_left]. fold (dec_value ds).
    replace (Z.of_nat (length ds + 1)) with (1 + Z.of_nat (length ds))%Z by lia.
    rewrite Z.pow_add_r by lia. change (10 ^ 1)%Z with 10%Z. rewrite inject_Z_mult, inject_Z_plus, inject_Z_mult.
    replace (Z.of_N (N_of_ascii c - 48)) with (digit_val c) by (unfold is_digit in Hc1; unfold digit_val; lia).
    change (Z.of_N 10) with 10%Z. ring.
Qed.
Lemma drop_digits I : Forall is_digit I -> Forall is_digit (drop_zeros I) /\ dec_value (drop_zeros I) = dec_value I.
Proof.
  intros H. destruct (split_zeros I) as (zs & I' & -> & Hz & H0 & ->). apply Forall_app in H. split; [tauto|].
  now rewrite dec_zeros.
Qed.
Lemma exact_digits ds : Forall is_digit ds -> (digits_real exact ds == inject_Z (dec_value ds))%Q.
Proof. intros H. rewrite digits_real_push, exact_push by auto. cbn [r_of exact]. change (inject_Z (Z.of_N 0)) with 0%Q. ring. Qed.

Notation ten := (inject_Z 10).
Lemma ten_nz : ~ (ten == 0)%Q.
Proof. discriminate. Qed.
Lemma ten_pow_pos n : (inject_Z (10 ^ Z.of_nat n) == ten ^ Z.of_nat n)%Q.
Proof. rewrite Zpower_Qpower by lia. reflexivity. Qed.
Lemma ten_pow_nz e : ~ (ten ^ e == 0)%Q.
Proof. apply Qpower_not_0, ten_nz. Qed.

Lemma exact_shift (d : Q) e : (e <= 308)%Z -> (-615 <= e)%Z -> (shift_exponent exact d e == d * ten ^ e)%Q.
Proof.
  intros H H6. unfold shift_exponent, scale. cbn [real_t r_mul r_div fract10 exact].
  destruct (Z.ltb_spec e (-307)) as [Hl|Hl].
  - rewrite !ten_pow_pos. rewrite Z2Nat.id by lia. change (Z.of_nat 307) with 307%Z.
    replace e with (- (307 + (- e - 307)))%Z at 2 by lia. rewrite Qpower_opp, Qpower_plus by apply ten_nz. unfold Qdiv.
    rewrite Qinv_mult_distr. ring.
  - replace (e <=? 308)%Z with true by (symmetry; now apply Z.leb_le).
    destruct (Z.eqb_spec e 0) as [->|N]; [change (ten ^ 0)%Q with 1%Q; ring|].
    destruct (Z.ltb_spec 0 e) as [Hp|Hp].
    + rewrite ten_pow_pos, Z2Nat.id by lia. reflexivity.
    + rewrite ten_pow_pos, Z2Nat.id by lia. rewrite Qpower_opp. unfold Qdiv. rewrite Qinv_involutive. reflexivity.
Qed.

Lemma dec_app I F : dec_value (I ++ F) = (dec_value I * 10 ^ Z.of_nat (length F) + dec_value F)%Z.
Proof.
  induction F as [|c F IH] using rev_ind.
  - rewrite app_nil_r. change (dec_value []) with 0%Z. change (10 ^ Z.of_nat (length (@nil ascii)))%Z with 1%Z. lia.
  - assert (S : forall l, dec_value (l ++ [c]) = (10 * dec_value l + digit_val c)%Z) by (intros l; unfold dec_value; now rewrite fold_left_app).
    rewrite app_assoc, !S, IH, app_length. cbn [length].
    replace (Z.of_nat (length F + 1)) with (1 + Z.of_nat (length F))%Z by lia. rewrite Z.pow_add_r by lia. lia.
Qed.

Lemma exact_mantissa I F : Forall is_digit I -> Forall is_digit F -> length F <= 615 ->
  (mantissa exact I F == inject_Z (dec_value (I ++ F)) * ten ^ (- Z.of_nat (length F)))%Q.
Proof.
  intros HI HF Hl. destruct (drop_digits I HI) as [HI' Ed]. unfold mantissa. destruct F as [|f F].
  - rewrite exact_digits, Ed, app_nil_r by auto. change (ten ^ (- Z.of_nat (length (@nil ascii))))%Q with 1%Q. ring.
  - set (G := f :: F) in *. cbn [r_add exact]. rewrite exact_digits, Ed by auto. rewrite exact_shift by lia.
    rewrite exact_digits by auto. rewrite dec_app, inject_Z_plus, inject_Z_mult, ten_pow_pos.
    rewrite Qpower_opp. field. apply ten_pow_nz.
Qed.

Lemma exact_value neg I F e : Forall is_digit I -> Forall is_digit F -> length F <= 615 -> (-615 <= e <= 308)%Z ->
  exists q, number_value exact neg I F e = Finite q /\ (q == decimal neg I F e)%Q.
Proof.
  intros HI HF Hl He. eexists. split; [reflexivity|]. unfold signed, decimal.
  assert (E : (shift_exponent exact (mantissa exact I F) e == inject_Z (dec_value (I ++ F)) * ten ^ (e - Z.of_nat (length F)))%Q).
  { rewrite exact_shift by lia. rewrite exact_mantissa by auto. unfold Z.sub. rewrite Qpower_plus by apply ten_nz. ring. }
  destruct neg; cbn [r_opp exact]; rewrite E; [|reflexivity]. rewrite inject_Z_opp. ring.
Qed.

(* ---- doubles ---- *)
Lemma dec_pos ds : Forall is_digit ds -> (0 <= dec_value ds)%Z.
Proof.
  intros H. induction ds as [|c ds IH] using rev_ind; [cbn; lia|]. apply Forall_app in H. destruct H as [H Hc].
  inversion Hc as [|? ? Hc1 _]; subst. unfold dec_value. rewrite fold_left_app. cbn [fold_left]. fold (dec_value ds).
  specialize (IH H). unfold is_digit in Hc1. unfold digit_val. lia.
Qed.
Lemma double_digits ds : Forall is_digit ds -> (dec_value ds <= 2 ^ 53)%Z -> digits_real double ds = b64 (dec_value ds) 0.
Proof.
  intros H. induction ds as [|c ds IH] using rev_ind; [reflexivity|]. intros Hb. apply Forall_app in H. destruct H as [H Hc].
  inversion Hc as [|? ? Hc1 _]; subst. 
  unfold dec_value in *. rewrite fold_left_app in *. cbn [fold_left] in *. fold (dec_value ds) in *.
  assert (0 <= dec_value ds)%Z by (now apply dec_pos). 
  assert (Hd : (0 <= digit_val c <= 9)%Z) by (unfold is_digit in Hc1; unfold digit_val; lia).
  unfold digits_real. rewrite fold_left_app. cbn [fold_left]. fold (digits_real double ds). rewrite IH by (auto; lia).
  cbn [r_add r_mul r_of double]. replace (Z.of_N (N_of_ascii c - 48)) with (digit_val c) by (unfold is_digit in Hc1; unfold digit_val; lia).
  change (Z.of_N 10) with 10%Z. unfold b64. apply push_exact; lia.
Qed.
Lemma double_value neg I e : Forall is_digit I -> (dec_value I <= 2 ^ 53)%Z -> (0 <= e <= 22)%Z ->
  number_value double neg I [] e = (let v := b64 (dec_value I * 10 ^ e) 0 in if neg then SFopp v else v).
Proof.
  intros HI Hb He. unfold number_value. cbn [narrow double]. unfold mantissa. destruct (drop_digits I HI) as [HI' Ed].
  rewrite double_digits, Ed by (auto; now rewrite Ed).
  assert (E : shift_exponent double (b64 (dec_value I) 0) e = b64 (dec_value I * 10 ^ e) 0).
  { unfold shift_exponent. destruct (Z.ltb_spec e (-307)); [lia|]. destruct (Z.leb_spec e 308); [|lia]. unfold scale.
    destruct (Z.eqb_spec e 0) as [->|N]; [now rewrite Z.pow_0_r, Z.mul_1_r|]. destruct (Z.ltb_spec 0 e); [|lia].
    cbn [r_mul fract10 double]. unfold b64. rewrite Z2Nat.id by lia.
    apply mul_exact; [apply small_exact; split; [now apply dec_pos|auto]|].
    rewrite <- (Z2Nat.id e) by lia. apply power_exact. lia. }
  rewrite E. destruct neg; reflexivity.
Qed.

(* ---- the decimal sink ---- *)
Section Sink.
Variable O : reals.
Hypothesis Hmin : min_exponent10 O = (-307)%Z.

Lemma sink_digits_ok dot p ds r n d : Forall is_digit ds ->
  n = length ds \/ length ds < n /\ dot = true /\ starts (eq "."%char) r ->
  sink_digits O dot (p ++ ds ++ r) (length p) (length p + n) d = Ok (Some (length p + length ds, push_all O ds d)).
Proof.
  intros Hd Hn. apply holds_eq. unfold sink_digits.
  apply loop_rule with (I := fun st => exists a b, ds = a ++ b /\ st = (length p + length a, push_all O a d))
     (mu := fun st => length p + length ds - fst st).
  - intros st (a & b & -> & ->). rewrite app_length in Hn.
    destruct b as [|c b].
    + cbn [length] in Hn. rewrite app_nil_r in *. destruct (Nat.eqb_spec (length p + n) (length p + length a)) as [E|N]; [reflexivity|].
      destruct Hn as [Hn|(Hn & -> & Hr)]; [lia|]. destruct r as [|c r]; [destruct Hr|]. cbn in Hr. subst c.
      rewrite app_assoc, <- app_length, digit_at_other by exact dot_not_digit. cbn [bind]. rewrite rd_at. cbn [bind andb Ascii.eqb Bool.eqb holds]. reflexivity.
    + cbn [length] in Hn. destruct (Nat.eqb_spec (length p + n) (length p + length a)) as [E|N]; [lia|].
      apply Forall_app in Hd. destruct Hd as [Ha Hb]. inversion Hb as [|? ? Hc Hb1]; subst.
      replace (p ++ (a ++ c :: b) ++ r) with ((p ++ a) ++ c :: (b ++ r)) by (now rewrite <- !app_assoc).
      rewrite <- app_length, digit_at_digit by auto. cbn [bind holds]. split.
      * exists (a ++ [c]), b. split; [apply app_cons|]. f_equal; [rewrite !app_length; cbn [length]; lia|]. unfold push_all. now rewrite fold_left_app.
      * cbn [fst]. rewrite !app_length. cbn [length]. lia.
  - exists [], ds. split; auto. cbn. f_equal. lia.
  - cbn [fst]. destruct Hn; lia.
Qed.

Lemma sink_head neg sg zs y : sign_text neg sg -> (sg = [] -> ~ starts (fun c => c = "-"%char \/ c = "+"%char) (zs ++ y)) ->
  Forall (eq "0"%char) zs -> ~ starts (eq "0"%char) y -> zs ++ y <> [] ->
  forall int_size frac_size t, decimal_sink O int_size frac_size (sg ++ zs ++ y) t =
   (r <- sink_digits O true ((sg ++ zs) ++ y) (length (sg ++ zs)) (length (sg ++ zs) + min (length y) int_size) (r_of O 0) ;;
    match r with
    | None => Ok (false, t)
    | Some (itr, d) =>
        if length ((sg ++ zs) ++ y) =? itr then UB
        else
          let itr := itr + 1 in
          let n := min frac_size (length ((sg ++ zs) ++ y) - itr) in
          r <- sink_digits O false ((sg ++ zs) ++ y) itr (itr + n) (r_of O 0) ;;
          match r with
          | None => Ok (false, t)
          | Some (_, f) =>
              d <- (if n =? 0 then Ok d
                    else g <- pow10 O f (to_int (- Z.of_nat n)) ;; Ok (r_add O d g)) ;;
              Ok (true, narrow O (if neg then r_opp O d else d))
          end
    end).
Proof.
  intros Hs Hn Hz Hy Hne i f t. set (s := (sg ++ zs) ++ y).
  assert (Es : sg ++ zs ++ y = s) by (unfold s; now rewrite <- app_assoc).
  unfold decimal_sink. rewrite Es.
  assert (Hl : 0 < length (zs ++ y)) by (destruct (zs ++ y); [congruence|cbn; lia]).
  assert (Hc : exists c, rd s 0 = Ok c /\ Ascii.eqb c "-" = neg /\
     (if (Ascii.eqb c "-" || Ascii.eqb c "+") then 1 else 0) = length sg).
  { rewrite <- Es. destruct neg; cbn [sign_text] in Hs.
    - subst sg. exists "-"%char. auto.
    - destruct Hs as [->| ->].
      + destruct (zs ++ y) as [|c y']; [congruence|]. exists c. cbn [app].
        specialize (Hn eq_refl). cbn in Hn. destruct (Ascii.eqb_spec c "-"); [tauto|]. destruct (Ascii.eqb_spec c "+"); [tauto|]. auto.
      + exists "+"%char. auto. }
  destruct Hc as (c & -> & E1 & E2). cbn [bind]. cbv zeta. rewrite E2.
  replace (length s =? length sg) with false by (symmetry; apply Nat.eqb_neq; rewrite <- Es, app_length; lia).
  rewrite andb_false_r, E1. rewrite <- Es at 1. rewrite skip_zeros_ok by auto. cbn [bind].
  rewrite <- app_length. replace (length s - length (sg ++ zs)) with (length y) by (unfold s; rewrite (app_length (sg ++ zs)); lia).
  reflexivity.
Qed.

(* sign, integer digits, point, fraction digits: read as written, the fraction cut to frac_size digits *)
Lemma decimal_sink_ok neg sg I F rest int_size frac_size t : sign_text neg sg -> Forall is_digit I -> Forall is_digit F ->
  length (drop_zeros I) <= int_size -> length F <= frac_size <= 615 -> (length F < frac_size -> rest = []) ->
  decimal_sink O int_size frac_size (sg ++ I ++ "."%char :: F ++ rest) t =
    Ok (true, narrow O (signed O neg (mantissa O I F))).
Proof.
  intros Hs HI HF Hi Hf Hr.
  destruct (split_zeros I) as (zs & I' & -> & Hz & H0 & Ed). rewrite Ed in Hi.
  assert (HI' : Forall is_digit I') by (apply Forall_app in HI; tauto).
  rewrite <- app_assoc. rewrite (sink_head neg sg zs (I' ++ "."%char :: F ++ rest)); auto.
  2:{ intros _. destruct zs as [|z zs]; [|inversion Hz; subst; cbn; intros [H|H]; discriminate].
      destruct I' as [|i I']; [cbn; intros [H|H]; discriminate|]. inversion HI'; subst. cbn. now apply digit_not_sign. }
  2:{ destruct I'; [discriminate|exact H0]. }
  2:{ destruct zs; [destruct I'|]; discriminate. }
  set (p := sg ++ zs).
  rewrite sink_digits_ok; auto.
  2:{ rewrite app_length. cbn [length]. destruct (Nat.eq_dec (length I') int_size) as [E|N]; [left; lia|right].
      split; [lia|]. split; [reflexivity|]. reflexivity. }
  cbn [bind].
  replace (p ++ I' ++ "."%char :: F ++ rest) with ((p ++ I' ++ ["."%char]) ++ F ++ rest) by (now rewrite <- !app_assoc).
  set (q := p ++ I' ++ ["."%char]).
  assert (Hq : length p + length I' + 1 = length q) by (unfold q; rewrite !app_length; cbn; lia).
  replace (length (q ++ F ++ rest) =? length p + length I') with false
    by (symmetry; apply Nat.eqb_neq; rewrite (app_length q), <- Hq; lia).
  cbv zeta. rewrite Hq. replace (length (q ++ F ++ rest) - length q) with (length F + length rest) by (rewrite !app_length; lia).
  assert (Hm : min frac_size (length F + length rest) = length F).
  { destruct (Nat.eq_dec (length F) frac_size); [lia|]. rewrite Hr by lia. cbn. lia. }
  rewrite Hm. rewrite sink_digits_ok by auto. cbn [bind].
  unfold mantissa. rewrite Ed. destruct F as [|f F]; [reflexivity|].
  replace (length (f :: F) =? 0) with false by reflexivity.
  rewrite to_int_id by lia. rewrite pow10_ok by (auto; cbn [length] in *; lia). reflexivity.
Qed.
(* no point: moves past the end *)
Lemma decimal_sink_ub neg sg I int_size frac_size t : sign_text neg sg -> Forall is_digit I -> I <> [] ->
  length (drop_zeros I) <= int_size -> decimal_sink O int_size frac_size (sg ++ I) t = UB.
Proof.
  intros Hs HI Hne Hi.
  destruct (split_zeros I) as (zs & I' & -> & Hz & H0 & Ed). rewrite Ed in Hi.
  assert (HI' : Forall is_digit I') by (apply Forall_app in HI; tauto).
  rewrite (sink_head neg sg zs I'); auto.
  2:{ intros _. destruct zs as [|z zs]; [|inversion Hz; subst; cbn; intros [H|H]; discriminate].
      destruct I' as [|i I']; [cbn; auto|]. inversion HI'; subst. cbn. now apply digit_not_sign. }
  rewrite <- (app_nil_r I') at 1. rewrite sink_digits_ok; auto; [|left; lia].
  cbn [bind]. rewrite <- app_length, Nat.eqb_refl. reflexivity.
Qed.
End Sink.
