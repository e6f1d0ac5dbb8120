(* Proofs: the macros of the floating point parser. *)
From Verif Require Import Base Num_Spec Real_Model Real_Spec Real_Proofs Rconf_Model.
From Coq Require Import ZArith.
Local Open Scope nat_scope.

Lemma table_digit c : is_digit c -> rd digit_table (N.to_nat (code c)) = Ok (code c - 48)%N.
Proof.
  intros [H1 H2]. unfold code. revert H1 H2. generalize (N_of_ascii c). intros n H1 H2.
  assert (n = 48 \/ n = 49 \/ n = 50 \/ n = 51 \/ n = 52 \/ n = 53 \/ n = 54 \/ n = 55 \/ n = 56 \/ n = 57)%N as H by lia.
  repeat (destruct H as [->|H]; [reflexivity|]). now subst.
Qed.
Lemma table_other c : ~ is_digit c -> rd digit_table (N.to_nat (code c)) = Ok 255%N.
Proof.
  intros H. assert (Hb : (code c < 256)%N) by apply N_ascii_bounded.
  assert (Hd : (code c < 48)%N \/ (57 < code c)%N) by (unfold is_digit, code in *; lia).
  apply rd_nth. unfold digit_table. destruct Hd as [Hd|Hd].
  - rewrite nth_error_app1 by (rewrite repeat_length; lia). apply nth_error_repeat. lia.
  - rewrite nth_error_app2 by (rewrite repeat_length; lia). rewrite repeat_length.
    rewrite nth_error_app2 by (cbn [length]; lia). apply nth_error_repeat. cbn [length]. lia.
Qed.

(* bytes the table is read at *)
Definition in_table (k : config) (c : ascii) : Prop := use_lut k = false \/ signed_char k = false \/ (code c < 128)%N.

Lemma look_here k c p r : in_table k c -> look k (p ++ c :: r) (length p) = digit_at (p ++ c :: r) (length p).
Proof.
  intros H. unfold look. destruct (use_lut k) eqn:El; [|reflexivity].
  assert (Hi : as_int (signed_char k) c = Z.of_N (code c)).
  { unfold as_int. destruct (signed_char k) eqn:Es; [|reflexivity].
    destruct H as [H|[H|H]]; [congruence|congruence|]. destruct (N.leb_spec 128 (code c)); [lia|reflexivity]. }
  unfold table_at. rewrite rd_at. cbn [bind]. rewrite Hi.
  destruct (Z.ltb_spec (Z.of_N (code c)) 0); [lia|]. replace (Z.to_nat (Z.of_N (code c))) with (N.to_nat (code c)) by lia.
  destruct (is_digit_dec c) as [Hd|Hd].
  - rewrite (table_digit c Hd), digit_at_digit by assumption. cbn [bind].
    destruct Hd as [H1 H2]. destruct (N.ltb_spec (code c - 48) 10); [reflexivity|unfold code in *; lia].
  - rewrite (table_other c Hd), digit_at_other by assumption. reflexivity.
Qed.
Lemma look_beyond k s i : length s <= i -> look k s i = UB /\ digit_at s i = UB.
Proof.
  intros H. assert (E : rd s i = UB) by (unfold rd; now rewrite (proj2 (nth_error_None s i) H)).
  unfold look, table_at, digit_at. destruct (use_lut k); rewrite E; auto.
Qed.
Lemma look_same k s i : Forall (in_table k) s -> look k s i = digit_at s i.
Proof.
  intros H. destruct (Nat.lt_ge_cases i (length s)) as [Hi|Hi].
  - destruct (nth_error s i) as [c|] eqn:E; [|apply nth_error_None in E; lia].
    apply nth_error_split in E as (p & r & -> & <-). apply look_here. eapply Forall_forall; [exact H|]. apply in_or_app. right. now left.
  - now destruct (look_beyond k s i Hi) as [-> ->].
Qed.

Section Parser.
Variable O : reals.
Variable k : config.

(* a digit loop of any length over digits ds, up to a byte that the table may be read at *)
Lemma k_parse_digits_ok n p ds r d : Forall is_digit ds -> (forall c r', r = c :: r' -> ~ is_digit c /\ in_table k c) ->
  k_parse_digits O k n (p ++ ds ++ r) (length p) d = Ok (length p + length ds, push_all O ds d).
Proof.
  intros Hz Hr. apply holds_eq. unfold k_parse_digits. set (s := p ++ ds ++ r).
  set (I := fun st : nat * real_t O => exists a b, ds = a ++ b /\ st = (length p + length a, push_all O a d)).
  set (E := (length p + length ds, push_all O ds d)).
  assert (Step : forall to_end st, I st -> fst st <> length s -> exists st',
    k_parse_digit O k to_end s st = Ok (inr E) \/
    (k_parse_digit O k to_end s st = Ok (inl st') /\ I st' /\ fst st' = fst st + 1 /\ (to_end = true -> fst st' <> length s))).
  { intros to_end st (a & b & Hab & ->) Hne. cbn [fst] in Hne. unfold k_parse_digit.
    destruct b as [|c b].
    - rewrite app_nil_r in Hab. subst a. exists E. left. destruct r as [|c r].
      { exfalso. apply Hne. unfold s. rewrite app_nil_r, app_length. lia. }
      destruct (Hr c r eq_refl) as [Hc Ht].
      unfold s. rewrite app_assoc, <- app_length. rewrite look_here, digit_at_other by assumption. cbn [bind].
      unfold E. now rewrite app_length.
    - assert (Hc : is_digit c) by (eapply Forall_forall; [exact Hz|subst ds; apply in_or_app; right; left; reflexivity]).
      assert (Es : s = (p ++ a) ++ c :: (b ++ r)) by (unfold s; rewrite Hab, <- !app_assoc; reflexivity).
      assert (Ed : look k s (length (p ++ a)) = Ok (Some (code c - 48)%N)).
      { rewrite Es, look_here; [now apply digit_at_digit|]. right. right. destruct Hc. unfold code. lia. }
      rewrite <- app_length, Ed. cbn [bind].
      assert (HI : I (length (p ++ a) + 1, push O (push_all O a d) (code c - 48))).
      { exists (a ++ [c]), b. split; [now rewrite <- app_assoc|]. f_equal; [rewrite !app_length; cbn [length]; lia|].
        unfold push_all. now rewrite fold_left_app. }
      destruct (to_end && (length s =? length (p ++ a) + 1)) eqn:Et.
      + exists E. left. apply andb_prop in Et. destruct Et as [_ Et]. apply Nat.eqb_eq in Et.
        rewrite Es, !app_length in Et. cbn [length] in Et. rewrite app_length in Et.
        destruct b; [|cbn [length] in Et; lia].
        unfold E. rewrite Hab. do 2 f_equal. f_equal; [rewrite !app_length; cbn [length]; lia|].
        unfold push_all. now rewrite fold_left_app.
      + eexists. right. split; [reflexivity|]. split; [exact HI|]. cbn [fst]. rewrite app_length. split; [reflexivity|].
        intros ->. cbn [andb] in Et. apply Nat.eqb_neq in Et. rewrite app_length in Et. lia. }
  assert (Bound : forall st, I st -> fst st <= length s).
  { intros st (a & b & Hab & ->). cbn [fst]. unfold s. rewrite Hab, !app_length. lia. }
  assert (Body : forall n st, I st -> fst st <> length s ->
    k_body O k n s st = Ok (inr E) \/ exists st', k_body O k n s st = Ok (inl st') /\ I st' /\ fst st < fst st').
  { induction n0 as [|n0 IH]; intros st HI Hne; cbn [k_body].
    - destruct (Step false st HI Hne) as (st' & [->|(-> & HI' & E' & _)]); [auto|]. right. exists st'. repeat split; auto; lia.
    - destruct (Step true st HI Hne) as (st' & [->|(-> & HI' & E' & N')]); [auto|]. cbn [bind].
      destruct (IH st' HI' (N' eq_refl)) as [->|(st2 & -> & HI2 & L2)]; [auto|]. right. exists st2. repeat split; auto; lia. }
  apply loop_rule with (I := I) (mu := fun st => length s - fst st).
  - intros st HI. destruct (Nat.eqb_spec (length s) (fst st)) as [He|Hne].
    + cbn [holds]. destruct HI as (a & b & Hab & ->). cbn [fst] in He. unfold s in He. rewrite Hab, !app_length in He.
      destruct b; [|cbn [length] in He; lia]. rewrite app_nil_r in Hab. now subst a.
    + destruct (Body n st HI) as [->|(st' & -> & HI' & L)]; [lia|reflexivity|]. cbn [holds]. split; [exact HI'|].
      specialize (Bound st' HI'). lia.
  - exists [], ds. cbn. split; auto. f_equal. lia.
  - cbn [fst]. lia.
Qed.
Lemma k_parse_digits_same n s i d : Forall (in_table k) s -> i <= length s ->
  k_parse_digits O k n s i d = parse_digits O s i d /\ forall j x, parse_digits O s i d = Ok (j, x) -> j <= length s.
Proof.
  intros Hs Hi. destruct (span_ex is_digit is_digit_dec (skipn i s)) as (ds & r & Es & Hd & Hr).
  assert (E : s = firstn i s ++ ds ++ r) by (rewrite <- Es; symmetry; apply firstn_skipn).
  assert (El : i = length (firstn i s)) by (rewrite firstn_length; lia).
  revert E El. generalize (firstn i s). intros p E El. subst i. clear Es Hi. rewrite E in Hs |- *.
  rewrite k_parse_digits_ok, parse_digits_ok; auto.
  - split; [reflexivity|]. intros j x [= <- <-]. rewrite !app_length. lia.
  - intros c r' ->. split; [exact Hr|]. eapply Forall_forall; [exact Hs|]. rewrite !in_app_iff. cbn. auto.
Qed.
Lemma skip_zeros_bound s i : i <= length s -> exists z, skip_zeros s i = Ok z /\ z <= length s.
Proof.
  intros Hi. destruct (span_ex (eq "0"%char) (ascii_dec_eq "0"%char) (skipn i s)) as (zs & r & Es & Hd & Hr).
  assert (E : s = firstn i s ++ zs ++ r) by (rewrite <- Es; symmetry; apply firstn_skipn).
  assert (El : i = length (firstn i s)) by (rewrite firstn_length; lia).
  revert E El. generalize (firstn i s). intros p E El. subst i. clear Es Hi. rewrite E.
  rewrite skip_zeros_ok by assumption. eexists. split; [reflexivity|]. rewrite !app_length. lia.
Qed.
Lemma switch_same n s : Forall (in_table k) s -> forall i a, k_exponent_switch k n s i a = exponent_switch n s i a.
Proof.
  intros Hs. induction n as [|[|n] IH]; intros i a; try reflexivity.
  change (k_exponent_switch k (S (S n)) s i a) with (o <- look k s i ;;
           match o with Some digit => k_exponent_switch k (S n) s (i + 1) (a * 10 + Z.of_N digit) | None => Ok (false, i + 1, a, 0%N) end).
  rewrite switch_SS by lia. rewrite look_same by assumption. destruct (digit_at s i) as [[x|]| |]; cbn [bind]; auto.
Qed.
Lemma exponent_same s i : Forall (in_table k) s -> k_parse_exponent k s i = parse_exponent s i.
Proof.
  intros Hs. unfold k_parse_exponent, parse_exponent. destruct (i =? length s); [reflexivity|]. destruct (rd s i) as [c| |]; cbn [bind]; auto.
  destruct ((Ascii.eqb c "-" || Ascii.eqb c "+") && (length s =? (if Ascii.eqb c "-" || Ascii.eqb c "+" then i + 1 else i))); [reflexivity|].
  destruct (skip_zeros s (if Ascii.eqb c "-" || Ascii.eqb c "+" then i + 1 else i)) as [z| |]; cbn [bind]; auto. now rewrite switch_same.
Qed.
Lemma tail_same s i neg : Forall (in_table k) s -> k_parse_tail O k s i neg = parse_tail O s i neg.
Proof.
  intros Hs. unfold k_parse_tail, parse_tail. destruct (length s =? i); [reflexivity|]. destruct (rd s i) as [c| |]; cbn [bind]; auto.
  now rewrite exponent_same.
Qed.
Lemma k_parse_real_same s t : Forall (in_table k) s -> k_parse_real O k s t = parse_real O s t.
Proof.
  intros Hs. unfold k_parse_real, parse_real. destruct (Nat.eqb_spec (length s) 0) as [|H0]; [reflexivity|].
  destruct (rd s 0) as [c0| |]; cbn [bind]; auto.
  set (i0 := if Ascii.eqb c0 "-" || Ascii.eqb c0 "+" then 1 else 0).
  assert (Hi0 : i0 <= length s) by (unfold i0; destruct (_ || _); lia). clearbody i0.
  destruct ((Ascii.eqb c0 "-" || Ascii.eqb c0 "+") && (length s =? i0)); [reflexivity|].
  destruct (rd s i0) as [c| |]; cbn [bind]; auto.
  destruct (skip_zeros_bound s i0 Hi0) as (z & Ez & Hz). rewrite Ez. cbn [bind].
  destruct (k_parse_digits_same (int_ones k) s z (r_of O 0) Hs Hz) as [-> Hj].
  assert (Rest : forall i d b, i <= length s ->
    (if length s =? i then Ok (i, d, b)
     else c <- rd s i ;;
       if Ascii.eqb c "." then ' (itr, tmp_d) <- k_parse_digits O k (frac_ones k) s (i + 1) (r_of O 0) ;;
          if i + 1 =? itr then Ok (itr, d, b) else f <- pow10 O tmp_d (to_int (- Z.of_nat (itr - (i + 1)))) ;; Ok (itr, r_add O d f, true)
       else Ok (i, d, b)) =
    (if length s =? i then Ok (i, d, b)
     else c <- rd s i ;;
       if Ascii.eqb c "." then ' (itr, tmp_d) <- parse_digits O s (i + 1) (r_of O 0) ;;
          if i + 1 =? itr then Ok (itr, d, b) else f <- pow10 O tmp_d (to_int (- Z.of_nat (itr - (i + 1)))) ;; Ok (itr, r_add O d f, true)
       else Ok (i, d, b))).
  { intros i d b Hi. destruct (Nat.eqb_spec (length s) i) as [|Hn]; [reflexivity|].
    destruct (k_parse_digits_same (frac_ones k) s (i + 1) (r_of O 0) Hs) as [-> _]; [lia|reflexivity]. }
  destruct (Ascii.eqb c "."); cbn [bind].
  - rewrite (Rest _ _ _ Hi0).
    match goal with |- bind ?m _ = _ => destruct m as [[[i2 d2] b2]| |]; cbn [bind]; auto end. now rewrite tail_same.
  - destruct (parse_digits O s z (r_of O 0)) as [[e d]| |]; cbn [bind]; auto. rewrite (Rest _ _ _ (Hj _ _ eq_refl)).
    match goal with |- bind ?m _ = _ => destruct m as [[[i2 d2] b2]| |]; cbn [bind]; auto end. now rewrite tail_same.
Qed.
End Parser.
