(* Proofs about the parser of floating point numbers: the whole parser. *)
From Verif Require Import Base Num_Spec Real_Model Real_Spec Real_Proofs Real_Proofs2.
From Coq Require Import ZArith.
Local Open Scope nat_scope.

Section Parser.
Variable O : reals.
Hypothesis Hmin : min_exponent10 O = (-307)%Z.

Lemma fract10_at_ok e : (0 < e <= 308)%Z -> fract10_at O e = Ok (fract10 O (Z.to_nat e)).
Proof.
  intros H. unfold fract10_at. change (Z.of_nat fract10_size) with 309%Z.
  destruct (Z.ltb_spec e 0); [lia|]. destruct (Z.leb_spec 309 e); [lia|]. cbn [orb]. destruct (Z.eqb_spec e 0); [lia|reflexivity].
Qed.
Lemma pow10_ok d e : (-615 <= e)%Z -> e <> 0%Z -> pow10 O d e = Ok (shift_exponent O d e).
Proof.
  intros H N. unfold pow10, shift_exponent, scale. rewrite Hmin. destruct (Z.eqb_spec e (- 2 ^ 31)); [lia|].
  change (Z.of_nat fract10_size) with 309%Z.
  destruct (Z.leb_spec (-307) e) as [Hl|Hl].
  - replace (e <? -307)%Z with false by (symmetry; apply Z.ltb_ge; lia).
    destruct (Z.ltb_spec (Z.abs e) 309) as [Ha|Ha].
    + replace (e <=? 308)%Z with true by (symmetry; apply Z.leb_le; lia).
      replace (e =? 0)%Z with false by (symmetry; apply Z.eqb_neq; lia).
      rewrite fract10_at_ok by lia. cbn [bind]. destruct (Z.ltb_spec 0 e) as [Hp|Hp].
      * rewrite Z.abs_eq by lia. reflexivity.
      * rewrite Z.abs_neq by lia. reflexivity.
    + replace (e <=? 308)%Z with false by (symmetry; apply Z.leb_gt; lia). reflexivity.
  - replace (e <? -307)%Z with true by (symmetry; apply Z.ltb_lt; lia).
    rewrite fract10_at_ok by lia. cbn [bind]. rewrite fract10_at_ok by lia. cbn [bind]. reflexivity.
Qed.
Lemma pow10_ub d e : (e <= -616)%Z -> pow10 O d e = UB.
Proof.
  intros H. unfold pow10. rewrite Hmin. destruct (Z.eqb_spec e (- 2 ^ 31)); [reflexivity|].
  replace (-307 <=? e)%Z with false by (symmetry; apply Z.leb_gt; lia).
  change (fract10_at O (- -307)) with (Ok (fract10 O 307)). cbn [bind]. unfold fract10_at.
  change (Z.of_nat fract10_size) with 309%Z. replace (309 <=? - e + -307)%Z with true by (symmetry; apply Z.leb_le; lia).
  rewrite orb_true_r. reflexivity.
Qed.
Lemma to_int_id n : (- 2 ^ 31 <= n < 2 ^ 31)%Z -> to_int n = n.
Proof. intros H. unfold to_int. rewrite Z.mod_small; lia. Qed.

Definition fraction (F : list ascii) (d : real_t O) : outcome (real_t O) :=
  match F with
  | [] => Ok d
  | _ => f <- pow10 O (push_all O F (r_of O 0)) (to_int (- Z.of_nat (length F))) ;; Ok (r_add O d f)
  end.
Definition finish (s : list ascii) (neg instate : bool) (t : target O) (d : real_t O) (r : (nat * Z) + option (target O)) : outcome (bool * target O) :=
  match r with
  | inr None => Ok (false, t)
  | inr (Some v) => Ok (true, v)
  | inl (itr, exponent) =>
      if negb (length s =? itr) || negb instate then Ok (false, t)
      else
        d <- (if (exponent =? 0)%Z then Ok d else pow10 O d exponent) ;;
        Ok (true, narrow O (if neg then r_opp O d else d))
  end.
Definition nonempty (l : list ascii) : bool := negb (length l =? 0).
Lemma dot_not_digit : ~ is_digit ".".
Proof. unfold is_digit. cbn. lia. Qed.
Lemma zeros_digits zs : Forall (eq "0"%char) zs -> Forall is_digit zs.
Proof. intros H. eapply Forall_impl; [|exact H]. intros c <-. exact dig_zero. Qed.

Lemma parse_real_split neg sg zs I pt F x t :
  sign_text neg sg -> (sg = [] -> ~ starts (fun c => c = "-"%char \/ c = "+"%char) ((zs ++ I) ++ pt ++ x)) ->
  Forall (eq "0"%char) zs -> Forall is_digit I -> ~ starts (eq "0"%char) I -> Forall is_digit F ->
  (pt = [] /\ F = [] /\ ~ starts (eq "."%char) x \/ pt = "."%char :: F) -> ~ starts is_digit x ->
  (zs ++ I) ++ pt ++ x <> [] ->
  parse_real O (sg ++ (zs ++ I) ++ pt ++ x) t =
    (d <- fraction F (push_all O I (r_of O 0)) ;;
     r <- parse_tail O (sg ++ (zs ++ I) ++ pt ++ x) (length (sg ++ (zs ++ I) ++ pt)) neg ;;
     finish (sg ++ (zs ++ I) ++ pt ++ x) neg (nonempty (zs ++ I ++ F)) t d r).
Proof.
  intros Hs Hn Hz HI HI0 HF Hpt Hx Hne.
  set (y := (zs ++ I) ++ pt ++ x) in *. set (s := sg ++ y).
  assert (Hy : y = zs ++ I ++ pt ++ x) by (unfold y; now rewrite <- app_assoc).
  assert (Hly : 0 < length y) by (destruct y; [congruence|cbn; lia]).
  unfold parse_real. replace (length s =? 0) with false by (symmetry; apply Nat.eqb_neq; unfold s; rewrite app_length; lia).
  assert (Hc : exists c, rd s 0 = Ok c /\ Ascii.eqb c "-" = neg /\
     (if (Ascii.eqb c "-" || Ascii.eqb c "+") then 1 else 0) = length sg).
  { unfold s. destruct neg; cbn [sign_text] in Hs.
    - subst sg. exists "-"%char. auto.
    - destruct Hs as [->| ->].
      + destruct y as [|c y']; [congruence|]. exists c. cbn [app].
        specialize (Hn eq_refl). cbn in Hn. destruct (Ascii.eqb_spec c "-"); [tauto|]. destruct (Ascii.eqb_spec c "+"); [tauto|]. auto.
      + exists "+"%char. auto. }
  destruct Hc as (c & -> & E1 & E2). cbn [bind]. cbv zeta. rewrite E2.
  replace (length s =? length sg) with false by (symmetry; apply Nat.eqb_neq; unfold s; rewrite app_length; lia).
  rewrite andb_false_r, E1. clear c Hn E1 E2.
  assert (Hhd : exists c y', y = c :: y' /\ (c = "."%char -> zs = [] /\ I = [])).
  { destruct zs as [|z zs]; [|inversion Hz; subst; do 2 eexists; split; [exact Hy|discriminate]].
    destruct I as [|i I]; [|inversion HI; subst; do 2 eexists; split; [exact Hy|]; intros ->; now destruct dot_not_digit].
    destruct y as [|c y']; [congruence|]. eauto. }
  destruct Hhd as (c & y' & Ey & Hdot).
  assert (Hrd : rd s (length sg) = Ok c) by (unfold s; rewrite Ey; apply rd_at). rewrite Hrd. cbn [bind].
  assert (Step1 : (if Ascii.eqb c "." then Ok (length sg, r_of O 0, false)
         else
           z <- skip_zeros s (length sg) ;;
           ' (e, d) <- parse_digits O s z (r_of O 0) ;;
           Ok (e, d, negb (length sg =? e))) = Ok (length (sg ++ zs ++ I), push_all O I (r_of O 0), nonempty (zs ++ I))).
  { destruct (Ascii.eqb_spec c ".") as [->|Nd].
    - destruct (Hdot eq_refl) as [-> ->]. rewrite !app_nil_r. reflexivity.
    - assert (Hpx : ~ starts is_digit (pt ++ x)).
      { destruct Hpt as [(-> & _)| ->]; [exact Hx|exact dot_not_digit]. }
      unfold s. rewrite Hy. rewrite skip_zeros_ok; auto.
      2:{ destruct I; [|exact HI0]. destruct (pt ++ x); [intros []|]. cbn in Hpx |- *. intros <-. apply Hpx, dig_zero. }
      cbn [bind]. rewrite (app_assoc sg zs), <- app_length. rewrite parse_digits_ok by auto. cbn [bind].
      replace (length (sg ++ zs ++ I)) with (length (sg ++ zs) + length I) by (rewrite !app_length; lia). repeat f_equal.
      unfold nonempty. f_equal. apply eq_true_iff_eq. rewrite !Nat.eqb_eq, !app_length. lia. }
  rewrite Step1. cbn [bind]. clear Step1 Hrd.
  assert (Step2 : (if length s =? length (sg ++ zs ++ I) then Ok (length (sg ++ zs ++ I), push_all O I (r_of O 0), nonempty (zs ++ I))
         else
           c <- rd s (length (sg ++ zs ++ I)) ;;
           if Ascii.eqb c "." then
             ' (itr, tmp_d) <- parse_digits O s (length (sg ++ zs ++ I) + 1) (r_of O 0) ;;
             if length (sg ++ zs ++ I) + 1 =? itr then Ok (itr, push_all O I (r_of O 0), nonempty (zs ++ I))
             else f <- pow10 O tmp_d (to_int (- Z.of_nat (itr - (length (sg ++ zs ++ I) + 1)))) ;; Ok (itr, r_add O (push_all O I (r_of O 0)) f, true)
           else Ok (length (sg ++ zs ++ I), push_all O I (r_of O 0), nonempty (zs ++ I))) =
    (d <- fraction F (push_all O I (r_of O 0)) ;; Ok (length (sg ++ (zs ++ I) ++ pt), d, nonempty (zs ++ I ++ F)))).
  { assert (Es : s = (sg ++ zs ++ I) ++ pt ++ x) by (unfold s; rewrite Hy; now rewrite <- !app_assoc).
    assert (El : length (sg ++ (zs ++ I) ++ pt) = length (sg ++ zs ++ I) + length pt) by (rewrite !app_length; lia).
    destruct Hpt as [(-> & -> & Hxd)| ->].
    - rewrite El. cbn [length]. rewrite Nat.add_0_r, app_nil_r. cbn [fraction bind].
      destruct x as [|a x].
      + rewrite Es. cbn [app]. rewrite app_nil_r, Nat.eqb_refl. reflexivity.
      + rewrite Es. cbn [app]. replace (length ((sg ++ zs ++ I) ++ a :: x) =? length (sg ++ zs ++ I)) with false
          by (symmetry; apply Nat.eqb_neq; rewrite (app_length (sg ++ zs ++ I)); cbn [length]; lia).
        rewrite rd_at. cbn [bind]. destruct (Ascii.eqb_spec a "."); [subst; exfalso; apply Hxd; reflexivity|reflexivity].
    - replace (length s =? length (sg ++ zs ++ I)) with false
          by (symmetry; apply Nat.eqb_neq; rewrite Es, (app_length (sg ++ zs ++ I)); cbn [length app]; lia).
      rewrite Es. cbn [app]. rewrite rd_at. cbn [bind]. change (Ascii.eqb "." ".") with true. cbv iota.
      rewrite (app_cons (sg ++ zs ++ I)). rewrite <- (len_snoc (sg ++ zs ++ I) "."%char).
      rewrite parse_digits_ok by auto. cbn [bind]. rewrite El. cbn [length]. rewrite (len_snoc (sg ++ zs ++ I) "."%char).
      destruct F as [|f0 F0].
      + cbn [length]. rewrite Nat.add_0_r, Nat.eqb_refl, app_nil_r. reflexivity.
      + set (F := f0 :: F0) in *.
        replace (length (sg ++ zs ++ I) + 1 =? length (sg ++ zs ++ I) + 1 + length F) with false
          by (symmetry; apply Nat.eqb_neq; unfold F; cbn [length]; lia).
        replace (length (sg ++ zs ++ I) + 1 + length F - (length (sg ++ zs ++ I) + 1)) with (length F) by lia.
        unfold fraction. unfold F at 4. fold F.
        destruct (pow10 O (push_all O F (r_of O 0)) (to_int (- Z.of_nat (length F)))); cbn [bind]; auto.
        replace (nonempty (zs ++ I ++ F)) with true.
        * do 2 f_equal. f_equal. lia.
        * symmetry. unfold nonempty. apply negb_true_iff, Nat.eqb_neq. rewrite !app_length. unfold F. cbn [length]. lia. }
  rewrite Step2. clear Step2.
  destruct (fraction F (push_all O I (r_of O 0))); cbn [bind]; auto.
Qed.

Lemma digits_real_push ds : digits_real O ds = push_all O ds (r_of O 0).
Proof. reflexivity. Qed.
Lemma fraction_ok F I : length F <= 615 -> fraction F (push_all O (drop_zeros I) (r_of O 0)) = Ok (mantissa O I F).
Proof.
  intros H. destruct F as [|f F]; [reflexivity|]. unfold fraction, mantissa. rewrite to_int_id by lia.
  rewrite pow10_ok by (cbn [length] in *; lia). reflexivity.
Qed.
Lemma fraction_ub F d : 616 <= length F -> (Z.of_nat (length F) <= 2 ^ 31)%Z -> fraction F d = UB.
Proof.
  intros H1 H2. destruct F as [|f F]; [cbn in H1; lia|]. unfold fraction. rewrite to_int_id by lia.
  rewrite pow10_ub by lia. reflexivity.
Qed.

Definition number_value (neg : bool) (I F : list ascii) (e : Z) : target O :=
  narrow O (signed O neg (shift_exponent O (mantissa O I F) e)).

Lemma shift_0 d : shift_exponent O d 0 = d.
Proof. reflexivity. Qed.

Lemma drop_app zs I : Forall (eq "0"%char) zs -> ~ starts (eq "0"%char) I -> drop_zeros (zs ++ I) = I.
Proof.
  intros H HI. induction H as [|z zs <- _ IH]; cbn; auto. destruct I as [|c I]; auto. cbn. destruct (Ascii.eqb_spec c "0"); auto.
  subst. exfalso. apply HI. reflexivity.
Qed.

(* every text: no number at all, or a split *)
Lemma real_split s : (exists neg, sign_text neg s) \/
  exists neg sg zs I pt F x, s = sg ++ (zs ++ I) ++ pt ++ x /\
  sign_text neg sg /\ (sg = [] -> ~ starts (fun c => c = "-"%char \/ c = "+"%char) ((zs ++ I) ++ pt ++ x)) /\
  Forall (eq "0"%char) zs /\ Forall is_digit I /\ ~ starts (eq "0"%char) I /\ Forall is_digit F /\
  (pt = [] /\ F = [] /\ ~ starts (eq "."%char) x \/ pt = "."%char :: F) /\ ~ starts is_digit x /\
  (zs ++ I) ++ pt ++ x <> [].
Proof.
  destruct (sign_ex s) as (neg & sg & y & -> & Hs & Hn).
  destruct y as [|c0 y0]; [left; exists neg; now rewrite app_nil_r|]. right. set (y := c0 :: y0) in *.
  assert (Hne : y <> []) by discriminate. clearbody y.
  destruct (span_ex (eq "0"%char) (ascii_dec_eq "0") y) as (zs & y1 & -> & Hz & Hy1).
  destruct (span_ex is_digit is_digit_dec y1) as (I & y2 & -> & HI & Hy2).
  assert (HI0 : ~ starts (eq "0"%char) I) by (destruct I; cbn in *; auto).
  destruct y2 as [|c x].
  { exists neg, sg, zs, I, [], [], []. rewrite !app_nil_r in *. repeat split; auto. }
  destruct (Ascii.eqb_spec c ".") as [->|Nc].
  - destruct (span_ex is_digit is_digit_dec x) as (F & x2 & -> & HF & Hx2).
    exists neg, sg, zs, I, ("."%char :: F), F, x2. rewrite <- !app_assoc. cbn [app]. 
    repeat split; auto.
  - exists neg, sg, zs, I, [], [], (c :: x). rewrite <- !app_assoc. cbn [app]. repeat split; auto.
    left. split; [reflexivity|]. split; [reflexivity|]. cbn. congruence.
Qed.

Lemma mantissa_ok zs I pt F x : Forall (eq "0"%char) zs -> Forall is_digit I -> Forall is_digit F ->
  (pt = [] /\ F = [] /\ ~ starts (eq "."%char) x \/ pt = "."%char :: F) -> nonempty (zs ++ I ++ F) = true ->
  mantissa_text (zs ++ I) F ((zs ++ I) ++ pt).
Proof.
  intros Hz HI HF Hpt Hne. split; [apply Forall_app; split; auto; now apply zeros_digits|]. split; auto. split.
  - destruct Hpt as [(-> & -> & _)| ->]; [left; now rewrite app_nil_r|right; reflexivity].
  - rewrite <- app_assoc. intros E. rewrite E in Hne. discriminate.
Qed.

(* the three kinds of text that are accepted *)
Lemma real_sound s t b v : (Z.of_nat (length s) <= 2 ^ 31)%Z -> parse_real O s t = Ok (b, v) ->
  b = false /\ v = t \/
  b = true /\ ((exists neg I F e, (number_text neg I F e s \/ sloppy_text neg I F e s) /\ v = number_value neg I F e) \/
               (exists neg w, word_value O neg w v /\ exists p, s = p ++ w)).
Proof.
  intros Hl. destruct (real_split s) as [(neg & Hs)|(neg & sg & zs & I & pt & F & x & -> & Hs & Hn & Hz & HI & HI0 & HF & Hpt & Hx & Hne)].
  { intros E. left. assert (X : parse_real O s t = Ok (false, t)).
    { destruct neg; cbn in Hs; [subst; reflexivity|]. destruct Hs; subst; reflexivity. }
    rewrite X in E. injection E as <- <-. auto. }
  rewrite (parse_real_split neg sg zs I pt F x t) by auto.
  assert (HlF : length F <= length (sg ++ (zs ++ I) ++ pt ++ x)).
  { rewrite !app_length. destruct Hpt as [(_ & -> & _)| ->]; cbn [length]; lia. }
  destruct (Nat.le_gt_cases (length F) 615) as [HF6|HF6].
  2:{ rewrite fraction_ub by lia. discriminate. }
  assert (Ef : fraction F (push_all O I (r_of O 0)) = Ok (mantissa O (zs ++ I) F))
    by (rewrite <- fraction_ok by auto; now rewrite drop_app).
  rewrite Ef. cbn [bind].
  set (p := sg ++ (zs ++ I) ++ pt). replace (sg ++ (zs ++ I) ++ pt ++ x) with (p ++ x) by (unfold p; now rewrite <- !app_assoc).
  destruct (tail_sound O p x neg) as (r & -> & Hr). cbn [bind]. unfold finish.
  destruct r as [[itr e]|[v'|]].
  - destruct (Nat.eqb_spec (length (p ++ x)) itr) as [Ei|Ni]; cbn [negb orb]; [|intros [= <- <-]; auto].
    specialize (Hr (eq_sym Ei)).
    destruct (nonempty (zs ++ I ++ F)) eqn:En; cbn [negb]; [|intros [= <- <-]; auto].
    intros E. right.
    assert (Eb : b = true /\ v = number_value neg (zs ++ I) F e).
    { destruct (Z.eqb_spec e 0) as [->|Ne].
      - cbn [bind] in E. injection E as <- <-. auto.
      - destruct (Z.le_gt_cases (-615) e) as [He|He].
        + rewrite pow10_ok in E by auto. cbn [bind] in E. injection E as <- <-. auto.
        + rewrite pow10_ub in E by lia. discriminate. }
    destruct Eb as [-> ->]. split; auto. left. exists neg, (zs ++ I), F, e. split; auto.
    assert (Hm := mantissa_ok zs I pt F x Hz HI HF Hpt En).
    destruct Hr as [Hr|Hr]; [left|right]; exists sg, ((zs ++ I) ++ pt), x; (split; [unfold p; now rewrite <- !app_assoc|auto]).
  - intros [= <- <-]. right. split; auto. right. destruct Hr as (pre & w & -> & Hw). exists neg, w. split; auto. exists (p ++ pre). now rewrite <- app_assoc.
  - intros [= <- <-]. auto.
Qed.

(* undefined behaviour only for 616 fraction digits or an exponent of -616 or less *)
Lemma real_defined s t : (Z.of_nat (length s) <= 2 ^ 31)%Z ->
  (exists b v, parse_real O s t = Ok (b, v)) \/
  parse_real O s t = UB /\
    ((exists p F x, s = p ++ "."%char :: F ++ x /\ Forall is_digit F /\ 616 <= length F) \/
     (exists neg I F e, (number_text neg I F e s \/ sloppy_text neg I F e s) /\ (e <= -616)%Z)).
Proof.
  intros Hl. destruct (real_split s) as [(neg & Hs)|(neg & sg & zs & I & pt & F & x & -> & Hs & Hn & Hz & HI & HI0 & HF & Hpt & Hx & Hne)].
  { left. exists false, t. destruct neg; cbn in Hs; [subst; reflexivity|]. destruct Hs; subst; reflexivity. }
  rewrite (parse_real_split neg sg zs I pt F x t) by auto.
  assert (HlF : length F <= length (sg ++ (zs ++ I) ++ pt ++ x)).
  { rewrite !app_length. destruct Hpt as [(_ & -> & _)| ->]; cbn [length]; lia. }
  destruct (Nat.le_gt_cases (length F) 615) as [HF6|HF6].
  2:{ right. rewrite fraction_ub by lia. split; auto. left. destruct Hpt as [(_ & -> & _)| ->]; [cbn in HF6; lia|].
      exists (sg ++ zs ++ I), F, x. split; [now rewrite <- !app_assoc|]. split; auto. }
  assert (Ef : fraction F (push_all O I (r_of O 0)) = Ok (mantissa O (zs ++ I) F))
    by (rewrite <- fraction_ok by auto; now rewrite drop_app).
  rewrite Ef. cbn [bind].
  set (p := sg ++ (zs ++ I) ++ pt). replace (sg ++ (zs ++ I) ++ pt ++ x) with (p ++ x) by (unfold p; now rewrite <- !app_assoc).
  destruct (tail_sound O p x neg) as (r & -> & Hr). cbn [bind]. unfold finish.
  destruct r as [[itr e]|[v'|]]; [|left; eauto|left; eauto].
  destruct (Nat.eqb_spec (length (p ++ x)) itr) as [Ei|Ni]; cbn [negb orb]; [|left; eauto].
  specialize (Hr (eq_sym Ei)).
  destruct (nonempty (zs ++ I ++ F)) eqn:En; cbn [negb]; [|left; eauto].
  destruct (Z.eqb_spec e 0) as [->|Ne]; [left; cbn [bind]; eauto|].
  destruct (Z.le_gt_cases (-615) e) as [He|He]; [left; rewrite pow10_ok by auto; cbn [bind]; eauto|].
  right. rewrite pow10_ub by lia. split; [reflexivity|]. right. exists neg, (zs ++ I), F, e. split; [|lia].
  assert (Hm := mantissa_ok zs I pt F x Hz HI HF Hpt En).
  destruct Hr as [Hr|Hr]; [left|right]; exists sg, ((zs ++ I) ++ pt), x; (split; [unfold p; now rewrite <- !app_assoc|auto]).
Qed.

(* numbers *)
Lemma tail_starts e x : tail_text e x -> ~ starts is_digit x /\ ~ starts (eq "."%char) x.
Proof.
  assert (A : forall c r, In c (str "eE") -> ~ starts is_digit (c :: r) /\ ~ starts (eq "."%char) (c :: r)).
  { intros c r [<-|[<-|[]]]; cbn; unfold is_digit; cbn; split; try lia; discriminate. }
  assert (B : forall c r, suffix_char c -> ~ starts is_digit (c :: r) /\ ~ starts (eq "."%char) (c :: r)).
  { intros c r [<-|[<-|[<-|[<-|[]]]]]; cbn; unfold is_digit; cbn; split; try lia; discriminate. }
  intros [[[-> ->]|(c & sgn & sg & zs & ds & -> & Hc & _)]|(x' & f & -> & Hf & [[-> ->]|(c & sgn & sg & zs & ds & -> & Hc & _)])]; cbn [app].
  - cbn. auto.
  - now apply A.
  - now apply B.
  - now apply A.
Qed.

Lemma number_split neg I F e s : number_text neg I F e s -> exists sg pt x zs,
  s = (sg ++ (zs ++ drop_zeros I) ++ pt) ++ x /\ tail_text e x /\ Forall is_digit F /\
  (pt = [] /\ F = [] \/ pt = "."%char :: F) /\ I = zs ++ drop_zeros I /\
  forall t, parse_real O s t =
    (d <- fraction F (push_all O (drop_zeros I) (r_of O 0)) ;;
     finish s neg true t d (inl (length s, e))).
Proof.
  intros (sg & m & x & -> & Hs & (HI & HF & Hm & Hne) & Hx).
  destruct (tail_starts e x Hx) as [Hx1 Hx2].
  destruct (split_zeros I) as (zs & I' & EI & Hz & HI0 & Ed).
  assert (Hpt : exists pt, m = I ++ pt /\ (pt = [] /\ F = [] /\ ~ starts (eq "."%char) x \/ pt = "."%char :: F)).
  { destruct Hm as [(-> & ->)| ->]; [exists []; rewrite app_nil_r; auto|exists ("."%char :: F); auto]. }
  destruct Hpt as (pt & -> & Hpt). exists sg, pt, x, zs. rewrite Ed.
  split; [rewrite <- EI, <- !app_assoc; reflexivity|]. split; auto. split; auto. split; [tauto|]. split; auto.
  intros t. rewrite EI. rewrite <- (app_assoc (zs ++ I')).
  assert (HdI : Forall is_digit I') by (rewrite EI in HI; apply Forall_app in HI; tauto).
  rewrite (parse_real_split neg sg zs I' pt F x t); auto.
  - rewrite (app_assoc (zs ++ I') pt x), (app_assoc sg).
    rewrite tail_complete with (e := e) by auto. 
    replace (nonempty (zs ++ I' ++ F)) with true; [reflexivity|].
    symmetry. unfold nonempty. rewrite app_assoc, <- EI. destruct (I ++ F); [congruence|reflexivity].
  - intros _. rewrite <- EI. destruct I as [|i I0]; [|inversion HI; subst; cbn; now apply digit_not_sign].
    cbn [app]. cbn [app] in Hne. destruct Hpt as [(_ & -> & _)| ->]; [congruence|]. cbn. intros [H|H]; discriminate.
  - rewrite <- EI. destruct I as [|i I0]; [|discriminate]. cbn [app] in *. destruct Hpt as [(_ & -> & _)| ->]; [congruence|discriminate].
Qed.

Lemma real_number neg I F e s t : number_text neg I F e s -> length F <= 615 -> (-615 <= e)%Z ->
  parse_real O s t = Ok (true, number_value neg I F e).
Proof.
  intros H HF He. destruct (number_split _ _ _ _ _ H) as (_ & _ & _ & _ & _ & _ & _ & _ & _ & E). rewrite E.
  rewrite fraction_ok by auto. cbn [bind]. unfold finish. rewrite Nat.eqb_refl. cbn [negb orb].
  destruct (Z.eqb_spec e 0) as [->|Ne]; [reflexivity|]. rewrite pow10_ok by auto. reflexivity.
Qed.
Lemma real_number_ub neg I F e s t : number_text neg I F e s ->
  616 <= length F /\ (Z.of_nat (length F) <= 2 ^ 31)%Z \/ length F <= 615 /\ (e <= -616)%Z -> parse_real O s t = UB.
Proof.
  intros H HF. destruct (number_split _ _ _ _ _ H) as (_ & _ & _ & _ & _ & _ & _ & _ & _ & E). rewrite E.
  destruct HF as [[H1 H2]|[H1 H2]]; [rewrite fraction_ub by auto; reflexivity|].
  rewrite fraction_ok by auto. cbn [bind]. unfold finish. rewrite Nat.eqb_refl. cbn [negb orb].
  destruct (Z.eqb_spec e 0) as [->|Ne]; [lia|]. rewrite pow10_ub by auto. reflexivity.
Qed.

(* words: behind a sign, or behind digits and '#' *)
Lemma real_word neg sg w v t : sign_text neg sg -> word_value O neg w v -> parse_real O (sg ++ w) t = Ok (true, v).
Proof.
  intros Hs Hw.
  assert (Hc : exists c w0, w = c :: w0 /\ In c (str "iInN")).
  { destruct Hw as [([H|[H|[H|[H|[]]]]] & _)|([H|[H|[]]] & _)]; subst w; do 2 eexists; (split; [reflexivity|cbn; tauto]). }
  destruct Hc as (c & w0 & -> & Hc).
  assert (E : parse_real O (sg ++ c :: w0) t = _) by exact (parse_real_split neg sg [] [] [] [] (c :: w0) t Hs
     ltac:(intros _; cbn; destruct Hc as [<-|[<-|[<-|[<-|[]]]]]; intros [H|H]; discriminate) (Forall_nil _) (Forall_nil _) ltac:(intros [])
     (Forall_nil _) ltac:(left; repeat split; auto; cbn; destruct Hc as [<-|[<-|[<-|[<-|[]]]]]; discriminate)
     ltac:(cbn; unfold is_digit; destruct Hc as [<-|[<-|[<-|[<-|[]]]]]; cbn; lia) ltac:(discriminate)).
  rewrite E. cbn [app fraction bind]. rewrite app_nil_r. rewrite (proj1 (tail_word O sg (c :: w0) v neg Hw)). reflexivity.
Qed.
End Parser.
