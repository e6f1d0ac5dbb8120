(* Proofs about strtk::fast. *)
From Coq Require Import Znumtheory.
From Verif Require Import Base Codec_Proofs Num_Model Num_Spec Num_Proofs.
Open Scope Z_scope.

Lemma fast_char c : ((schar c - 48) mod 256 <? 10) = digb c.
Proof.
  apply Bool.eqb_prop. apply (all_bytes_spec (fun c => Bool.eqb ((schar c - 48) mod 256 <? 10) (digb c))).
  vm_compute. reflexivity.
Qed.

Lemma fast_digit c : is_digit c -> schar c - 48 = digit_val c.
Proof.
  intros H. apply digb_spec in H.
  assert (E : (if digb c then schar c - 48 =? digit_val c else true) = true).
  { apply (all_bytes_spec (fun c => if digb c then schar c - 48 =? digit_val c else true)).
    vm_compute. reflexivity. }
  rewrite H in E. lia.
Qed.

Lemma rd_mid {A} (p : list A) c l : rd (p ++ c :: l) (length p) = Ok c.
Proof. unfold rd. rewrite nth_error_app2, Nat.sub_diag by lia. reflexivity. Qed.

Lemma snoc_mid {A} (p : list A) c l : p ++ c :: l = (p ++ [c]) ++ l.
Proof. now rewrite <- app_assoc. Qed.

Lemma snoc_len {A} (p : list A) c : S (length p) = length (p ++ [c]).
Proof. rewrite app_length. simpl. lia. Qed.

Lemma all_digits_ok l : forall p, all_digits_n (length l) (p ++ l) (length p) = Ok (forallb digb l).
Proof.
  induction l as [|c l IH]; intros p; [reflexivity|].
  cbn [all_digits_n length forallb]. rewrite rd_mid. cbn [bind]. rewrite fast_char.
  destruct (digb c); auto. cbn [andb]. rewrite (snoc_mid p), (snoc_len p c). apply IH.
Qed.

Lemma all_digits_check_ok s : all_digits_check (length s) s = Ok ((length s <=? 19)%nat && forallb digb s).
Proof.
  unfold all_digits_check. destruct (length s <=? 19)%nat; auto.
  exact (all_digits_ok s []).
Qed.

(* ------------------------------------------------------------------ *)
(* unsigned types: arithmetic modulo M *)
Section Unsigned.
  Variable T : ity.
  Variable w : nat.
  Hypothesis Hlo : lo T = 0.
  Hypothesis Hhi : hi T = 2 ^ Z.of_nat w - 1.
  Hypothesis Hs : sgn T = false.
  Hypothesis Hw : (w <= 64)%nat.
  Let M := 2 ^ Z.of_nat w.

  Lemma M_pos : 0 < M.
  Proof. apply Z.pow_pos_nonneg; lia. Qed.

  Lemma cast_u z : cast T z = z mod M.
  Proof. unfold cast. rewrite Hlo, Hhi. fold M. rewrite !Z.sub_0_r. simpl. f_equal. lia. Qed.

  Lemma arith_u z : arith T z = Ok (z mod M).
  Proof. unfold arith. rewrite Hs. cbn [andb]. now rewrite cast_u. Qed.

  Lemma dec_acc_mod l a : dec_acc (a mod M) l mod M = dec_acc a l mod M.
  Proof.
    pose proof M_pos. rewrite !dec_acc_lin. rewrite <- Zplus_mod_idemp_l, Zmult_mod_idemp_l, Zplus_mod_idemp_l.
    reflexivity.
  Qed.

  Lemma accumulate_u l : Forall is_digit l -> forall p x, x = x mod M ->
    accumulate T (length l) (p ++ l) (length p) x = Ok (dec_acc x l mod M).
  Proof.
    pose proof M_pos. induction 1 as [|c l Hc _ IH]; intros p x Hx.
    - cbn. now rewrite <- Hx.
    - cbn [accumulate length]. rewrite rd_mid. cbn [bind]. rewrite cast_u, arith_u. cbn [bind].
      rewrite (fast_digit c Hc). rewrite (snoc_mid p), (snoc_len p c), IH by now rewrite Zmod_mod.
      f_equal. rewrite dec_acc_mod. rewrite <- (dec_acc_mod l (_ + _)), Zplus_mod_idemp_r, dec_acc_mod.
      unfold dec_acc at 2. cbn [fold_left]. fold (dec_acc (10 * x + digit_val c) l).
      do 2 f_equal. lia.
  Qed.

  Lemma convert_small_u l p : Forall is_digit l ->
    convert_small T (length l) (p ++ l) (length p) = Ok (dec_value l mod M).
  Proof.
    intros Hd. pose proof M_pos. destruct l as [|c l].
    - cbn [convert_small length]. change (dec_value []) with 0. now rewrite Z.mod_0_l by lia.
    - cbn [convert_small length]. rewrite rd_mid. cbn [bind]. inversion Hd; subst.
      rewrite cast_u, (snoc_mid p), (snoc_len p c), accumulate_u by (auto; now rewrite Zmod_mod).
      rewrite fast_digit by auto. rewrite dec_acc_mod, dec_acc_lin, <- dec_value_cons. reflexivity.
  Qed.

  Lemma convert_big_u e : (e <= 4)%nat -> forall l p, length l = (16 + e)%nat -> Forall is_digit l ->
    convert_big T e (p ++ l) (length p) = Ok (dec_value l mod M).
  Proof.
    pose proof M_pos. induction e as [|e IH]; intros He l p Hl Hd.
    - cbn [convert_big]. rewrite <- (convert_small_u l p Hd), Hl. reflexivity.
    - destruct l as [|c l]; [simpl in Hl; lia|]. inversion Hd; subst. cbn [length] in Hl.
      cbn [convert_big]. rewrite (snoc_mid p), (snoc_len p c), IH by (auto; lia). cbn [bind].
      rewrite <- (snoc_mid p), rd_mid. cbn [bind].
      unfold scaled. rewrite fast_digit by auto. pose proof (digit_range _ H2).
      replace (16 + S e - 1)%nat with (length l) by lia.
      assert (E : exists q, (if (16 + S e =? 20)%nat then Ok ((digit_val c * 10 ^ Z.of_nat (length l)) mod 2 ^ 64)
          else if (- 2 ^ 63 <=? digit_val c * 10 ^ Z.of_nat (length l)) &&
                  (digit_val c * 10 ^ Z.of_nat (length l) <=? 2 ^ 63 - 1)
               then Ok (digit_val c * 10 ^ Z.of_nat (length l)) else UB) = Ok q /\
          q mod M = (digit_val c * 10 ^ Z.of_nat (length l)) mod M).
      { destruct (Nat.eqb_spec (16 + S e) 20) as [E|E].
        - eexists. split; [reflexivity|]. symmetry. apply Zmod_div_mod; [lia|reflexivity|].
          exists (2 ^ Z.of_nat (64 - w)). unfold M. rewrite <- Z.pow_add_r by lia. f_equal. lia.
        - eexists. split; [|reflexivity].
          assert (10 ^ Z.of_nat (length l) <= 10 ^ 18) by (apply Z.pow_le_mono_r; lia).
          pose proof (pow10_pos (length l)).
          assert (HP : 0 <= digit_val c * 10 ^ Z.of_nat (length l) <= 9 * 10 ^ 18) by nia.
          set (P := digit_val c * 10 ^ Z.of_nat (length l)) in *. clearbody P.
          replace (- 2 ^ 63 <=? P) with true by lia.
          replace (P <=? 2 ^ 63 - 1) with true by lia.
          reflexivity. }
      destruct E as (q & -> & Hq). cbn [bind]. rewrite arith_u, cast_u. f_equal.
      rewrite dec_value_cons, Zplus_mod_idemp_l, Zplus_mod_idemp_r, Zplus_mod, Hq, <- Zplus_mod.
      f_equal. lia.
  Qed.

  Lemma convert_u s : (length s <= 20)%nat -> Forall is_digit s ->
    convert_n T (length s) s = Ok (dec_value s mod M).
  Proof.
    intros Hl Hd. unfold convert_n. destruct (Nat.leb_spec (length s) 16).
    - exact (convert_small_u s [] Hd).
    - apply (convert_big_u (length s - 16) ltac:(lia) s []); auto. lia.
  Qed.

  Lemma numeric_convert_checked s :
    numeric_convert T (length s) s true =
    Ok (if (length s <=? 19)%nat && forallb digb s then Some (dec_value s mod M) else None).
  Proof.
    unfold numeric_convert. rewrite all_digits_check_ok. cbn [bind].
    destruct (Nat.leb_spec (length s) 19); auto. cbn [andb].
    destruct (forallb digb s) eqn:E; auto. apply digb_all in E.
    replace (length s <=? 20)%nat with true by (symmetry; apply Nat.leb_le; lia).
    rewrite convert_u by (auto; lia). reflexivity.
  Qed.

  Lemma numeric_convert_unchecked s : Forall is_digit s ->
    numeric_convert T (length s) s false =
    Ok (if (length s <=? 20)%nat then Some (dec_value s mod M) else None).
  Proof.
    intros Hd. unfold numeric_convert. cbn [bind].
    destruct (Nat.leb_spec (length s) 20); auto. rewrite convert_u by auto. reflexivity.
  Qed.
End Unsigned.

(* ------------------------------------------------------------------ *)
(* any type, as long as the value fits *)
Section Exact.
  Variable T : ity.
  Hypothesis Hlo : lo T <= 0.
  Hypothesis H9 : 9 <= hi T.
  Hypothesis Hhi : hi T < 2 ^ 64.

  Lemma dec_acc_ge l x : Forall is_digit l -> 0 <= x -> x <= dec_acc x l.
  Proof.
    intros Hd Hx. rewrite dec_acc_lin. pose proof (dec_bounds _ Hd). pose proof (pow10_pos (length l)). nia.
  Qed.

  Lemma accumulate_e l : Forall is_digit l -> forall p x, 0 <= x -> dec_acc x l <= hi T ->
    accumulate T (length l) (p ++ l) (length p) x = Ok (dec_acc x l).
  Proof.
    induction 1 as [|c l Hc Hd IH]; intros p x Hx Hm; [reflexivity|].
    cbn [accumulate length]. rewrite rd_mid. cbn [bind]. rewrite (fast_digit c Hc).
    pose proof (digit_range _ Hc). change (dec_acc x (c :: l)) with (dec_acc (10 * x + digit_val c) l) in *.
    pose proof (dec_acc_ge l (10 * x + digit_val c) Hd ltac:(lia)).
    rewrite cast_ok by lia. rewrite arith_ok by lia. cbn [bind].
    replace (x * 10 + digit_val c) with (10 * x + digit_val c) by lia.
    rewrite (snoc_mid p), (snoc_len p c). apply IH; lia.
  Qed.

  Lemma convert_small_e l p : Forall is_digit l -> dec_value l <= hi T ->
    convert_small T (length l) (p ++ l) (length p) = Ok (dec_value l).
  Proof.
    intros Hd Hm. destruct l as [|c l]; [reflexivity|].
    cbn [convert_small length]. rewrite rd_mid. cbn [bind]. inversion Hd; subst.
    pose proof (digit_range _ H1). rewrite fast_digit, cast_ok by (auto; lia).
    change (dec_value (c :: l)) with (dec_acc (10 * 0 + digit_val c) l) in *.
    replace (10 * 0 + digit_val c) with (digit_val c) in * by lia.
    rewrite (snoc_mid p), (snoc_len p c). apply accumulate_e; auto. lia.
  Qed.

  Lemma convert_big_e e : (e <= 4)%nat -> forall l p, length l = (16 + e)%nat -> Forall is_digit l ->
    dec_value l <= hi T ->
    convert_big T e (p ++ l) (length p) = Ok (dec_value l).
  Proof.
    induction e as [|e IH]; intros He l p Hl Hd Hm.
    - cbn [convert_big]. rewrite <- (convert_small_e l p Hd Hm), Hl. reflexivity.
    - destruct l as [|c l]; [simpl in Hl; lia|]. inversion Hd; subst. cbn [length] in Hl.
      rewrite dec_value_cons in Hm. pose proof (digit_range _ H1). pose proof (dec_bounds _ H2).
      pose proof (pow10_pos (length l)).
      cbn [convert_big]. rewrite (snoc_mid p), (snoc_len p c), IH by (auto; nia). cbn [bind].
      rewrite <- (snoc_mid p), rd_mid. cbn [bind].
      unfold scaled. rewrite fast_digit by auto.
      replace (16 + S e - 1)%nat with (length l) by lia. rewrite dec_value_cons.
      assert (0 <= digit_val c * 10 ^ Z.of_nat (length l)) by nia.
      set (P := digit_val c * 10 ^ Z.of_nat (length l)) in *.
      destruct (Nat.eqb_spec (16 + S e) 20) as [E|E].
      + rewrite Z.mod_small by lia. cbn [bind]. rewrite cast_ok, arith_ok by lia. f_equal. lia.
      + assert (10 ^ Z.of_nat (length l) <= 10 ^ 18) by (apply Z.pow_le_mono_r; lia).
        assert (HP : P <= 9 * 10 ^ 18) by (unfold P; nia). clearbody P.
        replace (- 2 ^ 63 <=? P) with true by lia.
        replace (P <=? 2 ^ 63 - 1) with true by lia.
        cbn [andb bind]. rewrite cast_ok, arith_ok by lia. f_equal. lia.
  Qed.

  Lemma numeric_convert_exact s dc : Forall is_digit s -> dec_value s <= hi T -> (length s <= 19)%nat ->
    numeric_convert T (length s) s dc = Ok (Some (dec_value s)).
  Proof.
    intros Hd Hm Hl. unfold numeric_convert.
    assert (E : (if dc then all_digits_check (length s) s else Ok true) = Ok true).
    { destruct dc; auto. rewrite all_digits_check_ok.
      replace (length s <=? 19)%nat with true by (symmetry; apply Nat.leb_le; lia).
      apply digb_all in Hd. now rewrite Hd. }
    rewrite E. cbn [bind]. replace (length s <=? 20)%nat with true by (symmetry; apply Nat.leb_le; lia).
    unfold convert_n. destruct (Nat.leb_spec (length s) 16).
    - pose proof (convert_small_e s [] Hd Hm) as E1. cbn [app length] in E1. rewrite E1. reflexivity.
    - pose proof (convert_big_e (length s - 16) ltac:(lia) s [] ltac:(lia) Hd Hm) as E1.
      cbn [app length] in E1. rewrite E1. reflexivity.
  Qed.

  (* the stripped digits of a value below 10^19 are at most 19 *)
  Lemma strip_short s : Forall is_digit s -> dec_value s < 10 ^ 19 -> (length (skip_zeros s) <= 19)%nat.
  Proof.
    intros Hd Hv. destruct (le_lt_dec (length (skip_zeros s)) 19); auto. exfalso.
    rewrite <- skip_zeros_value in Hv. apply digb_all in Hd. rewrite <- skip_zeros_digits in Hd.
    apply digb_all in Hd. pose proof (skip_zeros_head s) as Hh.
    destruct (skip_zeros s) as [|c t]; [simpl in l; lia|].
    pose proof (dec_lower _ _ Hd (Hh _ _ eq_refl)). cbn [length] in l.
    assert (10 ^ 19 <= 10 ^ Z.of_nat (length t)) by (apply Z.pow_le_mono_r; lia). lia.
  Qed.

  Lemma signed_convert_exact s v dc : signed_text s v -> Z.abs v <= hi T -> lo T <= v ->
    Z.abs v < 10 ^ 19 ->
    signed_numeric_convert T s dc = Ok (Some v).
  Proof.
    intros (sg & ds & -> & (Hne & Hd) & Hv) Hm Hl H19. unfold signed_numeric_convert.
    pose proof (dec_bounds _ Hd) as Hb.
    assert (Hav : Z.abs v = dec_value ds) by lia.
    assert (HN : numeric_convert T (length (skip_zeros ds)) (skip_zeros ds) dc = Ok (Some (dec_value ds))).
    { rewrite <- (skip_zeros_value ds). apply numeric_convert_exact.
      - apply digb_all. rewrite skip_zeros_digits. now apply digb_all.
      - rewrite skip_zeros_value. lia.
      - apply strip_short; auto. lia. }
    destruct ds as [|d r]; [congruence|].
    destruct Hv as [[[->| ->] ->]|[-> ->]]; cbn [app rd nth_error bind].
    - assert (E1 : Ascii.eqb d "-" = false).
      { destruct (Ascii.eqb_spec d "-"); auto. subst d. now apply not_digit_minus in Hd. }
      assert (E2 : Ascii.eqb d "+" = false).
      { destruct (Ascii.eqb_spec d "+"); auto. subst d. now apply not_digit_plus in Hd. }
      rewrite E1, E2. cbn [orb andb]. cbv zeta. rewrite HN. reflexivity.
    - cbn [Ascii.eqb Bool.eqb orb andb length Nat.eqb tl]. rewrite HN. reflexivity.
    - cbn [Ascii.eqb Bool.eqb orb andb length Nat.eqb tl]. rewrite HN. cbn [bind].
      rewrite arith_ok by lia. reflexivity.
  Qed.
End Exact.

Lemma signed_convert_other T s : s <> [] -> (forall v, ~ signed_text s v) ->
  signed_numeric_convert T s true = Ok None.
Proof.
  intros Hne Hno. destruct s as [|c r]; [congruence|]. unfold signed_numeric_convert.
  cbn [rd nth_error bind]. cbv zeta.
  assert (HN : forall s1, forallb digb s1 = false ->
     (o <- numeric_convert T (length (skip_zeros s1)) (skip_zeros s1) true ;;
      match o with
      | Some t => v <- (if Ascii.eqb c "-" then arith T (- t) else Ok t) ;; Ok (Some v)
      | None => Ok None
      end) = Ok None).
  { intros s1 H1. unfold numeric_convert. rewrite all_digits_check_ok, skip_zeros_digits, H1, andb_false_r.
    reflexivity. }
  destruct (Ascii.eqb c "-" || Ascii.eqb c "+") eqn:Es; cbn [andb].
  - destruct r as [|d r]; auto. cbn [length Nat.eqb tl]. apply HN.
    destruct (forallb digb (d :: r)) eqn:E; auto. apply digb_all in E. exfalso.
    apply orb_true_iff in Es. destruct Es as [Es|Es]; apply Ascii.eqb_eq in Es; subst c.
    + apply (Hno (- dec_value (d :: r))). exists ["-"%char], (d :: r).
      split; [reflexivity|]. split; [split; [discriminate|auto]|]. right. auto.
    + apply (Hno (dec_value (d :: r))). exists ["+"%char], (d :: r).
      split; [reflexivity|]. split; [split; [discriminate|auto]|]. left. auto.
  - apply HN. destruct (forallb digb (c :: r)) eqn:E; auto. apply digb_all in E. exfalso.
    apply (Hno (dec_value (c :: r))). exists [], (c :: r).
    split; [reflexivity|]. split; [split; [discriminate|auto]|]. left. auto.
Qed.
