(* Proofs about integer parsing. *)
From Verif Require Import Base Codec_Proofs Num_Model Num_Spec.
Open Scope Z_scope.

Definition digb (c : ascii) : bool := ((48 <=? N_of_ascii c) && (N_of_ascii c <=? 57))%N.

Lemma digb_spec c : digb c = true <-> is_digit c.
Proof. unfold digb, is_digit. rewrite andb_true_iff, !N.leb_le. tauto. Qed.

Lemma digb_all s : forallb digb s = true <-> Forall is_digit s.
Proof.
  rewrite forallb_forall, Forall_forall. split; intros H x Hx; apply digb_spec; auto.
Qed.

Lemma digit_range c : is_digit c -> 0 <= digit_val c <= 9.
Proof. unfold is_digit, digit_val. lia. Qed.

Lemma udigit_char c : if digb c then udigit c = digit_val c else 10 <= udigit c.
Proof.
  assert (H : (if digb c then udigit c =? digit_val c else 10 <=? udigit c) = true).
  { apply (all_bytes_spec (fun c => if digb c then udigit c =? digit_val c else 10 <=? udigit c)).
    vm_compute. reflexivity. }
  destruct (digb c); lia.
Qed.

(* values *)
Definition dec_acc (a : Z) (s : list ascii) : Z := fold_left (fun a c => 10 * a + digit_val c) s a.

Lemma dec_acc_app a s t : dec_acc a (s ++ t) = dec_acc (dec_acc a s) t.
Proof. unfold dec_acc. apply fold_left_app. Qed.

Lemma dec_acc_lin s : forall a, dec_acc a s = a * 10 ^ Z.of_nat (length s) + dec_value s.
Proof.
  unfold dec_value. fold (dec_acc 0 s).
  induction s as [|c s IH]; intros a.
  - simpl. lia.
  - change (dec_acc a (c :: s)) with (dec_acc (10 * a + digit_val c) s).
    change (dec_acc 0 (c :: s)) with (dec_acc (10 * 0 + digit_val c) s).
    rewrite (IH (10 * a + digit_val c)), (IH (10 * 0 + digit_val c)).
    cbn [length]. rewrite Nat2Z.inj_succ, Z.pow_succ_r by lia. ring.
Qed.

Lemma dec_value_app s t : dec_value (s ++ t) = dec_value s * 10 ^ Z.of_nat (length t) + dec_value t.
Proof.
  unfold dec_value at 1. fold (dec_acc 0 (s ++ t)). rewrite dec_acc_app, dec_acc_lin. reflexivity.
Qed.

Lemma dec_value_snoc s c : dec_value (s ++ [c]) = 10 * dec_value s + digit_val c.
Proof. rewrite dec_value_app. change (dec_value [c]) with (10 * 0 + digit_val c). change (10 ^ Z.of_nat (length [c])) with 10. lia. Qed.

Lemma dec_value_cons c s : dec_value (c :: s) = digit_val c * 10 ^ Z.of_nat (length s) + dec_value s.
Proof.
  change (c :: s) with ([c] ++ s). rewrite dec_value_app.
  change (dec_value [c]) with (10 * 0 + digit_val c). f_equal; lia.
Qed.

Lemma pow10_pos n : 0 < 10 ^ Z.of_nat n.
Proof. apply Z.pow_pos_nonneg; lia. Qed.

Lemma dec_bounds s : Forall is_digit s -> 0 <= dec_value s < 10 ^ Z.of_nat (length s).
Proof.
  induction 1 as [|c s Hc _ IH]; [cbv; split; congruence|].
  rewrite dec_value_cons. cbn [length]. rewrite Nat2Z.inj_succ, Z.pow_succ_r by lia.
  apply digit_range in Hc. pose proof (pow10_pos (length s)). nia.
Qed.

Lemma dec_lower c s : Forall is_digit (c :: s) -> c <> "0"%char ->
  10 ^ Z.of_nat (length s) <= dec_value (c :: s).
Proof.
  intros H Hc. inversion H; subst. rewrite dec_value_cons.
  pose proof (digit_range _ H2). pose proof (dec_bounds _ H3). pose proof (pow10_pos (length s)).
  assert (digit_val c <> 0).
  { intros E. apply Hc. unfold digit_val in E.
    assert (E2 : N_of_ascii c = 48%N) by lia.
    rewrite <- (ascii_N_embedding c), E2. reflexivity. }
  nia.
Qed.

(* leading zeros *)
Lemma skip_zeros_split s : exists z, s = repeat "0"%char z ++ skip_zeros s.
Proof.
  induction s as [|c s [z IH]]; [exists O; reflexivity|].
  simpl. destruct (Ascii.eqb_spec c "0").
  - subst. exists (S z). simpl. congruence.
  - exists O. auto.
Qed.

Lemma skip_zeros_head s c t : skip_zeros s = c :: t -> c <> "0"%char.
Proof.
  induction s as [|d s IH]; simpl; [discriminate|].
  destruct (Ascii.eqb_spec d "0"); auto. intros H; inversion H; now subst.
Qed.

Lemma dec_zeros z : dec_value (repeat "0"%char z) = 0.
Proof. induction z as [|z IH]; [reflexivity|]. cbn [repeat]. rewrite dec_value_cons, IH. change (digit_val "0") with 0. lia. Qed.

Lemma skip_zeros_value s : dec_value (skip_zeros s) = dec_value s.
Proof.
  destruct (skip_zeros_split s) as [z E]. rewrite E at 2. rewrite dec_value_app, dec_zeros. lia.
Qed.

Lemma skip_zeros_digits s : forallb digb (skip_zeros s) = forallb digb s.
Proof.
  destruct (skip_zeros_split s) as [z E]. rewrite E at 2. rewrite forallb_app.
  replace (forallb digb (repeat "0"%char z)) with true; auto.
  symmetry. apply forallb_forall. intros x Hx. apply repeat_spec in Hx. now subst.
Qed.

(* arithmetic that stays in range *)
Lemma cast_ok T z : lo T <= z <= hi T -> cast T z = z.
Proof. intros H. unfold cast. rewrite Z.mod_small; lia. Qed.

Lemma arith_ok T z : lo T <= z <= hi T -> arith T z = Ok z.
Proof.
  intros H. unfold arith. rewrite cast_ok by auto.
  destruct (sgn T && negb (narrow T)); auto.
  replace (lo T <=? z) with true by lia. replace (z <=? hi T) with true by lia. reflexivity.
Qed.

Lemma eat_ok T c : lo T <= 0 -> 9 <= hi T -> forall l t, 0 <= t ->
  (t + 1) * 10 ^ Z.of_nat (length l) - 1 <= hi T ->
  eat T t (l ++ [c]) =
  Ok (if forallb digb (l ++ [c]) then Some (dec_acc t l, digit_val c) else None).
Proof.
  intros Hlo Hhi. induction l as [|d l IH]; intros t Ht Hb.
  - simpl. pose proof (udigit_char c). destruct (digb c) eqn:E; simpl.
    + apply digb_spec, digit_range in E. replace (10 <=? udigit c) with false by lia.
      now rewrite H.
    + now replace (10 <=? udigit c) with true by lia.
  - replace (eat T t ((d :: l) ++ [c])) with
      (if udigit d <? 10 then t' <- arith T (t * 10 + cast T (udigit d)) ;; eat T t' (l ++ [c])
       else Ok None).
    2:{ destruct l; reflexivity. }
    pose proof (udigit_char d) as Hd. cbn [forallb app]. destruct (digb d) eqn:E; cbn [andb].
    + apply digb_spec, digit_range in E. replace (udigit d <? 10) with true by lia. rewrite Hd.
      cbn [length] in Hb. rewrite Nat2Z.inj_succ, Z.pow_succ_r in Hb by lia.
      pose proof (pow10_pos (length l)).
      rewrite cast_ok by lia. rewrite arith_ok by nia. cbn [bind].
      rewrite IH by nia. unfold dec_acc at 2. cbn [fold_left]. fold (dec_acc (10 * t + digit_val d) l).
      now replace (t * 10 + digit_val d) with (10 * t + digit_val d) by lia.
    + now replace (udigit d <? 10) with false by lia.
Qed.

(* The common part of both parsers: digits after the sign, limit 10 * m + ld. *)
Definition body (T : ity) (bl : nat) (m m' ld : Z) (dc : Z -> Z) (s1 : list ascii) (k : Z -> outcome (option Z))
  : outcome (option Z) :=
  let s2 := skip_zeros s1 in
  if (bl <? length s2)%nat then Ok None
  else
    o <- eat T 0 s2 ;;
    match o with
    | None => Ok None
    | Some (t, digit) =>
        if (length s2 =? bl)%nat && negb ((t <? m) || ((t =? m') && (dc digit <=? ld)))
        then Ok None
        else k (t * 10 + cast T digit)
    end.

Lemma body_ok T k m ld dc s1 kont :
  lo T <= 0 -> 9 <= hi T -> 10 ^ Z.of_nat k - 1 <= hi T ->
  0 <= ld <= 9 -> 10 ^ Z.of_nat k <= 10 * m + ld + 1 -> 10 * m + ld < 10 ^ Z.of_nat (S k) ->
  (forall d, 0 <= d <= 9 -> dc d = d) ->
  body T (S k) m m ld dc s1 kont =
  if forallb digb s1 && (dec_value s1 <=? 10 * m + ld) then kont (dec_value s1) else Ok None.
Proof.
  intros Hlo Hhi Hk Hld Hm1 Hm2 Hdc. unfold body. cbv zeta.
  rewrite <- (skip_zeros_digits s1), <- (skip_zeros_value s1).
  pose proof (skip_zeros_head s1) as Hh. set (s2 := skip_zeros s1) in *. clearbody s2.
  pose proof (pow10_pos k).
  destruct (Nat.ltb_spec (S k) (length s2)) as [Hl|Hl].
  - (* too long *)
    destruct (forallb digb s2) eqn:E; auto. apply digb_all in E.
    destruct s2 as [|c t]; [simpl in Hl; lia|]. specialize (Hh _ _ eq_refl).
    pose proof (dec_lower _ _ E Hh) as Hv. cbn [length] in Hl.
    assert (10 ^ Z.of_nat (S k) <= 10 ^ Z.of_nat (length t)) by (apply Z.pow_le_mono_r; lia).
    cbn [andb]. now replace (dec_value (c :: t) <=? 10 * m + ld) with false by lia.
  - destruct (list_eq_dec Ascii.ascii_dec s2 []) as [->|Hne].
    { cbn [eat bind length forallb andb]. change (dec_value []) with 0.
      replace (0 =? S k)%nat with false by reflexivity. cbn [andb].
      rewrite cast_ok by lia. replace (0 <=? 10 * m + ld) with true by lia. reflexivity. }
    destruct (exists_last Hne) as [l [c ->]].
    rewrite app_length in *. cbn [length] in *.
    assert (10 ^ Z.of_nat (length l) <= 10 ^ Z.of_nat k) by (apply Z.pow_le_mono_r; lia).
    rewrite eat_ok by lia. cbn [bind].
    destruct (forallb digb (l ++ [c])) eqn:E; auto. cbn [andb].
    apply digb_all in E.
    assert (Ec : is_digit c) by (rewrite Forall_app in E; destruct E as [_ E]; now inversion E).
    assert (El : Forall is_digit l) by (rewrite Forall_app in E; tauto).
    pose proof (digit_range _ Ec). pose proof (dec_bounds _ El) as Hl0.
    change (dec_acc 0 l) with (dec_value l). rewrite dec_value_snoc. rewrite Hdc by lia.
    rewrite cast_ok by lia.
    destruct (Nat.eqb_spec (length l + 1) (S k)) as [Hq|Hq]; cbn [andb].
    + destruct (Z.leb_spec (10 * dec_value l + digit_val c) (10 * m + ld)).
      * replace ((dec_value l <? m) || ((dec_value l =? m) && (digit_val c <=? ld))) with true.
        2:{ symmetry. apply orb_true_iff. rewrite andb_true_iff. lia. }
        cbn [negb]. f_equal. lia.
      * replace ((dec_value l <? m) || ((dec_value l =? m) && (digit_val c <=? ld))) with false.
        2:{ symmetry. apply orb_false_iff. rewrite andb_false_iff. lia. }
        reflexivity.
    + assert (Hlt : (length l + 1 <= k)%nat) by lia.
      assert (10 ^ Z.of_nat (S (length l)) <= 10 ^ Z.of_nat k) by (apply Z.pow_le_mono_r; lia).
      rewrite Nat2Z.inj_succ, Z.pow_succ_r in H2 by lia.
      replace (10 * dec_value l + digit_val c <=? 10 * m + ld) with true by lia.
      f_equal. lia.
Qed.

(* ------------------------------------------------------------------ *)
Lemma parse_unsigned_body T n c r :
  parse_unsigned T n (c :: r) =
  if Ascii.eqb c "+" && match r with [] => true | _ => false end then Ok None
  else body T (bound_length n) (m10 n) (m10 n) (ldpos n) (fun d => d)
         (if Ascii.eqb c "+" then r else c :: r) (fun z => v <- arith T z ;; Ok (Some v)).
Proof. reflexivity. Qed.

Lemma parse_signed_body T n c r :
  ldneg n <> ldpos n ->
  parse_signed T n (c :: r) =
  let ld := if Ascii.eqb c "-" then ldneg n else ldpos n in
  let sign := Ascii.eqb c "-" || Ascii.eqb c "+" in
  if sign && match r with [] => true | _ => false end then Ok None
  else body T (bound_length n) (cast T (m10 n)) (m10 n) ld (cast T)
         (if sign then r else c :: r)
         (fun z => t <- arith T z ;;
                   v <- (if Ascii.eqb c "-" then arith T (- t) else Ok t) ;; Ok (Some v)).
Proof.
  intros H. unfold parse_signed, body. cbv zeta.
  destruct (Ascii.eqb c "-") eqn:E; cbn [orb].
  - rewrite Z.eqb_refl. cbn [orb]. replace (ldneg n =? ldpos n) with false by lia. reflexivity.
  - replace (ldneg n =? ldpos n) with false by lia. cbn [orb]. rewrite Z.eqb_refl. reflexivity.
Qed.

(* conditions on the constants of a type *)
Definition unsigned_fit (T : ity) (n : num) : Prop :=
  exists k, bound_length n = S k /\ lo T = 0 /\ 9 <= hi T /\ 10 ^ Z.of_nat k - 1 <= hi T /\
    0 <= ldpos n <= 9 /\ 10 ^ Z.of_nat k <= 10 * m10 n + ldpos n < 10 ^ Z.of_nat (S k) /\
    10 * m10 n + ldpos n <= hi T.

Lemma unsigned_parse T n s : unsigned_fit T n ->
  (exists o, parse_unsigned T n s = Ok o) /\
  forall v, parse_unsigned T n s = Ok (Some v) <->
            unsigned_text s v /\ v <= 10 * m10 n + ldpos n.
Proof.
  intros (k & Hk & Hlo & H9 & Hp & Hld & Hm & Hhi).
  assert (HB : forall s1, body T (bound_length n) (m10 n) (m10 n) (ldpos n) (fun d => d) s1
            (fun z => v <- arith T z ;; Ok (Some v)) =
            Ok (if forallb digb s1 && (dec_value s1 <=? 10 * m10 n + ldpos n)
                then Some (dec_value s1) else None)).
  { intros s1. rewrite Hk, body_ok by (auto; lia).
    destruct (forallb digb s1) eqn:E; auto. cbn [andb]. apply digb_all, dec_bounds in E.
    destruct (Z.leb_spec (dec_value s1) (10 * m10 n + ldpos n)); auto.
    rewrite arith_ok by lia. reflexivity. }
  destruct s as [|c r].
  { split; [eexists; reflexivity|]. intros v; split; [discriminate|].
    intros [(sg & ds & [->| ->] & E & (Hne & _) & _) _]; simpl in E; congruence. }
  rewrite parse_unsigned_body.
  destruct (Ascii.eqb_spec c "+") as [->|Hc]; cbn [andb].
  - destruct r as [|d r].
    { split; [eexists; reflexivity|]. intros v; split; [discriminate|].
      intros [(sg & ds & [->| ->] & E & (Hne & Hd) & _) _]; simpl in E.
      - subst ds. inversion Hd; subst. unfold is_digit in H1. simpl in H1. lia.
      - congruence. }
    rewrite HB. split; [eexists; reflexivity|]. intros v. split.
    + destruct (forallb digb (d :: r)) eqn:E; cbn [andb]; [|discriminate].
      destruct (Z.leb_spec (dec_value (d :: r)) (10 * m10 n + ldpos n)); [|discriminate].
      intros Hv; injection Hv as <-. split; auto.
      exists ["+"%char], (d :: r). apply digb_all in E. unfold digits.
      repeat split; auto; discriminate.
    + intros [(sg & ds & Hs & E & (Hne & Hd) & ->) Hv].
      destruct Hs as [->| ->]; simpl in E.
      { subst ds. inversion Hd; subst. unfold is_digit in H1. simpl in H1. lia. }
      injection E as <-. apply digb_all in Hd. rewrite Hd.
      now replace (dec_value (d :: r) <=? 10 * m10 n + ldpos n) with true by lia.
  - rewrite HB. split; [eexists; reflexivity|]. intros v. split.
    + destruct (forallb digb (c :: r)) eqn:E; cbn [andb]; [|discriminate].
      destruct (Z.leb_spec (dec_value (c :: r)) (10 * m10 n + ldpos n)); [|discriminate].
      intros Hv; injection Hv as <-. split; auto.
      exists [], (c :: r). apply digb_all in E. unfold digits.
      repeat split; auto; discriminate.
    + intros [(sg & ds & Hs & E & (Hne & Hd) & ->) Hv].
      destruct Hs as [->| ->]; simpl in E; [|congruence].
      subst ds. apply digb_all in Hd. rewrite Hd.
      now replace (dec_value (c :: r) <=? 10 * m10 n + ldpos n) with true by lia.
Qed.

Definition signed_fit (T : ity) (n : num) : Prop :=
  exists k, bound_length n = S k /\ lo T <= 0 /\ 9 <= hi T /\ 10 ^ Z.of_nat k - 1 <= hi T /\
    0 <= ldpos n <= 9 /\ 0 <= ldneg n <= 9 /\ ldneg n <> ldpos n /\ 0 <= m10 n <= hi T /\
    10 ^ Z.of_nat k <= 10 * m10 n /\ 10 * m10 n + 9 < 10 ^ Z.of_nat (S k) /\
    10 * m10 n + ldpos n <= hi T.

Lemma not_digit_plus r : ~ Forall is_digit ("+"%char :: r).
Proof. intros H; inversion H; subst. unfold is_digit in H2. simpl in H2. lia. Qed.
Lemma not_digit_minus r : ~ Forall is_digit ("-"%char :: r).
Proof. intros H; inversion H; subst. unfold is_digit in H2. simpl in H2. lia. Qed.

(* what the two final statements (17492-17494) compute for magnitude z *)
Definition finish_neg (T : ity) (z : Z) : outcome (option Z) :=
  t <- arith T z ;; v <- arith T (- t) ;; Ok (Some v).

(* A value v is accepted / overflows / is refused *)
Lemma signed_parse_text T n s v : signed_fit T n -> signed_text s v ->
  parse_signed T n s =
  if (- (10 * m10 n + ldneg n) <=? v) && (v <=? 10 * m10 n + ldpos n) then
    if v <? 0 then finish_neg T (- v) else Ok (Some v)
  else Ok None.
Proof.
  intros (k & Hk & Hlo & H9 & Hp & Hld & Hldn & Hne & Hm0 & Hm1 & Hm2 & Hhi) (sg & ds & Es & (Hd0 & Hd) & Hv).
  pose proof (dec_bounds _ Hd) as Hb. destruct ds as [|d r]; [congruence|].
  assert (HB : forall ld kont, 0 <= ld <= 9 ->
     body T (bound_length n) (cast T (m10 n)) (m10 n) ld (cast T) (d :: r) kont =
     if dec_value (d :: r) <=? 10 * m10 n + ld then kont (dec_value (d :: r)) else Ok None).
  { intros ld kont Hl. rewrite Hk, (cast_ok T (m10 n)) by lia.
    rewrite body_ok; try lia.
    2:{ intros; apply cast_ok; lia. }
    apply digb_all in Hd. rewrite Hd. reflexivity. }
  set (V := dec_value (d :: r)) in *.
  destruct Hv as [[[->| ->] ->]|[-> ->]]; simpl in Es; subst s; rewrite parse_signed_body by auto.
  - assert (E1 : Ascii.eqb d "-" = false).
    { destruct (Ascii.eqb_spec d "-"); auto. subst d. now apply not_digit_minus in Hd. }
    assert (E2 : Ascii.eqb d "+" = false).
    { destruct (Ascii.eqb_spec d "+"); auto. subst d. now apply not_digit_plus in Hd. }
    rewrite E1, E2. cbn [orb andb]. cbv zeta. rewrite HB by auto.
    replace (- (10 * m10 n + ldneg n) <=? V) with true by lia. cbn [andb].
    destruct (Z.leb_spec V (10 * m10 n + ldpos n)); auto.
    replace (V <? 0) with false by lia. rewrite arith_ok by lia. reflexivity.
  - cbn [Ascii.eqb Bool.eqb orb andb]. cbv zeta. rewrite HB by auto.
    replace (- (10 * m10 n + ldneg n) <=? V) with true by lia. cbn [andb].
    destruct (Z.leb_spec V (10 * m10 n + ldpos n)); auto.
    replace (V <? 0) with false by lia. rewrite arith_ok by lia. reflexivity.
  - cbn [Ascii.eqb Bool.eqb orb andb]. cbv zeta. rewrite HB by auto.
    replace (- V <=? 10 * m10 n + ldpos n) with true by lia. rewrite andb_true_r.
    destruct (Z.leb_spec V (10 * m10 n + ldneg n)).
    2:{ now replace (- (10 * m10 n + ldneg n) <=? - V) with false by lia. }
    replace (- (10 * m10 n + ldneg n) <=? - V) with true by lia.
    destruct (Z.ltb_spec (- V) 0).
    + unfold finish_neg. now rewrite Z.opp_involutive.
    + assert (EV : V = 0) by lia. rewrite EV. rewrite arith_ok by lia. cbn [bind].
      rewrite arith_ok by lia. reflexivity.
Qed.

Lemma signed_parse_other T n s : signed_fit T n -> (forall v, ~ signed_text s v) ->
  parse_signed T n s = Ok None.
Proof.
  intros (k & Hk & Hlo & H9 & Hp & Hld & Hldn & Hne & Hm0 & Hm1 & Hm2 & Hhi) Hno.
  destruct s as [|c r]; auto. rewrite parse_signed_body by auto. cbv zeta.
  assert (HB : forall ld s1 kont, 0 <= ld <= 9 -> forallb digb s1 = false ->
     body T (bound_length n) (cast T (m10 n)) (m10 n) ld (cast T) s1 kont = Ok None).
  { intros ld s1 kont Hl Hf. rewrite Hk, (cast_ok T (m10 n)) by lia.
    rewrite body_ok; try lia.
    2:{ intros; apply cast_ok; lia. }
    rewrite Hf. reflexivity. }
  assert (Hld' : 0 <= (if Ascii.eqb c "-" then ldneg n else ldpos n) <= 9) by (destruct (Ascii.eqb c "-"); lia).
  destruct (Ascii.eqb c "-" || Ascii.eqb c "+") eqn:Es; cbn [andb].
  - destruct r as [|d r]; auto. apply HB; auto.
    destruct (forallb digb (d :: r)) eqn:E; auto. apply digb_all in E. exfalso.
    apply orb_true_iff in Es. destruct Es as [Es|Es]; apply Ascii.eqb_eq in Es; subst c.
    + apply (Hno (- dec_value (d :: r))). exists ["-"%char], (d :: r).
      split; [reflexivity|]. split; [split; [discriminate|auto]|]. right. auto.
    + apply (Hno (dec_value (d :: r))). exists ["+"%char], (d :: r).
      split; [reflexivity|]. split; [split; [discriminate|auto]|]. left. auto.
  - apply HB; auto. destruct (forallb digb (c :: r)) eqn:E; auto. apply digb_all in E. exfalso.
    apply (Hno (dec_value (c :: r))). exists [], (c :: r).
    split; [reflexivity|]. split; [split; [discriminate|auto]|]. left. auto.
Qed.

Lemma signed_text_dec s : (exists v, signed_text s v) \/ (forall v, ~ signed_text s v).
Proof.
  destruct s as [|c r].
  { right. intros v (sg & ds & E & (Hne & _) & _). symmetry in E. apply app_eq_nil in E. tauto. }
  destruct (forallb digb (c :: r)) eqn:E1.
  { apply digb_all in E1. left. exists (dec_value (c :: r)), [], (c :: r).
    split; [reflexivity|]. split; [split; [discriminate|auto]|]. left. auto. }
  destruct (Ascii.eqb_spec c "-") as [Hc|Hm]; [|destruct (Ascii.eqb_spec c "+") as [Hc|Hp]].
  - subst c. destruct r as [|d r]; [|destruct (forallb digb (d :: r)) eqn:E2].
    + right. intros v (sg & ds & E & (Hne & Hd) & [[[->| ->] _]|[-> _]]); simpl in E.
      * subst ds. now apply not_digit_minus in Hd.
      * discriminate.
      * injection E as <-. congruence.
    + apply digb_all in E2. left. exists (- dec_value (d :: r)), ["-"%char], (d :: r).
      split; [reflexivity|]. split; [split; [discriminate|auto]|]. right. auto.
    + right. intros v (sg & ds & E & (Hne & Hd) & [[[->| ->] _]|[-> _]]); simpl in E.
      * subst ds. now apply not_digit_minus in Hd.
      * discriminate.
      * injection E as <-. apply digb_all in Hd. congruence.
  - subst c. destruct r as [|d r]; [|destruct (forallb digb (d :: r)) eqn:E2].
    + right. intros v (sg & ds & E & (Hne & Hd) & [[[->| ->] _]|[-> _]]); simpl in E.
      * subst ds. now apply not_digit_plus in Hd.
      * injection E as <-. congruence.
      * discriminate.
    + apply digb_all in E2. left. exists (dec_value (d :: r)), ["+"%char], (d :: r).
      split; [reflexivity|]. split; [split; [discriminate|auto]|]. left. auto.
    + right. intros v (sg & ds & E & (Hne & Hd) & [[[->| ->] _]|[-> _]]); simpl in E.
      * subst ds. now apply not_digit_plus in Hd.
      * injection E as <-. apply digb_all in Hd. congruence.
      * discriminate.
  - right. intros v (sg & ds & E & (Hne & Hd) & [[[->| ->] _]|[-> _]]); simpl in E; try congruence.
    subst ds. apply digb_all in Hd. congruence.
Qed.

Lemma signed_text_fun s v w : signed_text s v -> signed_text s w -> v = w.
Proof.
  intros (sg & ds & E & (Hne & Hd) & Hv) (sg' & ds' & E' & (Hne' & Hd') & Hw).
  subst s.
  destruct Hv as [[[->| ->] ->]|[-> ->]]; destruct Hw as [[[->| ->] ->]|[-> ->]]; simpl in E';
    try discriminate; try (injection E' as <-); subst; auto; exfalso;
    try (now apply not_digit_plus in Hd); try (now apply not_digit_minus in Hd);
    try (now apply not_digit_plus in Hd'); try (now apply not_digit_minus in Hd').
Qed.

(* the exact behaviour, given that the final statements do their job *)
Lemma signed_exact T n s : signed_fit T n ->
  (forall z, 0 < z <= 10 * m10 n + ldneg n -> signed_text s (- z) -> finish_neg T z = Ok (Some (- z))) ->
  (exists o, parse_signed T n s = Ok o) /\
  forall v, parse_signed T n s = Ok (Some v) <->
            signed_text s v /\ - (10 * m10 n + ldneg n) <= v <= 10 * m10 n + ldpos n.
Proof.
  intros Hf Hfin. destruct (signed_text_dec s) as [[w Hw]|Hno].
  2:{ rewrite signed_parse_other by auto. split; [eexists; reflexivity|].
      intros v; split; [discriminate|]. intros [H _]. now apply Hno in H. }
  assert (E : parse_signed T n s =
    Ok (if (- (10 * m10 n + ldneg n) <=? w) && (w <=? 10 * m10 n + ldpos n) then Some w else None)).
  { rewrite (signed_parse_text T n s w Hf Hw).
    destruct (Z.leb_spec (- (10 * m10 n + ldneg n)) w); cbn [andb]; auto.
    destruct (Z.leb_spec w (10 * m10 n + ldpos n)); auto.
    destruct (Z.ltb_spec w 0); auto. rewrite Hfin; rewrite ?Z.opp_involutive; auto. lia. }
  rewrite E. split; [eexists; reflexivity|]. intros v.
  destruct (Z.leb_spec (- (10 * m10 n + ldneg n)) w); cbn [andb];
    [destruct (Z.leb_spec w (10 * m10 n + ldpos n))|].
  - split; [intros Hq; injection Hq as <-; auto|].
    intros [Hv _]. f_equal. f_equal. eauto using signed_text_fun.
  - split; [discriminate|]. intros [Hv Hr]. pose proof (signed_text_fun _ _ _ Hv Hw). lia.
  - split; [discriminate|]. intros [Hv Hr]. pose proof (signed_text_fun _ _ _ Hv Hw). lia.
Qed.

Lemma finish_neg_ok T z : lo T <= - hi T -> 0 < z <= hi T -> finish_neg T z = Ok (Some (- z)).
Proof.
  intros H1 H2. unfold finish_neg. rewrite arith_ok by lia. cbn [bind]. rewrite arith_ok by lia.
  reflexivity.
Qed.

Ltac fit k := exists k; repeat split; vm_compute; congruence.

Lemma fit_ushort : unsigned_fit t_ushort n_ushort. Proof. fit 4%nat. Qed.
Lemma fit_uint : unsigned_fit t_uint n_uint. Proof. fit 9%nat. Qed.
Lemma fit_ulong : unsigned_fit t_ulong n_ulong. Proof. fit 9%nat. Qed.
Lemma fit_ullong : unsigned_fit t_ullong n_ullong. Proof. fit 19%nat. Qed.
Lemma fit_short : signed_fit t_short n_short. Proof. fit 4%nat. Qed.
Lemma fit_int : signed_fit t_int n_int. Proof. fit 9%nat. Qed.
Lemma fit_long : signed_fit t_long n_long. Proof. fit 9%nat. Qed.
Lemma fit_llong : signed_fit t_llong n_llong. Proof. fit 18%nat. Qed.

Lemma finish_short z : 0 < z <= 32768 -> finish_neg t_short z = Ok (Some (- z)).
Proof.
  intros H. destruct (Z.eq_dec z 32768) as [->|Hne]; [reflexivity|].
  apply finish_neg_ok; cbn; lia.
Qed.
