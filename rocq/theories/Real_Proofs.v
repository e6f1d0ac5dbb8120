(* Proofs about the parser of floating point numbers. *)
From Verif Require Import Base Num_Spec Real_Model Real_Spec.
From Coq Require Import ZArith.
Local Open Scope nat_scope.

Lemma is_digit_dec c : {is_digit c} + {~ is_digit c}.
Proof.
  unfold is_digit. destruct (((48 <=? N_of_ascii c) && (N_of_ascii c <=? 57))%N) eqn:E.
  - left. apply andb_prop in E. rewrite !N.leb_le in E. exact E.
  - right. intros [H1 H2]. apply N.leb_le in H1, H2. rewrite H1, H2 in E. discriminate.
Defined.
Definition starts (P : ascii -> Prop) (l : list ascii) : Prop := match l with c :: _ => P c | [] => False end.
Lemma span_ex (P : ascii -> Prop) (dec : forall c, {P c} + {~ P c}) l :
  exists a b, l = a ++ b /\ Forall P a /\ ~ starts P b.
Proof.
  induction l as [|c l (a & b & -> & H1 & H2)].
  - exists [], []. cbn. auto.
  - destruct (dec c); [exists (c :: a), b|exists [], (c :: a ++ b)]; cbn; auto.
Qed.

Lemma rd_at {A} (p : list A) c r : rd (p ++ c :: r) (length p) = Ok c.
Proof. now rewrite rd_here. Qed.

Lemma digit_at_digit p c r : is_digit c -> digit_at (p ++ c :: r) (length p) = Ok (Some (code c - 48)%N).
Proof.
  intros [H1 H2]. unfold digit_at. rewrite rd_at. cbn [bind]. unfold code.
  apply N.leb_le in H1, H2. now rewrite H1, H2.
Qed.
Lemma digit_at_other p c r : ~ is_digit c -> digit_at (p ++ c :: r) (length p) = Ok None.
Proof.
  intros H. unfold digit_at. rewrite rd_at. cbn [bind]. unfold code, is_digit in *.
  destruct (N.leb_spec 48 (N_of_ascii c)); [|reflexivity]. destruct (N.leb_spec (N_of_ascii c) 57); [|reflexivity]. lia.
Qed.
Lemma app_cons {A} (p : list A) c r : p ++ c :: r = (p ++ [c]) ++ r.
Proof. now rewrite <- app_assoc. Qed.
Lemma len_snoc {A} (p : list A) c : length (p ++ [c]) = length p + 1.
Proof. now rewrite app_length. Qed.

Lemma skip_zeros_ok p zs r : Forall (eq "0"%char) zs -> ~ starts (eq "0"%char) r ->
  skip_zeros (p ++ zs ++ r) (length p) = Ok (length p + length zs).
Proof.
  intros Hz Hr. apply holds_eq. unfold skip_zeros.
  apply loop_rule with (I := fun itr => exists a b, zs = a ++ b /\ itr = length p + length a) (mu := fun itr => length (p ++ zs ++ r) - itr).
  - intros itr (a & b & -> & ->).
    destruct b as [|c b].
    + rewrite app_nil_r. destruct r as [|c r].
      * rewrite app_nil_r, app_length, Nat.eqb_refl. cbn [holds]. reflexivity.
      * replace (length (p ++ a ++ c :: r) =? length p + length a) with false
          by (symmetry; apply Nat.eqb_neq; rewrite !app_length; cbn [length]; lia).
        rewrite app_assoc, <- app_length, rd_at. cbn [bind]. destruct (Ascii.eqb_spec c "0"); cbn [holds]; [|reflexivity].
        exfalso. apply Hr. cbn. auto.
    + replace (length (p ++ (a ++ c :: b) ++ r) =? length p + length a) with false
        by (symmetry; apply Nat.eqb_neq; rewrite !app_length; cbn [length]; lia).
      rewrite <- app_assoc, (app_assoc p), <- app_length. cbn [app]. rewrite rd_at. cbn [bind].
      assert (c = "0"%char) as -> by (symmetry; eapply Forall_forall; [exact Hz|apply in_or_app; right; left; reflexivity]).
      cbn [Ascii.eqb holds]. split; [|rewrite !app_length; cbn [length]; lia].
      exists (a ++ ["0"%char]), b. split; [apply app_cons|]. rewrite !app_length. cbn [length]. lia.
  - exists [], zs. cbn. split; auto.
  - rewrite !app_length. lia.
Qed.

Section Parser.
Variable O : reals.
Notation push := (push O).
Definition push_all (ds : list ascii) (d : real_t O) : real_t O := fold_left (fun d c => push d (N_of_ascii c - 48)) ds d.

Lemma parse_digits_ok p ds r d : Forall is_digit ds -> ~ starts is_digit r ->
  parse_digits O (p ++ ds ++ r) (length p) d = Ok (length p + length ds, push_all ds d).
Proof.
  intros Hz Hr. apply holds_eq. unfold parse_digits. set (s := p ++ ds ++ r).
  set (I := fun st : nat * real_t O => exists a b, ds = a ++ b /\ st = (length p + length a, push_all a d)).
  set (E := (length p + length ds, push_all ds d)).
  assert (Step : forall to_end st, I st -> fst st <> length s -> exists st',
    parse_digit O to_end s st = Ok (inr E) \/
    (parse_digit O to_end s st = Ok (inl st') /\ I st' /\ fst st' = fst st + 1 /\ (to_end = true -> fst st' <> length s))).
  { intros to_end st (a & b & Hab & ->) Hne. cbn [fst] in Hne. unfold parse_digit.
    destruct b as [|c b].
    - rewrite app_nil_r in Hab. subst a. exists E. left. destruct r as [|c r].
      { exfalso. apply Hne. unfold s. rewrite app_nil_r, app_length. lia. }
      unfold s. rewrite app_assoc, <- app_length. rewrite digit_at_other by (intros H; apply Hr; exact H). cbn [bind].
      unfold E. now rewrite app_length.
    - assert (Hc : is_digit c) by (eapply Forall_forall; [exact Hz|subst ds; apply in_or_app; right; left; reflexivity]).
      assert (Es : s = (p ++ a) ++ c :: (b ++ r)) by (unfold s; rewrite Hab, <- !app_assoc; reflexivity).
      assert (Ed : digit_at s (length (p ++ a)) = Ok (Some (code c - 48)%N)) by (rewrite Es; now apply digit_at_digit).
      rewrite <- app_length, Ed. cbn [bind].
      assert (HI : I (length (p ++ a) + 1, push (push_all a d) (code c - 48))).
      { exists (a ++ [c]), b. split; [now rewrite <- app_assoc|]. f_equal; [rewrite !app_length; cbn [length]; lia|].
        unfold push_all. now rewrite fold_left_app. }
      destruct (to_end && (length s =? length (p ++ a) + 1)) eqn:Et.
      + exists E. left. apply andb_prop in Et. destruct Et as [_ Et]. apply Nat.eqb_eq in Et.
        rewrite Es, !app_length in Et. cbn [length] in Et. rewrite app_length in Et.
        destruct b; [|cbn [length] in Et; lia].
        unfold E. rewrite Hab. do 2 f_equal. f_equal; [rewrite !app_length; cbn [length]; lia|].
        unfold push_all. now rewrite fold_left_app.
      + eexists. right. split; [reflexivity|]. split; [exact HI|]. cbn [fst]. rewrite app_length. split; [reflexivity|].
        intros ->. cbn [andb] in Et. apply Nat.eqb_neq in Et. rewrite app_length in Et. lia. }
  apply loop_rule with (I := I) (mu := fun st => length s - fst st).
  - intros st HI. destruct (Nat.eqb_spec (length s) (fst st)) as [He|Hne].
    + cbn [holds]. destruct HI as (a & b & Hab & ->). cbn [fst] in He. unfold s in He. rewrite Hab, !app_length in He.
      destruct b; [|cbn [length] in He; lia]. rewrite app_nil_r in Hab. now subst a.
    + assert (Hlt : fst st <= length s).
      { destruct HI as (a & b & Hab & ->). cbn [fst]. unfold s. rewrite Hab, !app_length. lia. }
      destruct (Step true st HI) as (st1 & [->|(-> & HI1 & E1 & N1)]); [lia|reflexivity|]. cbn [bind].
      specialize (N1 eq_refl).
      destruct (Step true st1 HI1) as (st2 & [->|(-> & HI2 & E2 & N2)]); [lia|reflexivity|]. cbn [bind].
      specialize (N2 eq_refl).
      destruct (Step false st2 HI2) as (st3 & [->|(-> & HI3 & E3 & _)]); [lia|reflexivity|]. cbn [holds].
      split; [exact HI3|]. lia.
  - exists [], ds. cbn. split; auto. f_equal. lia.
  - cbn [fst]. lia.
Qed.
End Parser.

(* ---- exponent ---- *)
Definition dec_onto (ds : list ascii) (a : Z) : Z := fold_left (fun a c => 10 * a + digit_val c)%Z ds a.
Lemma digit_num c a : is_digit c -> (a * 10 + Z.of_N (code c - 48) = 10 * a + digit_val c)%Z.
Proof. unfold is_digit, digit_val, code. lia. Qed.

Lemma switch_SS n s itr a : n <> 0 -> exponent_switch (S n) s itr a =
  (o <- digit_at s itr ;;
   match o with
   | Some digit => exponent_switch n s (itr + 1) (a * 10 + Z.of_N digit)
   | None => Ok (false, itr + 1, a, 0%N)
   end).
Proof. destruct n; [congruence|reflexivity]. Qed.
Lemma switch_digits ds : Forall is_digit ds -> forall c p a, is_digit c ->
  exponent_switch (length ds + 1) (p ++ ds ++ [c]) (length p) a = Ok (true, length p + length ds, dec_onto ds a, (code c - 48)%N).
Proof.
  induction 1 as [|x ds Hx _ IH]; intros c p a Hc; cbn [length].
  - cbn [Nat.add exponent_switch app]. rewrite digit_at_digit by auto. cbn [bind dec_onto fold_left]. repeat f_equal. lia.
  - cbn [Nat.add]. rewrite switch_SS by lia. cbn [app]. rewrite digit_at_digit by auto. cbn [bind].
    rewrite (app_cons p x), <- (len_snoc p x). rewrite IH by auto. rewrite digit_num by auto. rewrite len_snoc.
    replace (length p + 1 + length ds) with (length p + S (length ds)) by lia. reflexivity.
Qed.
Lemma switch_other ds : Forall is_digit ds -> forall j r p a, ~ is_digit j ->
  exponent_switch (length (ds ++ j :: r)) (p ++ ds ++ j :: r) (length p) a =
    Ok (false, length p + length ds + (match r with [] => 0 | _ => 1 end), dec_onto ds a, 0%N).
Proof.
  induction 1 as [|x ds Hx _ IH]; intros j r p a Hj.
  - cbn [length app]. destruct r; cbn [length exponent_switch]; rewrite digit_at_other by auto; cbn [bind dec_onto fold_left]; repeat f_equal; lia.
  - rewrite <- app_comm_cons. cbn [length]. 
    rewrite switch_SS by (rewrite app_length; cbn [length]; lia). rewrite digit_at_digit by auto. cbn [bind].
    rewrite (app_cons p x), <- (len_snoc p x), IH by auto. rewrite digit_num by auto. rewrite len_snoc.
    replace (length p + 1 + length ds) with (length p + S (length ds)) by lia. reflexivity.
Qed.
Lemma dec_onto_snoc ds c a : dec_onto (ds ++ [c]) a = (10 * dec_onto ds a + digit_val c)%Z.
Proof. unfold dec_onto. now rewrite fold_left_app. Qed.
Lemma dec_onto_0 ds : dec_onto ds 0 = dec_value ds.
Proof. reflexivity. Qed.

(* what parse_exponent yields on y, the text behind the letter *)
Inductive exponent_case : list ascii -> bool -> nat -> Z -> Prop :=
| ec_nothing : forall neg sg, sign_text neg sg -> exponent_case sg false (length sg) 0
| ec_digits : forall neg sg zs ds, sign_text neg sg -> Forall (eq "0"%char) zs -> Forall is_digit ds -> zs ++ ds <> [] -> length ds <= 4 ->
    exponent_case (sg ++ zs ++ ds) true (length (sg ++ zs ++ ds)) (if neg then - dec_value ds else dec_value ds)
| ec_long : forall neg sg zs r, sign_text neg sg -> Forall (eq "0"%char) zs -> 4 < length r ->
    exponent_case (sg ++ zs ++ r) false (length (sg ++ zs)) 0
| ec_junk : forall neg sg zs ds j r, sign_text neg sg -> Forall (eq "0"%char) zs -> Forall is_digit ds -> ~ is_digit j ->
    length (ds ++ j :: r) <= 4 ->
    exponent_case (sg ++ zs ++ ds ++ j :: r) false (length (sg ++ zs ++ ds) + match r with [] => 0 | _ => 1 end)
      (if neg then - dec_value ds else dec_value ds).

Lemma sign_ex (y : list ascii) : exists neg sg r, y = sg ++ r /\ sign_text neg sg /\ (sg = [] -> ~ starts (fun c => c = "-"%char \/ c = "+"%char) r).
Proof.
  destruct y as [|c y]; [exists false, [], []; cbn; auto|].
  destruct (Ascii.eqb_spec c "-") as [->|N1]; [exists true, ["-"%char], y; cbn; repeat split; auto; discriminate|].
  destruct (Ascii.eqb_spec c "+") as [->|N2]; [exists false, ["+"%char], y; cbn; repeat split; auto; discriminate|].
  exists false, [], (c :: y). cbn. repeat split; auto. intros _ [?|?]; auto.
Qed.
Lemma ascii_dec_eq (a : ascii) : forall c, {a = c} + {a <> c}.
Proof. intros c. apply ascii_dec. Defined.
Lemma list_snoc {A} (l : list A) : l <> [] -> exists l' c, l = l' ++ [c].
Proof. intros H. destruct (exists_last H) as (l' & c & E). eauto. Qed.

Lemma dig_zero : is_digit "0".
Proof. unfold is_digit. cbn. lia. Qed.

(* the computation, for a given split *)
Lemma parse_exponent_split p neg sg zs r : sign_text neg sg -> (sg = [] -> ~ starts (fun c => c = "-"%char \/ c = "+"%char) (zs ++ r)) ->
  Forall (eq "0"%char) zs -> ~ starts (eq "0"%char) r -> zs ++ r <> [] ->
  parse_exponent (p ++ sg ++ zs ++ r) (length p) =
   (' (ok, itr, result, digit) <-
        (if length r <=? 4 then exponent_switch (length r) (p ++ sg ++ zs ++ r) (length (p ++ sg ++ zs)) 0
         else Ok (false, length (p ++ sg ++ zs), 0%Z, 0%N)) ;;
      let '(itr, result) := if negb (length r =? 0) && ok then (itr + 1, (result * 10 + Z.of_N digit)%Z) else (itr, result) in
      Ok (ok, itr, if neg then (- result)%Z else result)).
Proof.
  intros Hs Hn Hz Hr Hne. set (s := p ++ sg ++ zs ++ r).
  assert (Hlen : length p <> length s).
  { unfold s. rewrite !app_length. destruct (zs ++ r) eqn:E; [congruence|]. apply (f_equal (@length _)) in E.
    rewrite app_length in E. cbn [length] in E. lia. }
  assert (Hlen2 : length s <> length (p ++ sg)).
  { unfold s. rewrite (app_assoc p sg), (app_length (p ++ sg)). destruct (zs ++ r) eqn:E; [congruence|]. cbn [length]. lia. }
  assert (Hz' : skip_zeros s (length (p ++ sg)) = Ok (length (p ++ sg ++ zs))).
  { unfold s. rewrite (app_assoc p sg), skip_zeros_ok by auto. rewrite !app_length. f_equal. lia. }
  assert (Hl : length s - length (p ++ sg ++ zs) = length r).
  { unfold s. rewrite !app_length. lia. }
  unfold parse_exponent. replace (length p =? length s) with false by (symmetry; now apply Nat.eqb_neq).
  assert (Hc : exists c, rd s (length p) = Ok c /\ Ascii.eqb c "-" = neg /\
     (if (Ascii.eqb c "-" || Ascii.eqb c "+") then length p + 1 else length p) = length (p ++ sg)).
  { destruct neg; cbn [sign_text] in Hs.
    - subst sg. exists "-"%char. unfold s. cbn [app]. rewrite rd_at, app_length. auto.
    - destruct Hs as [->| ->].
      + destruct (zs ++ r) as [|c y] eqn:E; [congruence|]. exists c. unfold s. cbn [app]. rewrite ?E, rd_at, app_nil_r.
        specialize (Hn eq_refl). cbn in Hn. destruct (Ascii.eqb_spec c "-"); [tauto|]. destruct (Ascii.eqb_spec c "+"); [tauto|]. auto.
      + exists "+"%char. unfold s. cbn [app]. rewrite rd_at, app_length. auto. }
  destruct Hc as (c & -> & E1 & E2). cbn [bind]. cbv zeta. rewrite E2.
  replace (length s =? length (p ++ sg)) with false by (symmetry; now apply Nat.eqb_neq). rewrite andb_false_r.
  rewrite Hz'. cbn [bind]. cbv zeta. rewrite Hl, E1. reflexivity.
Qed.

Lemma parse_exponent_ok p y : exists ok k e, parse_exponent (p ++ y) (length p) = Ok (ok, length p + k, e) /\ exponent_case y ok k e.
Proof.
  destruct (sign_ex y) as (neg & sg & y1 & -> & Hs & Hn).
  destruct (span_ex (eq "0"%char) (ascii_dec_eq "0") y1) as (zs & r & -> & Hz & Hr).
  destruct (list_eq_dec ascii_dec (zs ++ r) []) as [E|Hne].
  { rewrite E. rewrite app_nil_r. exists false, (length sg), 0%Z. split; [|econstructor; eauto].
    unfold parse_exponent. rewrite app_length. destruct sg as [|c sg].
    - cbn [length]. rewrite Nat.add_0_r, Nat.eqb_refl. reflexivity.
    - replace (length p =? length p + length (c :: sg)) with false by (symmetry; apply Nat.eqb_neq; cbn [length]; lia).
      rewrite rd_at. cbn [bind].
      assert (sg = [] /\ (Ascii.eqb c "-" || Ascii.eqb c "+") = true) as (-> & ->).
      { destruct neg; cbn [sign_text] in Hs; [injection Hs as -> ->; auto|]. destruct Hs as [Hs|Hs]; [discriminate|]. injection Hs as -> ->. auto. }
      cbn [length]. rewrite Nat.eqb_refl. cbn [andb]. reflexivity. }
  rewrite (parse_exponent_split p neg sg zs r Hs Hn Hz Hr Hne).
  destruct (Nat.leb_spec (length r) 4) as [Hl|Hl].
  2:{ cbn [bind]. rewrite andb_false_r. exists false, (length (sg ++ zs)), 0%Z. split.
      - rewrite app_length. destruct neg; reflexivity.
      - eapply ec_long; eauto. }
  destruct (span_ex is_digit is_digit_dec r) as (ds & x & -> & Hd & Hx).
  destruct x as [|j x].
  - rewrite app_nil_r in *. exists true, (length (sg ++ zs ++ ds)), (if neg then - dec_value ds else dec_value ds)%Z.
    split; [|eapply ec_digits; eauto].
    destruct ds as [|d0 ds0].
    + cbn [length exponent_switch bind Nat.eqb negb andb]. rewrite !app_nil_r, app_length. destruct neg; reflexivity.
    + destruct (list_snoc (d0 :: ds0) ltac:(discriminate)) as (ds & c & E). rewrite E in *. clear E d0 ds0.
      apply Forall_app in Hd. destruct Hd as [Hd Hc]. inversion Hc as [|? ? Hc1 _]; subst. clear Hc. rename Hc1 into Hc.
      rewrite len_snoc. replace (p ++ sg ++ zs ++ ds ++ [c]) with ((p ++ sg ++ zs) ++ ds ++ [c]) by (now rewrite <- !app_assoc).
      rewrite switch_digits by auto. cbn [bind].
      replace (length ds + 1 =? 0) with false by (symmetry; apply Nat.eqb_neq; lia). cbn [negb andb].
      rewrite digit_num by auto. rewrite <- dec_onto_snoc, dec_onto_0.
      replace (length (p ++ sg ++ zs) + length ds + 1) with (length p + length (sg ++ zs ++ ds ++ [c])) by (rewrite !app_length; cbn [length]; lia).
      destruct neg; reflexivity.
  - replace (p ++ sg ++ zs ++ ds ++ j :: x) with ((p ++ sg ++ zs) ++ ds ++ j :: x) by (now rewrite <- !app_assoc).
    rewrite switch_other by (auto; intros H; apply Hx; exact H). cbn [bind]. rewrite andb_false_r, dec_onto_0.
    exists false, (length (sg ++ zs ++ ds) + match x with [] => 0 | _ => 1 end), (if neg then - dec_value ds else dec_value ds)%Z.
    split; [|eapply ec_junk; eauto; intros H; apply Hx; exact H].
    replace (length (p ++ sg ++ zs) + length ds + match x with [] => 0 | _ => 1 end) with
      (length p + (length (sg ++ zs ++ ds) + match x with [] => 0 | _ => 1 end)) by (rewrite !app_length; lia).
    destruct neg; reflexivity.
Qed.
