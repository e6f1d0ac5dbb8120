(* Proofs about the parser of floating point numbers: words, tails, the whole parser. *)
From Verif Require Import Base Num_Spec Real_Model Real_Spec Real_Proofs.
From Coq Require Import ZArith.
Local Open Scope nat_scope.

Section Parser.
Variable O : reals.

Lemma inf_loop p w word : length w < length word ->
  exists b : bool, loop (S (length (p ++ w)))
      (fun st : nat * nat => let (itr, i) := st in
         if length (p ++ w) =? itr then Ok (inr true)
         else w' <- rd word i ;; c <- rd (p ++ w) itr ;;
              if Ascii.eqb w' c then Ok (inl (itr + 1, i + 1)) else Ok (inr false)) (length p, 0) = Ok b /\
    (b = true <-> firstn (length w) word = w).
Proof.
  intros Hl. apply holds_ex.
  apply loop_rule with (I := fun st => exists i, st = (length p + i, i) /\ i <= length w /\ firstn i word = firstn i w)
                       (mu := fun st => length (p ++ w) - fst st).
  - intros st (i & -> & Hi & E). rewrite app_length.
    destruct (Nat.eqb_spec (length p + length w) (length p + i)) as [He|Hne].
    + cbn [holds]. assert (i = length w) by lia. subst i. rewrite firstn_all in E. tauto.
    + destruct (rd_ok word i ltac:(lia)) as (a & Ea & Na). rewrite Ea. cbn [bind].
      destruct (rd_ok w i ltac:(lia)) as (c & Ec & Nc). rewrite rd_app_r by lia.
      replace (length p + i - length p) with i by lia. rewrite Ec. cbn [bind].
      destruct (Ascii.eqb_spec a c) as [->|Hn]; cbn [holds].
      * split; [|cbn [fst]; lia]. exists (i + 1). split; [f_equal; lia|]. split; [lia|].
        rewrite Nat.add_1_r. rewrite (firstn_S_nth word i c Na), (firstn_S_nth w i c Nc). now f_equal.
      * split; [discriminate|]. intros H. exfalso. apply Hn.
        assert (X : nth_error (firstn (length w) word) i = nth_error w i) by now rewrite H.
        rewrite nth_error_firstn in X. destruct (Nat.ltb_spec i (length w)); [congruence|lia].
  - exists 0. rewrite Nat.add_0_r. repeat split; auto. lia.
  - cbn [fst]. rewrite app_length. lia.
Qed.

Lemma eq_len {A} (a b : list A) : a = b -> length a = length b.
Proof. now intros ->. Qed.

Lemma parse_inf_ok p w neg : w <> [] -> exists r, parse_inf O (p ++ w) (length p) neg = Ok r /\
  (r = Some (t_inf O neg) /\ infinity_word w \/ r = None /\ ~ infinity_word w).
Proof.
  intros Hne. unfold parse_inf. replace (length (p ++ w) - length p) with (length w) by (rewrite app_length; lia).
  destruct (Nat.eqb_spec (length w) 3) as [E3|N3]; [|destruct (Nat.eqb_spec (length w) 8) as [E8|N8]]; cbn [negb andb].
  3:{ exists None. split; [reflexivity|]. right. split; [reflexivity|].
      intros [H|[H|[H|[H|[]]]]]; apply eq_len in H; cbn in H; lia. }
  all: destruct w as [|c w0]; [congruence|].
  all: rewrite rd_at; cbn [bind]; set (w := c :: w0) in *.
  all: match goal with |- context [loop _ (fun st => let (itr, i) := st in _)] =>
         destruct (inf_loop p w (if Ascii.eqb c "i" then inf_lc else inf_uc)) as (b & Eb & Hb) end.
  1,3: destruct (Ascii.eqb c "i"); cbn; cbn in *; lia.
  all: rewrite Eb; cbn [bind].
  all: destruct b; [exists (Some (t_inf O neg)); split; [reflexivity|left; split; [reflexivity|]]
                   |exists None; split; [reflexivity|right; split; [reflexivity|]]].
  all: rewrite ?E3, ?E8 in Hb.
  1,3: destruct Hb as [Hb _]; specialize (Hb eq_refl); destruct (Ascii.eqb c "i"); cbn in Hb; rewrite <- Hb; unfold infinity_word; cbn; auto.
  all: intros Hw; assert (false = true) as X; [apply Hb|discriminate X].
  all: assert (Hw' := Hw); destruct Hw' as [H|[H|[H|[H|[]]]]]; rewrite <- H in *; unfold w in H; injection H as <- <-; cbn in *; try lia; reflexivity.
Qed.

Lemma parse_nan_ok p w : starts (fun c => c = "n"%char \/ c = "N"%char) w -> exists r, parse_nan O (p ++ w) (length p) = Ok r /\
  (r = Some (t_nan O) /\ nan_word w \/ r = None /\ ~ nan_word w).
Proof.
  intros Hst. unfold parse_nan. replace (length (p ++ w) - length p) with (length w) by (rewrite app_length; lia).
  destruct (Nat.eqb_spec (length w) 3) as [E3|N3]; cbn [negb].
  2:{ exists None. split; [reflexivity|]. right. split; [reflexivity|].
      intros [H|[H|[]]]; apply eq_len in H; cbn in H; lia. }
  destruct w as [|c [|c1 [|c2 [|? ?]]]]; try discriminate. clear E3. cbn in Hst.
  rewrite rd_at. cbn [bind].
  rewrite (rd_app_r p _ (length p + 1)), (rd_app_r p _ (length p + 2)) by lia.
  replace (length p + 1 - length p) with 1 by lia. replace (length p + 2 - length p) with 2 by lia.
  unfold rd at 1 2. cbn [nth_error bind].
  destruct Hst as [->| ->]; cbn [Ascii.eqb Bool.eqb].
  - destruct (Ascii.eqb_spec c1 "a") as [->|Ha]; destruct (Ascii.eqb_spec c2 "n") as [->|Hb]; cbn [negb orb]; (eexists; split; [reflexivity|]).
    + left. split; auto. left. reflexivity.
    + right. split; auto. intros [H|[H|[]]]; injection H; congruence.
    + right. split; auto. intros [H|[H|[]]]; injection H; congruence.
    + right. split; auto. intros [H|[H|[]]]; injection H; congruence.
  - destruct (Ascii.eqb_spec c1 "A") as [->|Ha]; destruct (Ascii.eqb_spec c2 "N") as [->|Hb]; cbn [negb orb]; (eexists; split; [reflexivity|]).
    + left. split; auto. right. left. reflexivity.
    + right. split; auto. intros [H|[H|[]]]; injection H; congruence.
    + right. split; auto. intros [H|[H|[]]]; injection H; congruence.
    + right. split; auto. intros [H|[H|[]]]; injection H; congruence.
Qed.

Definition word_value (neg : bool) (w : list ascii) (v : target O) : Prop :=
  infinity_word w /\ v = t_inf O neg \/ nan_word w /\ v = t_nan O.

Lemma parse_word_ok p w neg : w <> [] -> exists r, parse_word O (p ++ w) (length p) neg = Ok r /\
  match r with Some v => word_value neg w v | None => forall v, ~ word_value neg w v end.
Proof.
  intros Hne. destruct w as [|c w0]; [congruence|]. unfold parse_word. rewrite rd_at. cbn [bind].
  assert (Hno : ~ In c (str "iInN") -> forall v, ~ word_value neg (c :: w0) v).
  { intros Hc v Hv. apply Hc. destruct Hv as [([H|[H|[H|[H|[]]]]] & _)|([H|[H|[]]] & _)]; injection H as <- _; cbn; tauto. }
  destruct ((73 <=? code c)%N && (code c <=? 110)%N) eqn:Er.
  2:{ exists None. split; [reflexivity|]. apply Hno. intros H. destruct H as [<-|[<-|[<-|[<-|[]]]]]; discriminate. }
  destruct (Ascii.eqb c "i" || Ascii.eqb c "I") eqn:Ei.
  { destruct (parse_inf_ok p (c :: w0) neg Hne) as (r & -> & [(-> & H)|(-> & H)]); (eexists; split; [reflexivity|]); cbn.
    - left; auto.
    - intros v [(Hv & _)|(Hv & _)]; auto. destruct Hv as [Hv|[Hv|[]]]; injection Hv as <- _; discriminate. }
  destruct (Ascii.eqb c "n" || Ascii.eqb c "N") eqn:En.
  { destruct (parse_nan_ok p (c :: w0)) as (r & -> & [(-> & H)|(-> & H)]).
    - cbn. apply orb_prop in En. rewrite !Ascii.eqb_eq in En. exact En.
    - eexists. split; [reflexivity|]. right. auto.
    - eexists. split; [reflexivity|]. intros v [(Hv & _)|(Hv & _)]; auto.
      destruct Hv as [Hv|[Hv|[Hv|[Hv|[]]]]]; injection Hv as <- _; discriminate. }
  exists None. split; [reflexivity|]. apply Hno. intros H. destruct H as [<-|[<-|[<-|[<-|[]]]]]; discriminate.
Qed.

Lemma suffix_ok c : is_suffix c = true <-> suffix_char c.
Proof.
  unfold is_suffix, suffix_char. cbn. split.
  - intros H. apply orb_prop in H. destruct H as [H|H]; [apply orb_prop in H; destruct H as [H|H]; [apply orb_prop in H; destruct H as [H|H]|]|];
      apply Ascii.eqb_eq in H; subst; auto.
  - intros [<-|[<-|[<-|[<-|[]]]]]; reflexivity.
Qed.
Lemma is_e_ok c : (Ascii.eqb c "e" || Ascii.eqb c "E") = true <-> In c (str "eE").
Proof.
  cbn. split.
  - intros H. apply orb_prop in H. destruct H as [H|H]; apply Ascii.eqb_eq in H; subst; auto.
  - intros [<-|[<-|[]]]; reflexivity.
Qed.
Lemma suffix_not_digit c : suffix_char c -> ~ is_digit c.
Proof. intros [<-|[<-|[<-|[<-|[]]]]]; unfold is_digit; cbn; lia. Qed.
Lemma suffix_not_sign c : suffix_char c -> ~ (c = "-"%char \/ c = "+"%char).
Proof. intros [<-|[<-|[<-|[<-|[]]]]] [H|H]; discriminate. Qed.
Lemma digit_not_sign c : is_digit c -> ~ (c = "-"%char \/ c = "+"%char).
Proof. intros H [->| ->]; unfold is_digit in H; cbn in H; lia. Qed.

Definition word_end (neg : bool) (x : list ascii) (v : target O) : Prop := exists pre w, x = pre ++ w /\ word_value neg w v.

(* the part behind the exponent *)
Definition rest_of_tail (s : list ascii) (itr : nat) (c : ascii) (exponent : Z) (negative : bool) : outcome ((nat * Z) + option (target O)) :=
  if length s =? itr then Ok (inl (itr, exponent))
  else if is_suffix c then Ok (inl (itr + 1, exponent))
  else if Ascii.eqb c "#" then
    if length s =? itr + 1 then Ok (inr None)
    else r <- parse_word O s (itr + 1) negative ;; Ok (inr r)
  else r <- parse_word O s itr negative ;; Ok (inr r).

Lemma rest_ok p c x e neg : exists r, rest_of_tail (p ++ c :: x) (length p) c e neg = Ok r /\
  match r with
  | inl (itr, e') => e' = e /\ suffix_char c /\ (itr = length (p ++ c :: x) -> x = [])
  | inr (Some v) => word_end neg (c :: x) v
  | inr None => True
  end.
Proof.
  unfold rest_of_tail. replace (length (p ++ c :: x) =? length p) with false
    by (symmetry; apply Nat.eqb_neq; rewrite app_length; cbn [length]; lia).
  destruct (is_suffix c) eqn:Es.
  { eexists. split; [reflexivity|]. apply suffix_ok in Es. split; auto. split; auto. rewrite app_length. cbn [length].
    destruct x; auto. cbn [length]. lia. }
  destruct (Ascii.eqb_spec c "#") as [->|Nh].
  - destruct (Nat.eqb_spec (length (p ++ "#"%char :: x)) (length p + 1)) as [El|Nl]; [eexists; split; [reflexivity|exact I]|].
    rewrite app_cons, <- (len_snoc p "#"%char).
    destruct (parse_word_ok (p ++ ["#"%char]) x neg) as (r & -> & Hr).
    { intros ->. apply Nl. rewrite app_length. reflexivity. }
    cbn [bind]. eexists. split; [reflexivity|]. destruct r as [v|]; auto. exists ["#"%char], x. auto.
  - destruct (parse_word_ok p (c :: x) neg) as (r & -> & Hr); [discriminate|].
    cbn [bind]. eexists. split; [reflexivity|]. destruct r as [v|]; auto. exists [], (c :: x). auto.
Qed.

Lemma parse_tail_eq p c x neg : parse_tail O (p ++ c :: x) (length p) neg =
  (if Ascii.eqb c "e" || Ascii.eqb c "E" then
     ' (ok, itr, exp) <- parse_exponent ((p ++ [c]) ++ x) (length (p ++ [c])) ;;
     if ok then rest_of_tail ((p ++ [c]) ++ x) itr c exp neg
     else if length ((p ++ [c]) ++ x) =? itr then Ok (inr None)
     else a <- rd ((p ++ [c]) ++ x) itr ;; rest_of_tail ((p ++ [c]) ++ x) itr a exp neg
   else rest_of_tail (p ++ c :: x) (length p) c 0 neg).
Proof.
  unfold parse_tail. replace (length (p ++ c :: x) =? length p) with false
    by (symmetry; apply Nat.eqb_neq; rewrite app_length; cbn [length]; lia).
  rewrite rd_at. cbn [bind]. rewrite <- (len_snoc p c). rewrite (app_cons p c x).
  destruct (Ascii.eqb c "e" || Ascii.eqb c "E"); [|reflexivity].
  destruct (parse_exponent ((p ++ [c]) ++ x) (length (p ++ [c]))) as [[[ok itr] e]| |]; cbn [bind]; auto.
  destruct ok; cbn [bind]; [reflexivity|]. destruct (length ((p ++ [c]) ++ x) =? itr) eqn:El; [reflexivity|].
  destruct (rd ((p ++ [c]) ++ x) itr); cbn [bind]; unfold rest_of_tail; rewrite ?El; reflexivity.
Qed.

Lemma tail_sound p x neg : exists r, parse_tail O (p ++ x) (length p) neg = Ok r /\
  match r with
  | inl (itr, e) => itr = length (p ++ x) -> tail_text e x \/ sloppy_tail e x
  | inr (Some v) => word_end neg x v
  | inr None => True
  end.
Proof.
  destruct x as [|c x].
  { rewrite app_nil_r. unfold parse_tail. rewrite Nat.eqb_refl. eexists. split; [reflexivity|]. intros _. left. left. left. auto. }
  rewrite parse_tail_eq. destruct (Ascii.eqb c "e" || Ascii.eqb c "E") eqn:Ee.
  2:{ destruct (rest_ok p c x 0 neg) as (r & -> & Hr). eexists. split; [reflexivity|].
      destruct r as [[itr e]|[v|]]; auto. destruct Hr as (-> & Hc & Hx). intros E. rewrite (Hx E).
      left. right. exists [], c. split; [reflexivity|]. split; auto. left. auto. }
  apply is_e_ok in Ee.
  destruct (parse_exponent_ok (p ++ [c]) x) as (ok & k & e & -> & Hcase). cbn [bind].
  set (q := p ++ [c]) in *. 
  destruct Hcase as [sgn sg Hs | sgn sg zs ds Hs Hz Hd Hne Hl | sgn sg zs r Hs Hz Hl | sgn sg zs ds j r Hs Hz Hd Hj Hl].
  - rewrite app_length, Nat.eqb_refl. eexists. split; [reflexivity|exact I].
  - unfold rest_of_tail. rewrite app_length, Nat.eqb_refl. eexists. split; [reflexivity|]. intros _.
    left. left. right. exists c, sgn, sg, zs, ds. repeat split; auto.
  - replace (length (q ++ sg ++ zs ++ r) =? length q + length (sg ++ zs)) with false
      by (symmetry; apply Nat.eqb_neq; rewrite !app_length; lia).
    destruct r as [|f r]; [cbn in Hl; lia|]. rewrite (app_assoc sg zs), (app_assoc q), <- app_length, rd_at. cbn [bind].
    destruct (rest_ok (q ++ sg ++ zs) f r 0 neg) as (o & -> & Ho). eexists. split; [reflexivity|].
    destruct o as [[itr e]|[v|]]; auto.
    + destruct Ho as (-> & Hf & Hx). intros E. rewrite Hx in Hl; [cbn in Hl; lia|]. rewrite E. unfold q. rewrite <- !app_assoc. reflexivity.
    + destruct Ho as (pre & w & E & Hw). rewrite E. exists (c :: (sg ++ zs) ++ pre), w. split; auto. cbn. rewrite <- !app_assoc. reflexivity.
  - destruct r as [|f r].
    + rewrite Nat.add_0_r. replace (length (q ++ sg ++ zs ++ ds ++ [j]) =? length q + length (sg ++ zs ++ ds)) with false
        by (symmetry; apply Nat.eqb_neq; rewrite !app_length; cbn [length]; lia).
      replace (q ++ sg ++ zs ++ ds ++ [j]) with ((q ++ sg ++ zs ++ ds) ++ [j]) by (now rewrite <- !app_assoc).
      rewrite <- app_length, rd_at. cbn [bind].
      destruct (rest_ok (q ++ sg ++ zs ++ ds) j [] (if sgn then - dec_value ds else dec_value ds) neg) as (o & -> & Ho). eexists. split; [reflexivity|].
      destruct o as [[itr e]|[v|]]; auto.
      * destruct Ho as (-> & Hf & Hx). intros _. rewrite app_length in Hl. cbn [length] in Hl.
        destruct (list_eq_dec ascii_dec (zs ++ ds) []) as [E|N].
        -- right. exists c, sgn, sg, zs, ds, [], j. repeat split; auto.
        -- left. right. exists (c :: sg ++ zs ++ ds), j. split; [cbn; now rewrite <- !app_assoc|]. split; auto.
           right. exists c, sgn, sg, zs, ds. repeat split; auto. lia.
      * destruct Ho as (pre & w & E & Hw). rewrite E. exists (c :: (sg ++ zs ++ ds) ++ pre), w. split; auto. cbn. rewrite <- !app_assoc. reflexivity.
    + replace (length (q ++ sg ++ zs ++ ds ++ j :: f :: r) =? length q + (length (sg ++ zs ++ ds) + 1)) with false
        by (symmetry; apply Nat.eqb_neq; rewrite !app_length; cbn [length]; lia).
      replace (q ++ sg ++ zs ++ ds ++ j :: f :: r) with ((q ++ sg ++ zs ++ ds ++ [j]) ++ f :: r) by (now rewrite <- !app_assoc).
      replace (length q + (length (sg ++ zs ++ ds) + 1)) with (length (q ++ sg ++ zs ++ ds ++ [j])) by (rewrite !app_length; cbn; lia).
      rewrite rd_at. cbn [bind].
      destruct (rest_ok (q ++ sg ++ zs ++ ds ++ [j]) f r (if sgn then - dec_value ds else dec_value ds) neg) as (o & -> & Ho). eexists. split; [reflexivity|].
      destruct o as [[itr e]|[v|]]; auto.
      * destruct Ho as (-> & Hf & Hx). intros E. 
        assert (r = []) as -> by (apply Hx; rewrite E; unfold q; rewrite <- !app_assoc; reflexivity).
        rewrite app_length in Hl. cbn [length] in Hl.
        right. exists c, sgn, sg, zs, ds, [j], f. repeat split; auto. right. split; [eauto|lia].
      * destruct Ho as (pre & w & E & Hw). rewrite E. exists (c :: (sg ++ zs ++ ds ++ [j]) ++ pre), w. split; auto. cbn. rewrite <- !app_assoc. reflexivity.
Qed.

(* leading zeros *)
Lemma dec_zeros zs ds : Forall (eq "0"%char) zs -> dec_value (zs ++ ds) = dec_value ds.
Proof.
  intros H. unfold dec_value. rewrite fold_left_app. replace (fold_left _ zs 0%Z) with 0%Z; auto.
  induction H as [|z zs <- _ IH]; auto.
Qed.
Lemma split_zeros ds : exists zs ds', ds = zs ++ ds' /\ Forall (eq "0"%char) zs /\ ~ starts (eq "0"%char) ds' /\ drop_zeros ds = ds'.
Proof.
  induction ds as [|c ds (zs & ds' & -> & Hz & Hs & E)]; [exists [], []; cbn; auto|].
  cbn [drop_zeros]. destruct (Ascii.eqb_spec c "0") as [->|N].
  - exists ("0"%char :: zs), ds'. cbn. auto.
  - exists [], (c :: zs ++ ds'). cbn. auto.
Qed.

Lemma tail_complete p x e neg : tail_text e x -> parse_tail O (p ++ x) (length p) neg = Ok (inl (length (p ++ x), e)).
Proof.
  assert (Sg : forall sg zs ds r, Forall (eq "0"%char) zs -> Forall is_digit ds -> zs ++ ds <> [] ->
     sg = @nil ascii -> ~ starts (fun c => c = "-"%char \/ c = "+"%char) (zs ++ ds ++ r)).
  { intros sg zs ds r Hz Hd Hne _. destruct zs as [|z zs].
    - cbn in Hne. destruct ds as [|d ds]; [congruence|]. inversion Hd; subst. cbn. now apply digit_not_sign.
    - inversion Hz; subst. cbn. intros [H|H]; discriminate. }
  intros [[[-> ->]|(c & sgn & sg & zs & ds & -> & Hc & Hs & Hz & Hd & Hne & Hl & ->)]
         |(x' & f & -> & Hf & [[-> ->]|(c & sgn & sg & zs & ds & -> & Hc & Hs & Hz & Hd & Hne & Hl & ->)])].
  - rewrite app_nil_r. unfold parse_tail. now rewrite Nat.eqb_refl.
  - rewrite parse_tail_eq. rewrite (proj2 (is_e_ok c) Hc).
    destruct (split_zeros ds) as (z2 & ds' & -> & Hz2 & Hs2 & _). apply Forall_app in Hd. destruct Hd as [_ Hd].
    rewrite app_length in Hl. rewrite dec_zeros by auto. rewrite (app_assoc zs).
    rewrite (parse_exponent_split (p ++ [c]) sgn sg (zs ++ z2) ds'); auto.
    2:{ intros E. specialize (Sg sg (zs ++ z2) ds' []). rewrite app_nil_r in Sg. apply Sg; auto; [apply Forall_app; auto|]. now rewrite <- app_assoc. }
    2:{ apply Forall_app. auto. }
    2:{ now rewrite <- app_assoc. }
    replace (length ds' <=? 4) with true by (symmetry; apply Nat.leb_le; lia).
    assert (E : forall s, length ((p ++ [c]) ++ sg ++ (zs ++ z2) ++ ds') = length s -> rest_of_tail s (length s) c (if sgn then - dec_value ds' else dec_value ds') neg =
      Ok (inl (length (p ++ c :: sg ++ (zs ++ z2) ++ ds'), if sgn then - dec_value ds' else dec_value ds')%Z)).
    { intros s Es. unfold rest_of_tail. rewrite Nat.eqb_refl. do 3 f_equal. rewrite <- Es, <- app_assoc. reflexivity. }
    destruct ds' as [|d0 d1].
    + cbn [length exponent_switch bind Nat.eqb negb andb].
      assert (L : length ((p ++ [c]) ++ sg ++ zs ++ z2) = length ((p ++ [c]) ++ sg ++ (zs ++ z2) ++ [])) by (now rewrite app_nil_r).
      rewrite L. specialize (E _ eq_refl). cbn in E |- *. destruct sgn; exact E.
    + destruct (list_snoc (d0 :: d1) ltac:(discriminate)) as (ds & b & Eb). rewrite Eb in *. clear Eb d0 d1.
      apply Forall_app in Hd. destruct Hd as [Hd Hb]. inversion Hb as [|? ? Hb1 _]; subst.
      rewrite len_snoc. replace ((p ++ [c]) ++ sg ++ (zs ++ z2) ++ ds ++ [b]) with (((p ++ [c]) ++ sg ++ zs ++ z2) ++ ds ++ [b]) by (now rewrite <- !app_assoc).
      rewrite switch_digits by auto. cbn [bind].
      replace (length ds + 1 =? 0) with false by (symmetry; apply Nat.eqb_neq; lia). cbn [negb andb].
      rewrite digit_num by auto. rewrite <- dec_onto_snoc, dec_onto_0.
      specialize (E (((p ++ [c]) ++ sg ++ zs ++ z2) ++ ds ++ [b])).
      replace (length ((p ++ [c]) ++ sg ++ zs ++ z2) + length ds + 1) with (length (((p ++ [c]) ++ sg ++ zs ++ z2) ++ ds ++ [b]))
        by (rewrite !app_length; cbn [length]; lia).
      cbn [bind]. destruct sgn; apply E; now rewrite <- !app_assoc.
  - cbn [app]. rewrite parse_tail_eq. replace (Ascii.eqb f "e" || Ascii.eqb f "E") with false
      by (destruct Hf as [<-|[<-|[<-|[<-|[]]]]]; reflexivity).
    unfold rest_of_tail. replace (length (p ++ [f]) =? length p) with false
      by (symmetry; apply Nat.eqb_neq; rewrite app_length; cbn [length]; lia).
    rewrite (proj2 (suffix_ok f) Hf), len_snoc. reflexivity.
  - cbn [app]. rewrite parse_tail_eq. rewrite (proj2 (is_e_ok c) Hc).
    destruct (split_zeros ds) as (z2 & ds' & -> & Hz2 & Hs2 & _). apply Forall_app in Hd. destruct Hd as [_ Hd].
    rewrite app_length in Hl. rewrite dec_zeros by auto.
    replace ((sg ++ zs ++ z2 ++ ds') ++ [f]) with (sg ++ (zs ++ z2) ++ ds' ++ [f]) by (now rewrite <- !app_assoc).
    assert (Nf := suffix_not_digit f Hf).
    rewrite (parse_exponent_split (p ++ [c]) sgn sg (zs ++ z2) (ds' ++ [f])); auto.
    2:{ intros E. apply (Sg sg (zs ++ z2) ds' [f]); auto; [apply Forall_app; auto|]. now rewrite <- app_assoc. }
    2:{ apply Forall_app. auto. }
    2:{ destruct ds'; auto. cbn. intros <-. apply Nf, dig_zero. }
    2:{ destruct (zs ++ z2); [destruct ds'|]; discriminate. }
    rewrite len_snoc. replace (length ds' + 1 <=? 4) with true by (symmetry; apply Nat.leb_le; lia).
    replace ((p ++ [c]) ++ sg ++ (zs ++ z2) ++ ds' ++ [f]) with (((p ++ [c]) ++ sg ++ zs ++ z2) ++ ds' ++ [f]) by (now rewrite <- !app_assoc).
    rewrite <- (len_snoc ds' f), switch_other by auto. cbn [bind]. rewrite andb_false_r, dec_onto_0, Nat.add_0_r.
    set (q := (p ++ [c]) ++ sg ++ zs ++ z2).
    replace (length q + length ds') with (length (q ++ ds')) by (now rewrite app_length).
    assert (Hq : length (q ++ ds') + 1 = length (p ++ c :: sg ++ (zs ++ z2) ++ ds' ++ [f])).
    { unfold q. rewrite <- len_snoc with (c := f). rewrite <- !app_assoc. reflexivity. }
    assert (E : forall e, rest_of_tail ((q ++ ds') ++ [f]) (length (q ++ ds')) f e neg = Ok (inl (length (p ++ c :: sg ++ (zs ++ z2) ++ ds' ++ [f]), e))).
    { intros e. unfold rest_of_tail. replace (length ((q ++ ds') ++ [f]) =? length (q ++ ds')) with false
        by (symmetry; apply Nat.eqb_neq; rewrite !app_length; cbn [length]; lia).
      rewrite (proj2 (suffix_ok f) Hf), Hq. reflexivity. }
    assert (Nl : (length ((q ++ ds') ++ [f]) =? length (q ++ ds')) = false)
      by (apply Nat.eqb_neq; rewrite !app_length; cbn [length]; lia).
    rewrite (app_assoc q).
    destruct sgn; cbn [bind]; rewrite Nl, rd_at; apply E.
Qed.

Lemma tail_word p w v neg : word_value neg w v ->
  parse_tail O (p ++ w) (length p) neg = Ok (inr (Some v)) /\ parse_tail O (p ++ "#"%char :: w) (length p) neg = Ok (inr (Some v)).
Proof.
  intros Hw.
  assert (Hc : exists c w0, w = c :: w0 /\ In c (str "iInN")).
  { destruct Hw as [([H|[H|[H|[H|[]]]]] & _)|([H|[H|[]]] & _)]; subst w; do 2 eexists; (split; [reflexivity|cbn; tauto]). }
  destruct Hc as (c & w0 & -> & Hc).
  assert (U : forall q r, parse_word O (q ++ c :: w0) (length q) neg = Ok r -> r = Some v).
  { intros q r E. destruct (parse_word_ok q (c :: w0) neg) as (r' & E' & Hr); [discriminate|]. rewrite E in E'. injection E' as <-.
    destruct r as [v'|]; [|now specialize (Hr v)]. f_equal.
    destruct Hw as [(H & ->)|(H & ->)], Hr as [(H' & ->)|(H' & ->)]; auto; exfalso.
    all: destruct H as [H|[H|H]], H' as [H'|[H'|H']]; try (destruct H as [H|[H|[]]]); try (destruct H' as [H'|[H'|[]]]); try contradiction;
      rewrite <- H in H'; discriminate. }
  split.
  - rewrite parse_tail_eq. replace (Ascii.eqb c "e" || Ascii.eqb c "E") with false
      by (destruct Hc as [<-|[<-|[<-|[<-|[]]]]]; reflexivity).
    unfold rest_of_tail. replace (length (p ++ c :: w0) =? length p) with false
      by (symmetry; apply Nat.eqb_neq; rewrite app_length; cbn [length]; lia).
    replace (is_suffix c) with false by (destruct Hc as [<-|[<-|[<-|[<-|[]]]]]; reflexivity).
    replace (Ascii.eqb c "#") with false by (destruct Hc as [<-|[<-|[<-|[<-|[]]]]]; reflexivity).
    destruct (parse_word_ok p (c :: w0) neg) as (r & E & _); [discriminate|]. rewrite E. cbn [bind]. now rewrite (U _ _ E).
  - rewrite parse_tail_eq. cbn [Ascii.eqb Bool.eqb orb].
    unfold rest_of_tail. replace (length (p ++ "#"%char :: c :: w0) =? length p) with false
      by (symmetry; apply Nat.eqb_neq; rewrite app_length; cbn [length]; lia).
    cbn [is_suffix Ascii.eqb Bool.eqb orb].
    replace (length (p ++ "#"%char :: c :: w0) =? length p + 1) with false
      by (symmetry; apply Nat.eqb_neq; rewrite app_length; cbn [length]; lia).
    rewrite app_cons, <- (len_snoc p "#"%char).
    destruct (parse_word_ok (p ++ ["#"%char]) (c :: w0) neg) as (r & E & _); [discriminate|]. rewrite E. cbn [bind]. now rewrite (U _ _ E).
Qed.
End Parser.
