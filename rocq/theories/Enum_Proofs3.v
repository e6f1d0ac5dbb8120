(* next_permutation and for_each_permutation. *)
From Verif Require Import Base Comb_Model Comb_Spec Comb_Proofs2 Comb_Proofs3 Enum_Model Enum_Spec Enum_Proofs Enum_Proofs2.
From Coq Require Import Permutation Sorted.

Section Order.
Context {T : Type}.
Variable lt : T -> T -> bool.
Hypothesis order : total_order lt.

Lemma lt_irrefl x : lt x x = false. Proof. apply order. Qed.
Lemma lt_trans x y z : lt x y = true -> lt y z = true -> lt x z = true. Proof. apply order. Qed.
Lemma lt_eq x y : lt x y = false -> lt y x = false -> x = y. Proof. apply order. Qed.
Lemma lt_asym x y : lt x y = true -> lt y x = false.
Proof.
  intros H. destruct (lt y x) eqn:E; [|reflexivity].
  pose proof (lt_trans _ _ _ H E) as F. rewrite lt_irrefl in F. discriminate.
Qed.
(* x >= y >= z *)
Lemma ge_trans x y z : lt x y = false -> lt y z = false -> lt x z = false.
Proof.
  intros H1 H2. destruct (lt x z) eqn:E; [|reflexivity].
  destruct (lt y x) eqn:E1.
  - rewrite (lt_trans _ _ _ E1 E) in H2. discriminate.
  - rewrite (lt_eq _ _ H1 E1) in E. congruence.
Qed.
Lemma lt_ge_trans x y z : lt x y = true -> lt z y = false -> lt x z = true.
Proof.
  intros H1 H2. destruct (lt x z) eqn:E; [reflexivity|].
  pose proof (ge_trans _ _ _ E H2). congruence.
Qed.

Definition descending (l : list T) : Prop := StronglySorted (fun x y => lt x y = false) l.

Lemma descending_cons x y l : lt x y = false -> descending (y :: l) -> descending (x :: y :: l).
Proof.
  intros H D. constructor; [exact D|]. inversion D as [|? ? D' F]; subst.
  constructor; [exact H|]. eapply Forall_impl; [|exact F]. cbv beta. intros z Hz. eapply ge_trans; eauto.
Qed.

Lemma ss_app {R : T -> T -> Prop} a b : StronglySorted R a -> StronglySorted R b ->
  (forall x y, In x a -> In y b -> R x y) -> StronglySorted R (a ++ b).
Proof.
  induction a as [|x a IH]; intros Ha Hb H; [exact Hb|]. cbn [app]. inversion Ha as [|? ? Ha' F]; subst.
  constructor.
  - apply IH; auto. intros; apply H; [right|]; assumption.
  - apply Forall_app. split; [exact F|]. apply Forall_forall. intros y Hy. apply H; [left; reflexivity|exact Hy].
Qed.

Lemma ss_app_inv {R : T -> T -> Prop} a b : StronglySorted R (a ++ b) ->
  StronglySorted R a /\ StronglySorted R b /\ (forall x y, In x a -> In y b -> R x y).
Proof.
  induction a as [|x a IH]; intros H.
  - split; [constructor|]. split; [exact H|]. intros ? ? [].
  - cbn [app] in H. inversion H as [|? ? H' F]; subst. destruct (IH H') as (A & B & C).
    apply Forall_app in F. destruct F as (F1 & F2). split; [constructor; assumption|]. split; [exact B|].
    intros u y [->|Hu] Hy; [|apply C; assumption]. rewrite Forall_forall in F2. apply F2. exact Hy.
Qed.

Lemma rev_descending l : descending l -> ascending lt (rev l).
Proof.
  induction l as [|x l IH]; intros H; [constructor|]. inversion H as [|? ? H' F]; subst. cbn [rev].
  apply ss_app; [apply IH; exact H'|repeat constructor|].
  intros u y Hu [<-|[]]. rewrite Forall_forall in F. apply F. apply in_rev. exact Hu.
Qed.

Notation lexlt := (lex (less lt)).

Lemma lex_trans a b c : lexlt a b -> lexlt b c -> lexlt a c.
Proof.
  intros H. revert c. induction H as [y l|x y l l' H|x l l' H IH]; intros c Hc.
  - inversion Hc; subst; constructor.
  - inversion Hc; subst; apply lex_lt; auto. unfold less in *. eapply lt_trans; eauto.
  - inversion Hc; subst; [apply lex_lt; assumption|apply lex_eq; apply IH; assumption].
Qed.
Lemma lex_neq a b : lexlt a b -> a <> b.
Proof. intros H E. subst. revert H. apply lex_irrefl. intros x. unfold less. rewrite lt_irrefl. discriminate. Qed.

(* nothing above a descending sequence, nothing below an ascending one *)
Lemma descending_max l : descending l -> forall q, Permutation q l -> ~ lexlt l q.
Proof.
  induction l as [|x l IH]; intros D q Hp Hl.
  - apply Permutation_sym, Permutation_nil in Hp. subst. inversion Hl.
  - inversion D as [|? ? D' F]; subst. destruct q as [|c q]; [inversion Hl|].
    inversion Hl as [|? ? ? ? H|? ? ? H]; subst.
    + assert (Hc : In c (x :: l)) by (apply (Permutation_in _ Hp); left; reflexivity).
      destruct Hc as [->|Hc]; unfold less in H; [rewrite lt_irrefl in H; discriminate|].
      rewrite Forall_forall in F. rewrite (F _ Hc) in H. discriminate.
    + apply (IH D' q); [|exact H]. eapply Permutation_cons_inv. exact Hp.
Qed.

Lemma ascending_min l : ascending lt l -> forall q, Permutation q l -> q = l \/ lexlt l q.
Proof.
  induction l as [|x l IH]; intros D q Hp.
  - apply Permutation_sym, Permutation_nil in Hp. left. exact Hp.
  - inversion D as [|? ? D' F]; subst. destruct q as [|c q].
    { apply Permutation_nil in Hp. discriminate. }
    assert (Hc : In c (x :: l)) by (apply (Permutation_in _ Hp); left; reflexivity).
    destruct (lt x c) eqn:E.
    + right. apply lex_lt. exact E.
    + assert (c = x). { destruct Hc as [->|Hc]; [reflexivity|]. rewrite Forall_forall in F. specialize (F _ Hc).
        apply lt_eq; [exact F|exact E]. }
      subst c. destruct (IH D' q) as [->|H]; [eapply Permutation_cons_inv; exact Hp|left; reflexivity|].
      right. apply lex_eq. exact H.
Qed.

(* the successor *)
Lemma lex_app_cut P x q : lexlt (P ++ x) q -> (exists q', q = P ++ q' /\ lexlt x q') \/ forall y, length y = length x -> lexlt (P ++ y) q.
Proof.
  revert q; induction P as [|p P IH]; intros q H.
  - left. exists q. auto.
  - cbn [app] in *. inversion H as [|? ? ? ? H'|? ? ? H']; subst.
    + right. intros w _. apply lex_lt. exact H'.
    + destruct (IH _ H') as [(q' & -> & Hq)|Hr].
      * left. exists q'. auto.
      * right. intros w Hw. apply lex_eq. apply Hr. exact Hw.
Qed.

Lemma successor P a D1 b D2 : descending (D1 ++ b :: D2) -> lt a b = true -> (forall x, In x D2 -> lt a x = false) ->
  let s := P ++ a :: D1 ++ b :: D2 in let r := P ++ b :: rev (D1 ++ a :: D2) in
  Permutation r s /\ lexlt s r /\ forall q, Permutation q s -> lexlt s q -> q = r \/ lexlt r q.
Proof.
  intros D Hab H2. cbv zeta.
  assert (Pm : Permutation (b :: rev (D1 ++ a :: D2)) (a :: D1 ++ b :: D2)).
  { rewrite <- Permutation_rev. rewrite <- Permutation_middle, <- Permutation_middle. apply perm_swap. }
  assert (Lx : lexlt (a :: D1 ++ b :: D2) (b :: rev (D1 ++ a :: D2))) by (apply lex_lt; exact Hab).
  split; [apply Permutation_app_head; exact Pm|]. split.
  { clear Pm. induction P as [|p P IH]; [exact Lx|]. apply lex_eq. exact IH. }
  intros q Hq Hl. destruct (lex_app_cut _ _ _ Hl) as [(q' & -> & Hq')|Hr].
  - apply Permutation_app_inv_l in Hq.
    assert (G : q' = b :: rev (D1 ++ a :: D2) \/ lexlt (b :: rev (D1 ++ a :: D2)) q').
    { destruct q' as [|c q'']; [inversion Hq'|]. inversion Hq' as [|? ? ? ? Hac|? ? ? Hrest]; subst.
      - assert (Hc : In c (a :: D1 ++ b :: D2)) by (apply (Permutation_in _ Hq); left; reflexivity).
        unfold less in Hac. destruct (lt b c) eqn:Ebc; [right; apply lex_lt; exact Ebc|].
        destruct (ss_app_inv _ _ D) as (DA & DB & DC).
        assert (Ecb : c = b).
        { destruct Hc as [->|Hc]; [rewrite lt_irrefl in Hac; discriminate|].
          apply in_app_or in Hc. destruct Hc as [Hc|[Hc|Hc]].
          - apply lt_eq; [|exact Ebc]. apply DC; [exact Hc|left; reflexivity].
          - symmetry; exact Hc.
          - rewrite (H2 _ Hc) in Hac. discriminate. }
        subst c.
        assert (Hq2 : Permutation q'' (D1 ++ a :: D2)).
        { apply Permutation_cons_inv with (a := b). rewrite Hq. rewrite <- Permutation_rev in Pm. symmetry. exact Pm. }
        assert (As : ascending lt (rev (D1 ++ a :: D2))).
        { apply rev_descending. apply ss_app; [exact DA| |].
          - inversion DB as [|? ? DB' FB]; subst. constructor; [exact DB'|]. apply Forall_forall. exact H2.
          - intros x y Hx [<-|Hy].
            + destruct (lt x a) eqn:E; [|reflexivity].
              pose proof (DC x b Hx (or_introl eq_refl)) as F. rewrite (lt_trans _ _ _ E Hab) in F. discriminate.
            + apply DC; [exact Hx|right; exact Hy]. }
        destruct (ascending_min _ As q'') as [->|G]; [rewrite <- Permutation_rev; exact Hq2|left; reflexivity|].
        right. apply lex_eq. exact G.
      - exfalso. apply (descending_max _ D q''); [|exact Hrest]. apply Permutation_cons_inv in Hq. exact Hq. }
    destruct G as [->|G]; [left; reflexivity|]. right. clear - G.
    induction P as [|p P IH]; [exact G|]. apply lex_eq. exact IH.
  - right. apply Hr. apply Permutation_length in Pm. exact Pm.
Qed.

Lemma skipn_cut (s : list T) i x : nth_error s i = Some x -> s = firstn i s ++ x :: skipn (S i) s.
Proof. intros H. rewrite <- (skipn_nth_cons _ _ _ H). symmetry. apply firstn_skipn. Qed.

Lemma next_ok s : holds (next_permutation lt s) (fun '(r, b) =>
  if b then exists P a D1 b D2, s = P ++ a :: D1 ++ b :: D2 /\ r = P ++ b :: rev (D1 ++ a :: D2) /\
         descending (D1 ++ b :: D2) /\ lt a b = true /\ (forall x, In x D2 -> lt a x = false)
  else descending s /\ r = rev s).
Proof.
  unfold next_permutation.
  destruct (Nat.eqb_spec (length s) 0) as [E0|E0].
  { destruct s; [|discriminate]. cbn [orb holds]. split; [constructor|reflexivity]. }
  destruct (Nat.eqb_spec (length s) 1) as [E1|E1]; cbn [orb].
  { destruct s as [|x [|y s]]; try discriminate. cbn [holds]. split; [repeat constructor|reflexivity]. }
  apply loop_rule with (I := fun ii => 1 <= ii < length s /\ descending (skipn ii s)) (mu := fun ii => ii); [| |lia].
  - intros ii (Hi & Dd).
    destruct (nth_error s (ii - 1)) as [x|] eqn:Ex; [|apply nth_error_None in Ex; lia].
    destruct (nth_error s ii) as [y|] eqn:Ey; [|apply nth_error_None in Ey; lia].
    rewrite (rd_nth _ _ _ Ex), (rd_nth _ _ _ Ey). cbn [bind].
    destruct (lt x y) eqn:Exy.
    + apply holds_bind2 with (P := fun j => ii <= j < length s /\ exists b, nth_error s j = Some b /\ lt x b = true /\
         forall z, In z (skipn (S j) s) -> lt x z = false).
      * apply loop_rule with
          (I := fun j => ii < j <= length s /\ forall z, In z (skipn j s) -> lt x z = false)
          (mu := fun j => j - ii - 1); [| |lia].
        -- intros j (Hj & Hz).
           destruct (nth_error s (j - 1)) as [b|] eqn:Eb; [|apply nth_error_None in Eb; lia].
           rewrite (rd_nth _ _ _ Eb). cbn [bind]. destruct (lt x b) eqn:Exb; cbn [negb holds].
           ++ split; [lia|]. exists b. split; [exact Eb|]. split; [exact Exb|].
              replace (S (j - 1)) with j by lia. exact Hz.
           ++ assert (j - 1 <> ii) by (intros E; rewrite E in Eb; congruence).
              split; [|lia]. split; [lia|]. intros z. rewrite (skipn_nth_cons _ _ _ Eb).
              replace (S (j - 1)) with j by lia. intros [<-|Hzz]; [exact Exb|apply Hz; exact Hzz].
        -- split; [lia|]. intros z. rewrite skipn_all. intros [].
      * intros j (Hj & b & Eb & Exb & Hz).
        set (P := firstn (ii - 1) s). set (D := skipn ii s).
        assert (Es : s = P ++ x :: D).
        { unfold P, D. replace ii with (S (ii - 1)) at 2 by lia. apply skipn_cut. exact Ex. }
        assert (Eb' : nth_error D (j - ii) = Some b).
        { unfold D. rewrite nth_error_skipn. replace (ii + (j - ii)) with j by lia. exact Eb. }
        set (D1 := firstn (j - ii) D). set (D2 := skipn (S (j - ii)) D).
        assert (ED : D = D1 ++ b :: D2) by (apply skipn_cut; exact Eb').
        assert (ED2 : D2 = skipn (S j) s).
        { unfold D2, D. rewrite skipn_skipn. f_equal. lia. }
        assert (LP : length P = ii - 1) by (unfold P; rewrite firstn_length; lia).
        assert (LD : length D = length s - ii) by (unfold D; apply skipn_length).
        assert (LD1 : length D1 = j - ii) by (unfold D1; rewrite firstn_length; lia).
        assert (Es2 : s = P ++ x :: D1 ++ b :: D2) by (rewrite <- ED; exact Es).
        rewrite Es2 at 1. rewrite iter_swap_at by lia. cbn [bind].
        unfold reverse_range.
        assert (Ls : length (P ++ b :: D1 ++ x :: D2) = length s).
        { rewrite Es2 at 1. rewrite !app_length. cbn [length]. rewrite !app_length. reflexivity. }
        replace (ii <=? length (P ++ b :: D1 ++ x :: D2)) with true by (symmetry; apply Nat.leb_le; lia).
        rewrite Nat.leb_refl. cbn [andb bind holds].
        exists P, x, D1, b, D2. split; [exact Es2|]. split; [|split; [rewrite <- ED; exact Dd|]].
        -- unfold sub. cbn [fst snd].
           replace (P ++ b :: D1 ++ x :: D2) with ((P ++ [b]) ++ D1 ++ x :: D2) by (rewrite <- app_assoc; reflexivity).
           assert (LPb : length (P ++ [b]) = ii) by (rewrite app_length; simpl; lia).
           assert (F1 : firstn ii ((P ++ [b]) ++ D1 ++ x :: D2) = P ++ [b]) by (rewrite <- LPb; apply firstn_app_len).
           assert (F2 : skipn ii ((P ++ [b]) ++ D1 ++ x :: D2) = D1 ++ x :: D2) by (rewrite <- LPb; apply skipn_app_len).
           rewrite F1, F2. rewrite firstn_all2.
           ++ rewrite skipn_all, app_nil_r. rewrite <- app_assoc. reflexivity.
           ++ rewrite !app_length. simpl. lia.
        -- split; [exact Exb|]. rewrite ED2. exact Hz.
    + destruct (Nat.eqb_spec (ii - 1) 0) as [E|E].
      * unfold reverse_range. cbn [Nat.leb]. rewrite Nat.leb_refl. cbn [andb bind holds].
        rewrite sub_full, skipn_all, app_nil_r. cbn [firstn app]. split; [|reflexivity].
        assert (ii = 1) by lia. subst ii. cbn [Nat.sub] in Ex.
        destruct s as [|x' s]; [discriminate|]. cbn in Ex. injection Ex as ->.
        destruct s as [|y' s]; [discriminate|]. cbn in Ey. injection Ey as ->.
        apply descending_cons; assumption.
      * cbn [holds]. split; [|lia]. split; [lia|].
        rewrite (skipn_nth_cons _ _ _ Ex). replace (S (ii - 1)) with ii by lia.
        rewrite (skipn_nth_cons _ _ _ Ey). rewrite (skipn_nth_cons _ _ _ Ey) in Dd.
        apply descending_cons; assumption.
  - split; [lia|].
    destruct (nth_error s (length s - 1)) as [x|] eqn:Ex; [|apply nth_error_None in Ex; lia].
    rewrite (skipn_nth_cons _ _ _ Ex). rewrite skipn_all2 by lia. repeat constructor.
Qed.

Section Loops.
Context {St : Type}.

Lemma seen_bound (s : list T) seen : NoDup seen -> (forall p, In p seen -> Permutation p s) -> length seen <= fact (length s).
Proof.
  intros N H. rewrite <- (arr_length (length s) s eq_refl). apply NoDup_incl_length; [exact N|].
  intros p Hp. apply (arr_in (length s) s p eq_refl). apply H. exact Hp.
Qed.

Lemma conditional_perms (f : list T -> St -> St * bool) : forall fuel s st seen, NoDup seen ->
  (forall p, In p seen -> Permutation p s /\ lexlt p s) -> fact (length s) < fuel + length seen ->
  exists ps, permutations_from lt s ps /\ exists s', ascending lt s' /\ Permutation s' s /\
    for_each_permutation_conditional fuel lt f s st =
    Ok (match visit_until f ps st with (st', None) => (s', st', true) | (st', Some p) => (p, st', false) end).
Proof.
  unfold for_each_permutation_conditional.
  induction fuel as [|fuel IH]; intros s st seen N Hs Hf.
  { pose proof (seen_bound s seen N (fun p H => proj1 (Hs p H))). lia. }
  pose proof (next_ok s) as Hn. apply holds_ex in Hn. destruct Hn as ((r, b) & En & Hn).
  cbn [loop]. destruct b.
  - destruct Hn as (P & a & D1 & b & D2 & Es & Er & D & Hab & H2).
    destruct (successor P a D1 b D2 D Hab H2) as (Pr & Lr & Sr). rewrite <- Es, <- Er in *.
    assert (N' : NoDup (s :: seen)).
    { constructor; [|exact N]. intros Hi. destruct (Hs _ Hi) as (_ & L). exact (lex_neq _ _ L eq_refl). }
    assert (Hs' : forall p, In p (s :: seen) -> Permutation p r /\ lexlt p r).
    { intros p [<-|Hp]; [split; [symmetry; exact Pr|exact Lr]|]. destruct (Hs _ Hp) as (Pp & Lp).
      split; [rewrite Pp; symmetry; exact Pr|]. eapply lex_trans; eauto. }
    assert (Hf' : fact (length r) < fuel + length (s :: seen)).
    { rewrite (Permutation_length Pr). simpl. lia. }
    destruct (f s st) as (st1, ok) eqn:Ef.
    destruct (IH r st1 (s :: seen) N' Hs' Hf') as (ps & (Hsort & Hin) & s' & As & Ps & E).
    exists (s :: ps). split; [|exists s'; split; [exact As|split; [rewrite Ps; exact Pr|]]].
    + split.
      * constructor; [exact Hsort|]. apply Forall_forall. intros p Hp. apply Hin in Hp. destruct Hp as (_ & [->|Hp]); [exact Lr|].
        eapply lex_trans; eauto.
      * intros p. split.
        -- intros [<-|Hp]; [split; [reflexivity|left; reflexivity]|]. apply Hin in Hp. destruct Hp as (Pp & Hp).
           split; [rewrite Pp; exact Pr|]. right. destruct Hp as [->|Hp]; [exact Lr|]. eapply lex_trans; eauto.
        -- intros (Pp & [->|Hp]); [left; reflexivity|]. right. apply Hin. split; [rewrite Pp; symmetry; exact Pr|].
           apply Sr; assumption.
    + cbn [visit_until]. rewrite Ef. destruct ok; cbn [negb]; [|reflexivity]. rewrite En. cbn [bind]. exact E.
  - destruct Hn as (D & ->). exists [s]. split; [|exists (rev s); split; [|split]].
    + split; [repeat constructor|]. intros p. split.
      * intros [<-|[]]. split; [reflexivity|left; reflexivity].
      * intros (Pp & [->|Hp]); [left; reflexivity|]. exfalso. exact (descending_max s D p Pp Hp).
    + apply rev_descending. exact D.
    + symmetry. apply Permutation_rev.
    + cbn [visit_until]. destruct (f s st) as (st1, ok). destruct ok; cbn [negb]; [|reflexivity].
      rewrite En. cbn [bind]. reflexivity.
Qed.

Lemma all_perms (f : list T -> St -> St) fuel s st : fact (length s) < fuel ->
  exists ps, permutations_from lt s ps /\ exists s', ascending lt s' /\ Permutation s' s /\
    for_each_permutation fuel lt f s st = Ok (s', visit_all f ps st).
Proof.
  intros Hf. destruct (conditional_perms (fun l st => (f l st, true)) fuel s st []) as (ps & Hp & s' & As & Ps & E).
  - constructor.
  - intros p [].
  - simpl. lia.
  - exists ps. split; [exact Hp|]. exists s'. split; [exact As|]. split; [exact Ps|].
    rewrite visit_until_true in E.
    unfold for_each_permutation_conditional in E. unfold for_each_permutation.
    rewrite (loop_map (fun '(s, st) => (s, st, true)) (fun '(s0, st0) =>
       let st := f s0 st0 in ' (s, b) <- next_permutation lt s0 ;; if b then Ok (inl (s, st)) else Ok (inr (s, st)))) in E.
    + destruct (loop fuel _ (s, st)) as [(s1, st1)| |]; cbn [bind] in E; congruence.
    + intros (s1, st1). cbn [negb]. destruct (next_permutation lt s1) as [(s2, b)| |]; cbn [bind]; try reflexivity.
      destruct b; reflexivity.
Qed.

End Loops.

(* the list of permutations is determined *)
Lemma from_ascending s ps : ascending lt s -> permutations_from lt s ps -> forall p, In p ps <-> Permutation p s.
Proof.
  intros As (_ & H) p. rewrite H. split; [intros (? & _); assumption|]. intros Pp. split; [exact Pp|].
  apply ascending_min; assumption.
Qed.

Lemma from_nodup s ps : permutations_from lt s ps -> NoDup ps.
Proof.
  intros (H & _). induction H as [|p ps H IH F]; constructor; [|exact IH].
  intros Hi. rewrite Forall_forall in F. exact (lex_neq _ _ (F _ Hi) eq_refl).
Qed.

End Order.
