(* Proofs about searching and replacement. *)
From Verif Require Import Base Split_Model Split_Proofs Edit_Model Edit_Spec Edit_Proofs.

Section SearchP.
  Context {A : Type}.
  Variable eqv : A -> A -> bool.

  Lemma prefixb_occurs pat : forall s, prefixb eqv pat s = true <-> occurs_at eqv pat s 0.
  Proof.
    induction pat as [|y pat IH]; intros s; simpl.
    - split; auto. intros _. split; simpl; [lia|]. intros [|i] x y H; discriminate.
    - destruct s as [|x s].
      + split; [discriminate|]. intros [H _]. simpl in H. lia.
      + rewrite andb_true_iff, IH. split.
        * intros [H1 [H2 H3]]. split; [simpl in *; lia|].
          intros [|i] a b Ha Hb; simpl in *; [congruence|]. eapply H3; eauto.
        * intros [H1 H2]. split; [eapply (H2 0); reflexivity|].
          split; [simpl in *; lia|]. intros i a b Ha Hb. apply (H2 (S i)); auto.
  Qed.

  Lemma occurs_at_skipn pat s k j :
    k <= length s -> occurs_at eqv pat (skipn k s) j <-> occurs_at eqv pat s (k + j).
  Proof.
    intros Hk. unfold occurs_at. rewrite skipn_length. split; intros [H1 H2]; split; try lia;
      intros i x y Hy Hx; apply (H2 i x y Hy); rewrite nth_error_skipn in *;
      rewrite ?Nat.add_assoc in *; auto.
  Qed.

  Lemma occurs_at_cons pat x s j : occurs_at eqv pat (x :: s) (S j) <-> occurs_at eqv pat s j.
  Proof. symmetry; apply (occurs_at_skipn pat (x :: s) 1 j). simpl; lia. Qed.

  Lemma search_spec pat : forall s,
    match search eqv pat s with
    | Some k => occurs_at eqv pat s k /\ forall j, j < k -> ~ occurs_at eqv pat s j
    | None => forall j, ~ occurs_at eqv pat s j
    end.
  Proof.
    induction s as [|x s IH]; simpl.
    - destruct (prefixb eqv pat []) eqn:E.
      + split; [now apply prefixb_occurs|lia].
      + intros j H. destruct j.
        * apply prefixb_occurs in H. congruence.
        * destruct H as [H _]. simpl in H. lia.
    - destruct (prefixb eqv pat (x :: s)) eqn:E.
      + split; [now apply prefixb_occurs|lia].
      + assert (H0 : ~ occurs_at eqv pat (x :: s) 0).
        { intros H. apply prefixb_occurs in H. congruence. }
        destruct (search eqv pat s) as [k|]; cbn [option_map].
        * destruct IH as [H1 H2]. split; [now apply occurs_at_cons|].
          intros [|j] Hj; auto. rewrite occurs_at_cons. apply H2. lia.
        * intros [|j]; auto. rewrite occurs_at_cons. apply IH.
  Qed.

  Lemma std_search_spec pat s i : i <= length s ->
    (std_search eqv s pat i = length s /\ (forall j, i <= j -> j < length s -> ~ occurs_at eqv pat s j) /\
       (pat <> [] -> forall j, i <= j -> ~ occurs_at eqv pat s j)) \/
    (i <= std_search eqv s pat i < length s /\ occurs_at eqv pat s (std_search eqv s pat i) /\
     forall j, i <= j < std_search eqv s pat i -> ~ occurs_at eqv pat s j).
  Proof.
    intros Hi. unfold std_search. pose proof (search_spec pat (skipn i s)) as H.
    destruct (search eqv pat (skipn i s)) as [k|].
    - destruct H as [H1 H2]. apply occurs_at_skipn in H1; auto.
      assert (Hb : forall j, i <= j < i + k -> ~ occurs_at eqv pat s j).
      { intros j Hj Ho. apply (H2 (j - i)); [lia|]. apply occurs_at_skipn; auto.
        now replace (i + (j - i)) with j by lia. }
      destruct (Nat.eq_dec (i + k) (length s)) as [E|E].
      + left. split; auto. split; [intros; apply Hb; lia|].
        intros Hn. exfalso. destruct H1 as [H1 _]. destruct pat; [congruence|]. simpl in H1. lia.
      + right. split; [|auto]. destruct H1 as [H1 _]. lia.
    - left. split; auto.
      assert (Hb : forall j, i <= j -> ~ occurs_at eqv pat s j).
      { intros j Hj Ho. apply (H (j - i)). apply occurs_at_skipn; auto.
        now replace (i + (j - i)) with j by lia. }
      split; auto.
  Qed.

  Lemma leftmost_unique pat s : forall ks a, leftmost_occs eqv pat s a ks ->
    forall ks', leftmost_occs eqv pat s a ks' -> ks = ks'.
  Proof.
    intros ks a H. induction H as [a H|a k ks Hk Ho Hb Hl IH]; intros ks' H'.
    - inversion H' as [|? k ks2 Hk Ho]; subst; auto. exfalso. apply (H k); auto.
    - inversion H' as [? Hn|? k' ks2 Hk' Ho' Hb' Hl']; subst.
      + exfalso. apply (Hn k); auto.
      + assert (k = k') as <-.
        { destruct (lt_eq_lt_dec k k') as [[L|E]|L]; auto; exfalso.
          - apply (Hb' k); auto.
          - apply (Hb k'); auto. }
        f_equal. auto.
  Qed.

  Definition occ_range (n k : nat) : nat * nat := (k, k + n).

  Lemma find_all_ok pt s : pt <> [] ->
    exists ks, leftmost_occs eqv pt s 0 ks /\
      find_all eqv pt s = Ok (map (occ_range (length pt)) ks, length ks).
  Proof.
    intros Hp.
    assert (H : holds (find_all eqv pt s) (fun r => exists ks, leftmost_occs eqv pt s 0 ks /\
       r = (map (occ_range (length pt)) ks, length ks))).
    { unfold find_all.
      apply loop_rule with
        (I := fun '(itr, out, cnt) => itr <= length s /\ exists ks1,
           out = map (occ_range (length pt)) ks1 /\ cnt = length ks1 /\
           forall ks2, leftmost_occs eqv pt s itr ks2 -> leftmost_occs eqv pt s 0 (ks1 ++ ks2))
        (mu := fun '(itr, out, cnt) => length s - itr).
      - intros [[itr out] cnt] (Hi & ks1 & H1 & H2 & H3). unfold find_all_step. cbv zeta.
        destruct (std_search_spec pt s itr Hi) as [(E & _ & Hn)|(E & Ho & Hn)].
        + rewrite E, Nat.eqb_refl. cbn [holds]. exists ks1. split; [|now subst].
          rewrite <- (app_nil_r ks1). apply H3. constructor. auto.
        + destruct (Nat.eqb_spec (length s) (std_search eqv s pt itr)); [lia|].
          cbn [holds]. set (k := std_search eqv s pt itr) in *.
          destruct (Ho) as [Hlen _].
          assert (0 < length pt) by (destruct pt; [congruence|simpl; lia]).
          split; [|lia]. split; [lia|]. exists (ks1 ++ [k]). rewrite map_app, app_length. simpl.
          split; [now subst|]. split; [lia|].
          intros ks2 H4. rewrite <- app_assoc. apply H3. simpl. constructor; auto. lia.
      - split; [lia|]. exists []. auto.
      - lia. }
    apply holds_ex in H. destruct H as (r & E & ks & H1 & ->). eauto.
  Qed.

  Lemma find_all_empty_diverges (s : list A) : s <> [] ->
    forall fuel out cnt, loop fuel (find_all_step eqv [] s) (0, out, cnt) = OutOfFuel.
  Proof.
    intros Hs fuel. induction fuel as [|f IH]; intros out cnt; auto.
    destruct s as [|x s]; [congruence|]. cbn [loop]. unfold find_all_step at 1.
    cbn. apply IH.
  Qed.

  Lemma index_of_ok pat s : pat <> [] ->
    match index_of eqv pat s with
    | Some k => occurs_at eqv pat s k /\ forall j, j < k -> ~ occurs_at eqv pat s j
    | None => forall j, ~ occurs_at eqv pat s j
    end.
  Proof.
    intros Hp. unfold index_of.
    assert (Hl : 0 < length pat) by (destruct pat; [congruence|simpl; lia]).
    destruct (Nat.eqb_spec (length pat) 0); [lia|].
    destruct (Nat.eqb_spec (length s) 0) as [E|E].
    { intros j [H _]. lia. }
    destruct (Nat.ltb_spec (length s) (length pat)).
    { intros j [H' _]. lia. }
    destruct (std_search_spec pat s 0 ltac:(lia)) as [(E' & _ & Hn)|(E' & Ho & Hn)].
    - cbv zeta. rewrite E', Nat.eqb_refl. intros j. apply Hn; auto. lia.
    - cbv zeta. destruct (Nat.eqb_spec (length s) (std_search eqv s pat 0)); [lia|].
      split; auto. intros j Hj. apply Hn. lia.
  Qed.

  Lemma std_equal_at_ok pat s i : i + length pat <= length s ->
    exists b, std_equal_at eqv pat s i = Ok b /\ (b = true <-> occurs_at eqv pat s i).
  Proof.
    intros Hi.
    assert (H : holds (std_equal_at eqv pat s i) (fun b => b = true <-> occurs_at eqv pat s i)).
    { unfold std_equal_at.
      apply loop_rule with
        (I := fun k => k <= length pat /\ forall j x y, j < k -> nth_error pat j = Some y ->
              nth_error s (i + j) = Some x -> eqv x y = true)
        (mu := fun k => length pat - k).
      - intros k [Hk H]. destruct (Nat.eqb_spec k (length pat)) as [E|E].
        + cbn [holds]. split; auto. intros _. split; auto.
          intros j x y Hy Hx. apply (H j); auto. apply nth_error_some_lt in Hy. lia.
        + apply holds_bind, holds_rd; [lia|]. intros y Hy.
          apply holds_bind, holds_rd; [lia|]. intros x Hx.
          destruct (eqv x y) eqn:Ee; cbn [holds].
          * split; [|lia]. split; [lia|]. intros j a b Hj Hb Ha.
            destruct (Nat.eq_dec j k) as [->|]; [congruence|]. apply (H j); auto. lia.
          * split; [discriminate|]. intros [_ Ho]. specialize (Ho k x y Hy Hx). congruence.
      - split; [lia|]. intros; lia.
      - lia. }
    now apply holds_ex in H.
  Qed.

  Lemma begins_with_ok pat s :
    exists b, begins_with eqv pat s = Ok b /\ (b = true <-> occurs_at eqv pat s 0).
  Proof.
    unfold begins_with. destruct (Nat.leb_spec (length pat) (length s)).
    - apply std_equal_at_ok. lia.
    - exists false. split; auto. split; [discriminate|]. intros [H' _]. lia.
  Qed.

  Lemma ends_with_ok pat s :
    exists b, ends_with eqv pat s = Ok b /\
      (b = true <-> (length pat <= length s /\ occurs_at eqv pat s (length s - length pat))).
  Proof.
    unfold ends_with. destruct (Nat.leb_spec (length pat) (length s)) as [L|L].
    - destruct (std_equal_at_ok pat s (length s - length pat) ltac:(lia)) as (b & E & Hb).
      exists b. split; auto. rewrite Hb. tauto.
    - exists false. split; auto. split; [discriminate|]. intros [H' _]. lia.
  Qed.
End SearchP.

Section EqP.
  Context {A : Type}.
  Variable eqb : A -> A -> bool.
  Hypothesis eqb_ok : forall x y, eqb x y = true <-> x = y.

  Lemma occurs_at_eq pat (s : list A) k :
    occurs_at eqb pat s k <-> exists a b, s = a ++ pat ++ b /\ length a = k.
  Proof.
    split.
    - intros [H1 H2]. exists (firstn k s), (skipn (k + length pat) s). split.
      + rewrite <- (firstn_skipn k s) at 1. f_equal.
        rewrite <- (firstn_skipn (length pat) (skipn k s)) at 1. f_equal.
        * apply nth_error_ext. intros i. rewrite nth_error_firstn, nth_error_skipn.
          destruct (Nat.ltb_spec i (length pat)) as [L|L].
          -- destruct (nth_error pat i) as [y|] eqn:Ey; [|apply nth_error_None in Ey; lia].
             destruct (nth_error s (k + i)) as [x|] eqn:Ex; [|apply nth_error_None in Ex; lia].
             f_equal. apply eqb_ok. eapply H2; eauto.
          -- symmetry. now apply nth_error_None.
        * rewrite skipn_skipn. f_equal. lia.
      + rewrite firstn_length. lia.
    - intros (a & b & -> & <-). split; [rewrite !app_length; lia|].
      intros i x y Hy Hx. apply eqb_ok.
      rewrite nth_error_app2 in Hx by lia. replace (length a + i - length a) with i in Hx by lia.
      rewrite nth_error_app1 in Hx by (eapply nth_error_some_lt; eauto). congruence.
  Qed.

  Lemma begins_with_eq pat s :
    exists b, begins_with eqb pat s = Ok b /\ (b = true <-> exists t, s = pat ++ t).
  Proof.
    destruct (begins_with_ok eqb pat s) as (b & E & H). exists b. split; auto.
    rewrite H, occurs_at_eq. split.
    - intros (a & t & -> & Ha). destruct a; [|discriminate]. now exists t.
    - intros (t & ->). exists [], t. auto.
  Qed.

  Lemma ends_with_eq pat s :
    exists b, ends_with eqb pat s = Ok b /\ (b = true <-> exists t, s = t ++ pat).
  Proof.
    destruct (ends_with_ok eqb pat s) as (b & E & H). exists b. split; auto.
    rewrite H, occurs_at_eq. split.
    - intros [Hl (a & t & Es & Ha)]. exists a.
      assert (t = []) as ->; [|now rewrite app_nil_r in Es].
      apply length_zero_iff_nil. apply (f_equal (@length A)) in Es.
      rewrite !app_length in Es. lia.
    - intros (t & ->). rewrite app_length. split; [lia|]. exists t, []. rewrite app_nil_r.
      split; auto. lia.
  Qed.

  Lemma replace_ok c1 c2 s :
    replace eqb c1 c2 s = Ok (map (fun x => if eqb x c1 then c2 else x) s).
  Proof.
    apply holds_eq. unfold replace. set (f := fun x => if eqb x c1 then c2 else x).
    pose proof (for_up_rule (S := list A)
      (fun i t => t = map f (firstn i s) ++ skipn i s)) as R.
    eapply holds_weaken; [apply R|].
    - intros k t Hk ->.
      destruct (nth_error s k) as [x|] eqn:Ex; [|apply nth_error_None in Ex; lia].
      rewrite (skipn_nth_cons _ _ _ Ex), (firstn_S_nth _ _ _ Ex), map_app. cbn [map].
      set (rest := skipn (S k) s). set (dn := map f (firstn k s)).
      assert (Hl : length dn = k) by (unfold dn; rewrite map_length, firstn_length; lia).
      clearbody rest dn. rewrite <- app_assoc. cbn [app].
      rewrite <- Hl, rd_here. cbn [bind]. unfold f.
      destruct (eqb c1 x) eqn:E.
      + apply eqb_ok in E. subst x. rewrite (proj2 (eqb_ok c1 c1) eq_refl).
        rewrite wr_here. reflexivity.
      + destruct (eqb x c1) eqn:E2.
        * apply eqb_ok in E2. subst. rewrite (proj2 (eqb_ok c1 c1) eq_refl) in E. discriminate.
        * reflexivity.
    - reflexivity.
    - intros t ->. cbn [plus]. now rewrite firstn_all, skipn_all, app_nil_r.
  Qed.

  Lemma list_eqb_ok (a b : list A) : list_eqb eqb a b = true <-> a = b.
  Proof.
    revert b; induction a as [|x a IH]; intros [|y b]; simpl; split; intros H; try congruence; auto.
    - apply andb_prop in H. destruct H as [H1 H2]. apply eqb_ok in H1. apply IH in H2. congruence.
    - inversion H; subst. rewrite (proj2 (eqb_ok y y) eq_refl). now apply IH.
  Qed.

  (* replacing a pattern by itself changes nothing *)
  Lemma splice_same p s a ks : a <= length s ->
    leftmost_occs eqb p s a ks -> splice s (length p) p a ks = skipn a s.
  Proof.
    intros Ha H. induction H as [a H|a k ks Hk Ho Hb Hl IH]; [reflexivity|].
    cbn [splice]. destruct Ho as [Ho Ho2]. rewrite IH by lia.
    assert (Ho' : occurs_at eqb p s k) by (split; auto).
    apply occurs_at_eq in Ho'. destruct Ho' as (u & v & Es & Hu).
    assert (E1 : skipn k s = p ++ v) by (rewrite Es, <- Hu; apply skipn_app_len).
    assert (E2 : skipn (k + length p) s = v).
    { rewrite Nat.add_comm, <- skipn_skipn, E1. apply skipn_app_len. }
    rewrite E2, <- E1.
    unfold sub. cbn [fst snd]. replace (skipn k s) with (skipn (k - a) (skipn a s)).
    - apply firstn_skipn.
    - rewrite skipn_skipn. f_equal. lia.
  Qed.

  Lemma splice_length p r s a ks : a <= length s -> leftmost_occs eqb p s a ks ->
    length (splice s (length p) r a ks) + length ks * length p
    = length s - a + length ks * length r.
  Proof.
    intros Ha H. induction H as [a H|a k ks Hk Ho Hb Hl IH]; simpl.
    - rewrite skipn_length. lia.
    - destruct Ho as [Ho _]. rewrite !app_length, sub_length by lia.
      specialize (IH ltac:(lia)). lia.
  Qed.

  Lemma copy_to_ok (src : list A) a b x y z :
    a <= b -> b <= length src -> length y = b - a ->
    copy_to src a b (x ++ y ++ z) (length x) = Ok (x ++ sub src (a, b) ++ z).
  Proof.
    intros H1 H2 H3. apply holds_eq. unfold copy_to.
    pose proof (for_up_rule (S := list A)
      (fun k t => t = x ++ sub src (a, a + k) ++ skipn k y ++ z)) as R.
    eapply holds_weaken; [apply R|].
    - intros k t Hk ->.
      destruct (nth_error src (a + k)) as [c|] eqn:Ec; [|apply nth_error_None in Ec; lia].
      rewrite (rd_nth _ _ _ Ec). cbn [bind].
      destruct (nth_error y k) as [d|] eqn:Ed; [|apply nth_error_None in Ed; lia].
      rewrite (skipn_nth_cons _ _ _ Ed). cbn [app].
      rewrite (app_assoc x).
      replace (length x + k) with (length (x ++ sub src (a, a + k)))
        by (rewrite app_length, sub_length; lia).
      rewrite wr_here. cbn [holds].
      replace (a + S k) with (S (a + k)) by lia. rewrite (sub_S _ _ _ _ (Nat.le_add_r a k) Ec).
      rewrite <- !app_assoc. reflexivity.
    - rewrite Nat.add_0_r, sub_empty. reflexivity.
    - intros t ->. cbn [plus]. replace (a + (b - a)) with b by lia.
      rewrite <- H3, skipn_all. reflexivity.
  Qed.

  Lemma delta_list_ok p s : p <> [] ->
    exists ks, leftmost_occs eqb p s 0 ks /\ delta_list eqb s p = Ok ks.
  Proof.
    intros Hp. assert (0 < length p) by (destruct p; [congruence|simpl; lia]).
    assert (Hh : holds (delta_list eqb s p) (fun ks => leftmost_occs eqb p s 0 ks)).
    { unfold delta_list.
      apply loop_rule with
        (I := fun '(pos, ks1) => pos <= length s /\
           forall ks2, leftmost_occs eqb p s pos ks2 -> leftmost_occs eqb p s 0 (ks1 ++ ks2))
        (mu := fun '(pos, ks1) => length s - pos).
      - intros [pos ks1] (Hi & H3). unfold str_find.
        destruct (Nat.ltb_spec (length s) pos); [lia|].
        pose proof (search_spec eqb p (skipn pos s)) as Hs.
        destruct (search eqb p (skipn pos s)) as [k|]; cbn [option_map holds].
        + destruct Hs as [Hs1 Hs2]. apply occurs_at_skipn in Hs1; auto.
          destruct (Hs1) as [Hlen _]. split; [|lia]. split; [lia|].
          intros ks2 H4. rewrite <- app_assoc. apply H3. simpl. constructor; auto; [lia|].
          intros j Hj Ho. apply (Hs2 (j - pos)); [lia|]. apply occurs_at_skipn; auto.
          now replace (pos + (j - pos)) with j by lia.
        + rewrite <- (app_nil_r ks1). apply H3. constructor. intros j Hj Ho.
          apply (Hs (j - pos)). apply occurs_at_skipn; auto.
          now replace (pos + (j - pos)) with j by lia.
      - split; [lia|]. auto.
      - lia. }
    apply holds_ex in Hh. destruct Hh as (ks & E & H'). eauto.
  Qed.

  Lemma replace_pattern_ok zero s p r : p <> [] ->
    exists ks, leftmost_occs eqb p s 0 ks /\
      replace_pattern eqb zero s p r = Ok (splice s (length p) r 0 ks).
  Proof.
    intros Hp. destruct (delta_list_ok p s Hp) as (ks & Hks & Ed).
    exists ks. split; auto. unfold replace_pattern.
    assert (Hl : 0 < length p) by (destruct p; [congruence|simpl; lia]).
    destruct (Nat.eqb_spec (length p) 0); [lia|]. cbn [orb].
    destruct (list_eqb eqb p r) eqn:El.
    { apply list_eqb_ok in El. subst r. rewrite splice_same by (auto; lia). reflexivity. }
    rewrite Ed. cbn [bind]. destruct ks as [|k0 ks'] eqn:Ek; [reflexivity|].
    rewrite <- Ek in *. cbv zeta.
    set (target := splice s (length p) r 0 ks).
    pose proof (splice_length p r s 0 ks ltac:(lia) Hks) as HL. fold target in HL.
    set (sz := Z.to_nat _).
    assert (Hsz : sz = length target) by (unfold sz; nia).
    apply holds_eq.
    eapply holds_bind2 with
      (P := fun '(s_itr, n_itr, n) => s_itr <= length s /\ exists done gap, n = done ++ gap /\
          length done = n_itr /\ done ++ skipn s_itr s = target /\ length gap = length s - s_itr).
    - apply loop_rule with
        (I := fun '(i, delta, s_itr, n_itr, n) => exists ks1 k ks2 done gap,
           ks = ks1 ++ k :: ks2 /\ length ks1 = i /\ s_itr <= length s /\
           leftmost_occs eqb p s s_itr (k :: ks2) /\ delta = k - s_itr /\
           n = done ++ gap /\ length done = n_itr /\
           done ++ splice s (length p) r s_itr (k :: ks2) = target /\
           length gap = length (splice s (length p) r s_itr (k :: ks2)))
        (mu := fun '(i, delta, s_itr, n_itr, n) => length ks - i).
      + intros [[[[i delta] s_itr] n_itr] n'] (ks1 & k & ks2 & done & gap & H1 & H2 & H3 & H4 & H5 & H6 & H7 & H8 & H9).
        inversion H4 as [|? ? ? Hk Ho Hb Hn]; subst a k1 ks0.
        destruct Ho as [Ho _].
        cbn [splice] in H8, H9. rewrite !app_length, sub_length in H9 by lia.
        set (rest := splice s (length p) r (k + length p) ks2) in *.
        (* cut the gap in three *)
        set (g1 := firstn (k - s_itr) gap).
        set (g2 := firstn (length r) (skipn (k - s_itr) gap)).
        set (g3 := skipn (length r) (skipn (k - s_itr) gap)).
        assert (Eg : gap = g1 ++ g2 ++ g3) by (unfold g1, g2, g3; now rewrite !firstn_skipn).
        assert (Lg1 : length g1 = k - s_itr) by (unfold g1; rewrite firstn_length; lia).
        assert (Lg2 : length g2 = length r) by (unfold g2; rewrite firstn_length, skipn_length; lia).
        assert (Lg3 : length g3 = length rest).
        { apply (f_equal (@length A)) in Eg. rewrite !app_length in Eg. lia. }
        replace (s_itr + delta) with k by lia.
        rewrite H6, Eg, <- H7. rewrite copy_to_ok by lia. cbn [bind].
        replace (length done + delta) with (length (done ++ sub s (s_itr, k)))
          by (rewrite app_length, sub_length; lia).
        rewrite (app_assoc done). rewrite copy_to_ok by lia. cbn [bind].
        rewrite sub_full.
        replace (s_itr + (length p + delta)) with (k + length p) by lia.
        rewrite H1, app_length. cbn [length].
        destruct (Nat.leb_spec (length ks1 + S (length ks2)) (S i)) as [L|L].
        * assert (ks2 = []) as -> by (apply length_zero_iff_nil; lia).
          cbn [holds]. split; [lia|].
          exists (done ++ sub s (s_itr, k) ++ r), g3. split; [now rewrite <- !app_assoc|].
          split; [rewrite !app_length; lia|].
          split; [rewrite <- H8; unfold rest; cbn [splice]; now rewrite <- !app_assoc|].
          rewrite Lg3. unfold rest. cbn [splice]. rewrite skipn_length. lia.
        * destruct ks2 as [|k2 ks2]; [simpl in L; lia|].
          assert (E1 : rd (ks1 ++ k :: k2 :: ks2) (S i) = Ok k2).
          { rewrite (app_cons_assoc ks1). replace (S i) with (length (ks1 ++ [k]))
              by (rewrite app_length; simpl; lia). apply rd_here. }
          assert (E2 : rd (ks1 ++ k :: k2 :: ks2) (S i - 1) = Ok k).
          { replace (S i - 1) with (length ks1) by lia. apply rd_here. }
          rewrite E1, E2. cbn [bind holds]. split; [|simpl; lia].
          exists (ks1 ++ [k]), k2, ks2, (done ++ sub s (s_itr, k) ++ r), g3.
          split; [now rewrite <- app_assoc|].
          split; [rewrite app_length; simpl; lia|]. split; [lia|]. split; [exact Hn|].
          split; [lia|]. split; [now rewrite <- !app_assoc|].
          split; [rewrite !app_length; lia|].
          split; [rewrite <- H8; now rewrite <- !app_assoc|]. exact Lg3.
      + exists [], k0, ks', [], (repeat zero sz).
        rewrite <- Ek. cbn [app length].
        split; [reflexivity|]. split; [reflexivity|]. split; [lia|]. split; [exact Hks|].
        split; [lia|]. split; [reflexivity|]. split; [reflexivity|]. split; [reflexivity|].
        rewrite repeat_length. exact Hsz.
      + lia.
    - intros [[s_itr n_itr] n'] (Hi & done & gap & -> & <- & H3 & H4).
      destruct (Nat.eqb_spec (length s) s_itr) as [E|E]; cbn [negb].
      + cbn [holds]. rewrite <- H3, <- E, skipn_all.
        assert (gap = []) as -> by (apply length_zero_iff_nil; lia). reflexivity.
      + rewrite <- (app_nil_r gap). rewrite copy_to_ok by lia.
        cbn [holds]. rewrite app_nil_r, <- H3. f_equal.
        unfold sub. cbn [fst snd]. apply firstn_all2. rewrite skipn_length. lia.
  Qed.

  Lemma replace_pattern_empty zero s r : replace_pattern eqb zero s [] r = Ok s.
  Proof. reflexivity. Qed.

  (* ---- iterator version ---- *)
  Lemma scan_here_ok s p t : t <= length s ->
    exists found t' pi, scan_here eqb s p t = Ok (found, t', pi) /\ t' <= length s /\
      ((found = true /\ pi = length p /\ t' = t + length p /\ occurs_at eqb p s t) \/
       (found = true /\ pi <> length p /\ t' = length s /\ t + length p > length s) \/
       (found = false /\ ~ occurs_at eqb p s t)).
  Proof.
    intros Ht.
    assert (H : holds (scan_here eqb s p t) (fun '(found, t', pi) => t' <= length s /\
      ((found = true /\ pi = length p /\ t' = t + length p /\ occurs_at eqb p s t) \/
       (found = true /\ pi <> length p /\ t' = length s /\ t + length p > length s) \/
       (found = false /\ ~ occurs_at eqb p s t)))).
    { unfold scan_here.
      apply loop_rule with
        (I := fun '(u, pi) => u = t + pi /\ u <= length s /\ pi <= length p /\
               forall j x y, j < pi -> nth_error p j = Some y ->
              nth_error s (t + j) = Some x -> eqb x y = true)
        (mu := fun '(u, pi) => length p - pi).
      - intros [u pi] (-> & H1 & H2 & H3).
        destruct (Nat.eqb_spec (length p) pi) as [E|E]; cbn [orb].
        + cbn [holds]. split; auto. left. repeat split; try lia.
          intros j x y Hy Hx. apply (H3 j); auto. apply nth_error_some_lt in Hy. lia.
        + destruct (Nat.eqb_spec (length s) (t + pi)) as [E2|E2].
          * cbn [holds]. split; auto. right. left. lia.
          * apply holds_bind, holds_rd; [lia|]. intros x Hx.
            apply holds_bind, holds_rd; [lia|]. intros y Hy.
            destruct (eqb x y) eqn:Ee; cbn [negb holds].
            -- split; [|lia]. repeat split; try lia. intros j a b Hj Hb Ha.
               destruct (Nat.eq_dec j pi) as [->|]; [congruence|]. apply (H3 j); auto. lia.
            -- split; [lia|]. right. right. split; auto. intros [_ Ho].
               specialize (Ho pi x y Hy Hx). congruence.
      - repeat split; try lia.
      - lia. }
    apply holds_ex in H. destruct H as ([[f t'] pi] & E & H1 & H2). exists f, t', pi. auto.
  Qed.

  Lemma leftmost_skip p s a ks : ~ occurs_at eqb p s a ->
    leftmost_occs eqb p s (S a) ks -> leftmost_occs eqb p s a ks.
  Proof.
    intros Hn H. inversion H as [? H1|? k ks' Hk Ho Hb Hl]; subst.
    - constructor. intros k Hk. destruct (Nat.eq_dec k a) as [->|]; auto. apply H1. lia.
    - constructor; auto; [lia|]. intros j Hj. destruct (Nat.eq_dec j a) as [->|]; auto.
      apply Hb. lia.
  Qed.

  Lemma leftmost_skip_inv p s a ks : ~ occurs_at eqb p s a ->
    leftmost_occs eqb p s a ks -> leftmost_occs eqb p s (S a) ks.
  Proof.
    intros Hn H. inversion H as [? H1|? k ks' Hk Ho Hb Hl]; subst.
    - constructor. intros k Hk. apply H1. lia.
    - destruct (Nat.eq_dec k a) as [->|]; [contradiction|].
      constructor; auto; [lia|]. intros j Hj. apply Hb. lia.
  Qed.

  Lemma count_occurrences_ok p s r : p <> [] ->
    exists ks, leftmost_occs eqb p s 0 ks /\
      count_occurrences eqb s p r
      = Ok (length ks, Z.of_nat (length (splice s (length p) r 0 ks))).
  Proof.
    intros Hp. assert (Hl0 : 0 < length p) by (destruct p; [congruence|simpl; lia]).
    assert (Hh : holds (count_occurrences eqb s p r) (fun '(c, z) => exists ks,
      leftmost_occs eqb p s 0 ks /\ c = length ks /\
      z = (Z.of_nat (length s) + Z.of_nat c * (Z.of_nat (length r) - Z.of_nat (length p)))%Z)).
    { unfold count_occurrences.
      apply loop_rule with
        (I := fun '(a, c, z) => a <= length s /\ (exists ks1, length ks1 = c /\
           forall ks2, leftmost_occs eqb p s a ks2 -> leftmost_occs eqb p s 0 (ks1 ++ ks2)) /\
           z = (Z.of_nat (length s) + Z.of_nat c * (Z.of_nat (length r) - Z.of_nat (length p)))%Z)
        (mu := fun '(a, c, z) => length s - a).
      - intros [[a c] z] (Ha & (ks1 & Hc & Hk) & Hz).
        destruct (Nat.eqb_spec (length s) a) as [E|E].
        + cbn [holds]. exists ks1. split; auto. rewrite <- (app_nil_r ks1). apply Hk.
          constructor. intros k Hk' [Ho _]. lia.
        + destruct (scan_here_ok s p a Ha) as (f & t & pi & Es & Ht & Hcase).
          rewrite Es. cbn [bind].
          destruct Hcase as [(-> & -> & -> & Ho)|[(-> & Hpi & -> & Hgt)|(-> & Hno)]].
          * rewrite Nat.eqb_refl. cbn [andb holds]. split; [|lia]. split; [lia|]. split.
            -- exists (ks1 ++ [a]). split; [rewrite app_length; simpl; lia|].
               intros ks2 H2. rewrite <- app_assoc. apply Hk. simpl. constructor; auto.
               intros j Hj. lia.
            -- lia.
          * destruct (Nat.eqb_spec pi (length p)); [lia|]. cbn [andb holds].
            split; [|lia]. split; [lia|]. split; auto. exists ks1. split; auto.
            intros ks2 H2. apply Hk. apply leftmost_skip; auto. intros [Ho _]. lia.
          * cbn [andb holds]. split; [|lia]. split; [lia|]. split; auto.
            exists ks1. split; auto. intros ks2 H2. apply Hk. apply leftmost_skip; auto.
      - split; [lia|]. split; [|lia]. exists []. auto.
      - lia. }
    apply holds_ex in Hh. destruct Hh as ([c z] & E & ks & H1 & -> & ->).
    exists ks. split; auto. rewrite E. do 2 f_equal.
    pose proof (splice_length p r s 0 ks ltac:(lia) H1) as HL. nia.
  Qed.

  Lemma replace_pattern_out_ok s p r : p <> [] ->
    exists ks, leftmost_occs eqb p s 0 ks /\
      replace_pattern_out eqb s p r
      = Ok (splice s (length p) r 0 ks, Z.of_nat (length (splice s (length p) r 0 ks))).
  Proof.
    intros Hp. destruct (count_occurrences_ok p s r Hp) as (ks & Hks & Ec).
    exists ks. split; auto. unfold replace_pattern_out, replace_pattern_itr.
    assert (Hl : 0 < length p) by (destruct p; [congruence|simpl; lia]).
    destruct (Nat.eqb_spec (length p) 0); [lia|]. cbn [orb].
    destruct ((length p =? length r) && list_eqb eqb p r) eqn:El.
    { apply andb_prop in El. destruct El as [_ El].
      apply list_eqb_ok in El. subst r. rewrite splice_same by (auto; lia). reflexivity. }
    rewrite Ec. cbn [bind]. set (target := splice s (length p) r 0 ks).
    apply holds_eq.
    eapply holds_bind2 with
      (P := fun '(s_itr, o) => s_itr <= length s /\ o ++ skipn s_itr s = target).
    - apply loop_rule with
        (I := fun '(c, s_itr, temp, prev, o) => exists ks2,
           leftmost_occs eqb p s temp ks2 /\ c = length ks2 /\ prev = s_itr /\
           s_itr <= temp <= length s /\ o ++ splice s (length p) r s_itr ks2 = target)
        (mu := fun '(c, s_itr, temp, prev, o) => length s - temp).
      + intros [[[[c s_itr] temp] prev] o] (ks2 & H1 & H2 & -> & H4 & H5).
        destruct (Nat.eqb_spec c 0) as [E|E].
        * cbn [holds]. assert (ks2 = []) as -> by (apply length_zero_iff_nil; lia).
          split; [lia|]. exact H5.
        * destruct (scan_here_ok s p temp ltac:(lia)) as (f & t & pi & Es & Ht & Hcase).
          rewrite Es. cbn [bind].
          assert (Hroom : temp + length p <= length s).
          { inversion H1 as [|? k ks' Hk [Ho _]]; subst; [simpl in E; lia|lia]. }
          destruct Hcase as [(-> & -> & -> & Ho)|[(-> & Hpi & -> & Hgt)|(-> & Hno)]].
          -- cbn [negb]. rewrite Nat.eqb_refl. cbn [negb]. cbv zeta.
             replace (temp + length p - length p) with temp by lia.
             replace (s_itr + (temp - s_itr)) with temp by lia.
             destruct (Nat.ltb_spec (length s) temp); [lia|].
             cbn [holds].
             inversion H1 as [? Hn|? k ks' Hk Ho' Hb Hl']; subst.
             { exfalso. apply (Hn temp); auto. }
             assert (k = temp) as ->.
             { destruct (Nat.eq_dec k temp) as [|Hne]; auto. exfalso. apply (Hb temp); auto. lia. }
             split; [|lia]. exists ks'. split; auto. split; [simpl; lia|].
             split; [lia|]. split; [lia|].
             rewrite <- H5. cbn [splice]. now rewrite <- !app_assoc.
          -- lia.
          -- cbn [negb holds]. split.
             ++ exists ks2. split; [apply leftmost_skip_inv; auto|]. repeat split; auto; lia.
             ++ lia.
      + exists ks. repeat split; auto; lia.
      + lia.
    - intros [s_itr o] [Hi Ht]. cbn [holds]. f_equal. rewrite <- Ht. f_equal.
      unfold sub. cbn [fst snd]. apply firstn_all2. rewrite skipn_length. lia.
  Qed.
End EqP.

Lemma begins_ends_index {A} (eqb : A -> A -> bool) :
  (forall x y, eqb x y = true <-> x = y) ->
  forall pat s : list A,
  (exists b, begins_with eqb pat s = Ok b /\ (b = true <-> exists t, s = pat ++ t)) /\
  (exists b, ends_with eqb pat s = Ok b /\ (b = true <-> exists t, s = t ++ pat)) /\
  (pat <> [] -> forall k, index_of eqb pat s = Some k <->
     (exists a b, s = a ++ pat ++ b /\ length a = k) /\
     forall a b, s = a ++ pat ++ b -> k <= length a).
Proof.
  intros He pt s. split; [now apply begins_with_eq|]. split; [now apply ends_with_eq|].
  intros Hp k. pose proof (index_of_ok eqb pt s Hp) as H. split.
  - intros E. rewrite E in H. destruct H as [H1 H2]. split; [now apply (occurs_at_eq eqb He)|].
    intros a b Es. destruct (le_lt_dec k (length a)) as [|L]; auto. exfalso.
    apply (H2 _ L). apply (occurs_at_eq eqb He). eauto.
  - intros [H1 H2]. apply (occurs_at_eq eqb He) in H1.
    destruct (index_of eqb pt s) as [k'|]; [|exfalso; now apply (H k)].
    destruct H as [H3 H4]. f_equal.
    assert (~ k < k') by (intros L; now apply (H4 k L)).
    apply (occurs_at_eq eqb He) in H3. destruct H3 as (a & b & Es & <-). specialize (H2 a b Es). lia.
Qed.
