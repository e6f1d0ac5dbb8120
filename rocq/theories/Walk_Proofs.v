From Coq Require Import Sorting.Sorted.
From Verif Require Import Base Split_Model Split_Spec Split_Proofs Edit_Model Edit_Spec Edit_Proofs2 Edit_Props Codec_Spec Match_Model Match_Spec Match_Proofs Match_Props
  Num_Model Num_Spec Num_Proofs2 Num_Props Parse_Model Parse_Spec Parse_Spec2 Parse_Proofs Parse_Proofs2 Parse_Proofs3 Parse_Props Tour_Model Tour_Proofs Tour_Proofs2 Walk_Model Walk_Spec.
Local Open Scope nat_scope.

(* ---- translation ---- *)
Lemma lookup_none ps c : ~ In c (map fst ps) -> lookup_last ps c = c.
Proof.
  induction ps as [|[a b] ps IH]; cbn [map lookup_last fst]; intros H; [reflexivity|].
  replace (existsb (fun q => Ascii.eqb (fst q) c) ps) with false.
  - destruct (Ascii.eqb_spec a c) as [->|_]; [exfalso; apply H; left; reflexivity|reflexivity].
  - symmetry. apply not_true_iff_false. intros Hx. apply existsb_exists in Hx as (q & Hq & E). apply Ascii.eqb_eq in E. apply H. right. rewrite <- E. now apply in_map.
Qed.
Lemma lookup_some ps c d : NoDup (map fst ps) -> In (c, d) ps -> lookup_last ps c = d.
Proof.
  induction ps as [|[a b] ps IH]; cbn [map lookup_last fst]; intros Hn Hi; [destruct Hi|]. inversion Hn as [|? ? Ha Hn']; subst.
  destruct Hi as [E|Hi].
  - injection E as -> ->. replace (existsb (fun q => Ascii.eqb (fst q) c) ps) with false; [now rewrite Ascii.eqb_refl|].
    symmetry. apply not_true_iff_false. intros Hx. apply existsb_exists in Hx as (q & Hq & E). apply Ascii.eqb_eq in E. apply Ha. rewrite <- E. now apply in_map.
  - replace (existsb (fun q => Ascii.eqb (fst q) c) ps) with true; [now apply IH|]. symmetry. apply existsb_exists. exists (c, d). split; [exact Hi|apply Ascii.eqb_refl].
Qed.
Lemma combine_fst {A B} (a : list A) : forall b : list B, length a = length b -> map fst (combine a b) = a.
Proof. induction a as [|x a IH]; intros [|y b] H; cbn in *; try discriminate; [reflexivity|]. now rewrite IH by congruence. Qed.
Lemma combine_swap {A B} (a : list A) : forall (b : list B) x y, In (x, y) (combine a b) -> In (y, x) (combine b a).
Proof. induction a as [|u a IH]; intros [|v b] x y H; cbn in *; try tauto. destruct H as [E|H]; [left; congruence|right; auto]. Qed.
Lemma combine_ex {A B} (a : list A) : forall (b : list B) x, length a = length b -> In x a -> exists y, In (x, y) (combine a b).
Proof.
  induction a as [|u a IH]; intros [|v b] x H Hi; cbn in *; try discriminate; [destruct Hi|].
  destruct Hi as [->|Hi]; [exists v; now left|]. destruct (IH b x) as (y & Hy); [congruence|exact Hi|]. exists y. now right.
Qed.
Section Undo.
Variables (intab outtab : list ascii).
Hypotheses (Hl : length intab = length outtab) (Hin : NoDup intab) (Hout : NoDup outtab).
Let f := lookup_last (combine intab outtab).
Let g := lookup_last (combine outtab intab).
Lemma undo_iff c : g (f c) = c <-> In c intab \/ ~ In c outtab.
Proof.
  assert (F1 : map fst (combine intab outtab) = intab) by now apply combine_fst.
  assert (F2 : map fst (combine outtab intab) = outtab) by (now apply combine_fst).
  destruct (in_dec ascii_dec c intab) as [Hi|Hn].
  - split; [tauto|]. intros _. destruct (combine_ex intab outtab c Hl Hi) as (d & Hd). unfold f. rewrite (lookup_some _ c d); [|now rewrite F1|exact Hd].
    unfold g. apply lookup_some; [now rewrite F2|now apply combine_swap].
  - unfold f. rewrite lookup_none by now rewrite F1. destruct (in_dec ascii_dec c outtab) as [Ho|Hno].
    + split; [|tauto]. intros E. exfalso. destruct (combine_ex outtab intab c (eq_sym Hl) Ho) as (d & Hd). unfold g in E. rewrite (lookup_some _ c d) in E; [|now rewrite F2|exact Hd].
      subst d. apply combine_swap in Hd. apply in_combine_l in Hd. contradiction.
    + split; [tauto|]. intros _. unfold g. apply lookup_none. now rewrite F2.
Qed.
End Undo.
Lemma map_same_iff {A} (h : A -> A) s : map h s = s <-> forall c, In c s -> h c = c.
Proof.
  induction s as [|a s IH]; cbn [map]; [split; [intros _ c []|reflexivity]|]. split.
  - intros E. injection E as E1 E2. intros c [<-|Hc]; [exact E1|]. now apply IH.
  - intros H. f_equal; [apply H; now left|]. apply IH. intros c Hc. apply H. now right.
Qed.
Lemma lookup_low ps c : low c -> Forall (fun q => low (snd q)) ps -> low (lookup_last ps c).
Proof.
  intros Hc H. induction H as [|[a b] ps Hb H IH]; cbn [lookup_last]; [exact Hc|].
  destruct (existsb _ ps); [exact IH|]. destruct (Ascii.eqb a c); [exact Hb|exact Hc].
Qed.

(* ---- matches ---- *)
Lemma match_line_ok data ms : match_line data ms = concat (map (fun m => match_text (sub data m)) ms) ++ [ascii_of_nat 10].
Proof.
  unfold match_line. f_equal. assert (G : forall out, fold_left (fun out m => out ++ str "(" ++ sub data m ++ str ")" ++ [ascii_of_nat 9]) ms out = out ++ concat (map (fun m => match_text (sub data m)) ms)).
  { induction ms as [|m ms IH]; intros out; cbn [fold_left map concat]; [now rewrite app_nil_r|]. rewrite IH. unfold match_text. now rewrite <- app_assoc. }
  exact (G []).
Qed.
Lemma exact_ieq pat s k : occurs_at Ascii.eqb pat s k -> occurs_at ieq pat s k.
Proof.
  intros [H1 H2]. split; [exact H1|]. intros i x y Hy Hx. unfold ieq. specialize (H2 i x y Hy Hx). apply Ascii.eqb_eq in H2. subst. apply Ascii.eqb_refl.
Qed.
Lemma occurs_apart pat s j k : never_overlaps pat -> occurs_at ieq pat s j -> occurs_at ieq pat s k -> j < k -> j + length pat <= k.
Proof.
  intros Hn [A1 A2] [B1 B2] Hjk. destruct (Nat.le_gt_cases (j + length pat) k) as [|Hlt]; [assumption|exfalso].
  destruct (Hn (k - j)) as (i & x & y & Hx & Hy & D); [lia|]. pose proof (nth_error_some_lt _ _ _ Hx) as Li.
  destruct (nth_error s (k + i)) as [c|] eqn:Ec; [|apply nth_error_None in Ec; lia].
  pose proof (B2 i c x Hx Ec) as E1. replace (k + i) with (j + (k - j + i)) in Ec by lia. pose proof (A2 _ c y Hy Ec) as E2.
  unfold ieq in *. apply Ascii.eqb_eq in E1, E2. congruence.
Qed.
Lemma leftmost_widen {A} (eqv : A -> A -> bool) pat s a b ks : leftmost_occs eqv pat s b ks -> a <= b -> (forall k, a <= k < b -> ~ occurs_at eqv pat s k) ->
  leftmost_occs eqv pat s a ks.
Proof.
  intros H Hab Hn. inversion H as [b' H0|b' k ks' Hk Ho Hb Hl]; subst.
  - constructor. intros k Hk. destruct (Nat.lt_ge_cases k b); [now apply Hn|now apply H0].
  - constructor; [lia|exact Ho| |exact Hl]. intros j Hj. destruct (Nat.lt_ge_cases j b); [now apply Hn|apply Hb; lia].
Qed.
Lemma sub_exact pat s k : k + length pat <= length s -> text_eqb (sub s (k, k + length pat)) pat = true <-> occurs_at Ascii.eqb pat s k.
Proof.
  intros Hk. rewrite (occurs_at_eq Ascii.eqb Ascii.eqb_eq). unfold text_eqb, sub. cbn [fst snd]. replace (k + length pat - k) with (length pat) by lia.
  destruct (list_eq_dec ascii_dec (firstn (length pat) (skipn k s)) pat) as [E|E]; split; intros H; try discriminate; auto.
  - exists (firstn k s), (skipn (length pat) (skipn k s)). split; [|rewrite firstn_length; lia].
    rewrite <- (firstn_skipn k s) at 1. f_equal. rewrite <- (firstn_skipn (length pat) (skipn k s)) at 1. now rewrite E.
  - destruct H as (a & b & -> & <-). exfalso. apply E. rewrite skipn_app, skipn_all, Nat.sub_diag. cbn [skipn app].
    rewrite firstn_app, firstn_all, Nat.sub_diag. cbn [firstn]. apply app_nil_r.
Qed.
Lemma leftmost_exact pat s : pat <> [] -> never_overlaps pat -> forall a ks, leftmost_occs ieq pat s a ks ->
  leftmost_occs Ascii.eqb pat s a (filter (fun k => text_eqb (sub s (k, k + length pat)) pat) ks).
Proof.
  intros Hne Hn a ks H. assert (Lp : 0 < length pat) by (destruct pat; [congruence|cbn; lia]). induction H as [a H|a k ks Hk Ho Hb Hl IH]; cbn [filter].
  - constructor. intros k Hk Hx. exact (H k Hk (exact_ieq _ _ _ Hx)).
  - destruct (text_eqb (sub s (k, k + length pat)) pat) eqn:E.
    + constructor; [exact Hk| | |exact IH].
      * apply sub_exact; [exact (proj1 Ho)|exact E].
      * intros j Hj Hx. exact (Hb j Hj (exact_ieq _ _ _ Hx)).
    + apply (leftmost_widen _ _ _ _ _ _ IH); [lia|]. intros j Hj Hx. destruct (lt_eq_lt_dec j k) as [[Hjk| ->]|Hjk].
      * apply (Hb j); [lia|now apply exact_ieq].
      * apply sub_exact in Hx; [congruence|exact (proj1 Ho)].
      * apply exact_ieq in Hx. pose proof (occurs_apart pat s k j Hn Ho Hx Hjk). lia.
Qed.
(* leftmost choices are as many as possible *)
Lemma leftmost_count pat s : forall b ks, leftmost_occs Ascii.eqb pat s b ks ->
  forall a ks', a <= b -> leftmost_occs ieq pat s a ks' -> length ks <= length ks'.
Proof.
  intros b ks H. induction H as [b H|b k ks Hk Ho Hb Hl IH]; intros a ks' Hab H'; [cbn; lia|].
  inversion H' as [a' H0|a' k' ks2 Hk' Ho' Hb' Hl']; subst.
  - exfalso. apply (H0 k); [lia|now apply exact_ieq].
  - cbn [length]. apply le_n_S. apply (IH (k' + length pat)); [|exact Hl']. apply exact_ieq in Ho.
    destruct (Nat.le_gt_cases k' k); [lia|]. exfalso. apply (Hb' k); [lia|exact Ho].
Qed.

Lemma leftmost_in {A} (eqv : A -> A -> bool) pat s a ks : leftmost_occs eqv pat s a ks -> Forall (occurs_at eqv pat s) ks.
Proof. induction 1; constructor; auto. Qed.

(* ---- index_of ---- *)
Lemma index_line_ok data p : p <> [] -> (Z.of_nat (length data) < 18446744073709551615)%Z ->
  exists n t, first_index data p n /\ canonical t n /\
    index_line data p = Ok (str "Index of pattern[" ++ p ++ str "]: " ++ t ++ [ascii_of_nat 10]).
Proof.
  intros Hp Hd. unfold index_line. destruct (C50_begins_ends_index ascii Ascii.eqb Ascii.eqb_eq p data) as (_ & _ & H). specialize (H Hp).
  destruct (index_of Ascii.eqb p data) as [k|] eqn:E.
  - destruct (proj1 (H k) eq_refl) as ((a & b & -> & <-) & Hm). destruct (size_text_ok (length a)) as (t & Et & Ct).
    { rewrite !app_length in Hd. change (10 ^ 20)%Z with 100000000000000000000%Z. lia. }
    exists (Z.of_nat (length a)), t. split; [left; exists a, b; auto|]. split; [exact Ct|]. rewrite Et. reflexivity.
  - assert (G : holds (format_unsigned 18446744073709551615%Z) (fun s => canonical s 18446744073709551615%Z /\ unsigned_text s 18446744073709551615%Z)) by (apply format_unsigned_ok; vm_compute; split; [discriminate|reflexivity]).
    apply holds_ex in G as (t & Et & Ct & _). exists 18446744073709551615%Z, t. split.
    + right. split; [|reflexivity]. intros a b Hab.
      destruct (C13_find_all ascii Ascii.eqb p data Hp) as (ks & Hk & _). assert (Ho : occurs_at Ascii.eqb p data (length a)) by (apply (occurs_at_eq Ascii.eqb Ascii.eqb_eq); eauto).
      inversion Hk as [a0 H0|a0 k ks' Hk1 Ho1 Hb Hl]; subst a0; [exact (H0 _ (Nat.le_0_l _) Ho)|]. apply (occurs_at_eq Ascii.eqb Ascii.eqb_eq) in Ho1 as (a1 & b1 & Q1 & L1).
      assert (X : None = Some k); [|discriminate]. apply H. split; [eauto|]. intros a2 b2 H2. destruct (Nat.le_gt_cases k (length a2)) as [|L]; [assumption|exfalso].
      apply (Hb (length a2)); [lia|]. apply (occurs_at_eq Ascii.eqb Ascii.eqb_eq). eauto.
    + split; [exact Ct|]. change (2 ^ 64 - 1)%Z with 18446744073709551615%Z. rewrite Et. reflexivity.
Qed.
