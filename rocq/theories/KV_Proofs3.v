(* Key-value parsing of the same fields in another order. *)
From Coq Require Import Permutation.
From Verif Require Import Base Split_Model Split_Spec Num_Model Num_Spec Parse_Model Parse_Spec Parse_Proofs KV_Model KV_Spec KV_Proofs.
Local Open Scope nat_scope.

Lemma nth_upd_commute {A} (l : list A) : forall i j x y, i <> j -> upd (upd l i x) j y = upd (upd l j y) i x.
Proof.
  induction l as [|a l IH]; intros [|i] [|j] x y H; cbn; try reflexivity; try congruence.
  f_equal. apply IH. congruence.
Qed.

Section Order.
Variable d : ascii.
Variable lookup : list ascii -> option nat.

Definition apart (f g : list ascii) : Prop := forall i, mentions lookup d f i -> mentions lookup d g i -> False.
Lemma apart_sym f g : apart f g -> apart g f.
Proof. intros H i H1 H2. exact (H i H2 H1). Qed.

Lemma field_swap f g vars b1 v1 b2 v2 : apart f g ->
  field_result d lookup f vars b1 v1 -> field_result d lookup g v1 b2 v2 ->
  exists w, field_result d lookup g vars b2 w /\ field_result d lookup f w b1 v2.
Proof.
  intros Ha Hf Hg.
  inversion Hf as [Hn|k v Hk El|k v i t b x Hk El Ht Hc]; subst.
  - exists v2. split; [exact Hg|]. now apply fr_malformed.
  - exists v2. split; [exact Hg|]. eapply fr_unknown; eauto.
  - inversion Hg as [Hn'|k' v' Hk' El'|k' v' j t' b' x' Hk' El' Ht' Hc']; subst.
    + exists vars. split; [now apply fr_malformed|]. eapply fr_convert; eauto.
    + exists vars. split; [eapply fr_unknown; eauto|]. eapply fr_convert; eauto.
    + assert (Hij : i <> j). { intros ->. apply (Ha j); [exists k, v|exists k', v']; auto. }
      rewrite nth_error_upd_other in Ht' by auto.
      exists (upd vars j (given t' x')). split; [eapply fr_convert; eauto|].
      rewrite nth_upd_commute by auto. eapply fr_convert; eauto. rewrite nth_error_upd_other by auto. exact Ht.
Qed.

Lemma pairs_perm fs gs : Permutation fs gs -> ForallOrdPairs apart fs -> ForallOrdPairs apart gs.
Proof.
  induction 1 as [|f fs gs P IH|f g fs|fs gs hs _ IH1 _ IH2]; intros H; auto.
  - inversion H as [|? ? H1 H2]; subst. constructor; auto. eapply Permutation_Forall; eauto.
  - inversion H as [|? ? H1 H2]; subst. inversion H2 as [|? ? H3 H4]; subst. inversion H1 as [|? ? H5 H6]; subst.
    constructor; [constructor; [now apply apart_sym|exact H3]|]. constructor; auto.
Qed.

Lemma lenient_cons_inv f fs vars n vars' : lenient_result d lookup (f :: fs) vars n vars' ->
  (f = [] /\ lenient_result d lookup fs vars n vars') \/
  (exists b m v1, f <> [] /\ field_result d lookup f vars b v1 /\ lenient_result d lookup fs v1 m vars' /\ n = (if b then 0 else 1) + m).
Proof.
  intros H. inversion H as [|? ? ? ? Hx|? ? ? v1 b' m' ? Hnf Hf Hs]; subst; [left; auto|].
  right. exists b', m', v1. destruct b'; auto.
Qed.
Lemma lr_field' f fs vars vars1 b n vars' : f <> [] -> field_result d lookup f vars b vars1 ->
  lenient_result d lookup fs vars1 n vars' -> lenient_result d lookup (f :: fs) vars ((if b then 0 else 1) + n) vars'.
Proof. intros H1 H2 H3. pose proof (lr_field d lookup f fs vars vars1 b n vars' H1 H2 H3) as H. destruct b; exact H. Qed.

Lemma lenient_perm fs gs : Permutation fs gs -> ForallOrdPairs apart fs -> forall vars n vars',
  lenient_result d lookup fs vars n vars' -> lenient_result d lookup gs vars n vars'.
Proof.
  induction 1 as [|f fs gs P IH|f g fs|fs gs hs P1 IH1 P2 IH2]; intros Hp vars n vars' H; auto.
  - inversion Hp as [|? ? _ Hp']; subst. destruct (lenient_cons_inv _ _ _ _ _ H) as [[-> Hx]|(b & m & v1 & Hne & Hf & Hx & ->)].
    + apply lr_empty. auto.
    + eapply lr_field'; eauto.
  - inversion Hp as [|? ? H1 _]; subst. inversion H1 as [|? ? Hfg _]; subst.
    destruct (lenient_cons_inv _ _ _ _ _ H) as [[-> Hx]|(b & m & v1 & Hne & Hf & Hx & ->)].
    + destruct (lenient_cons_inv _ _ _ _ _ Hx) as [[-> Hy]|(b & m & v1 & Hne & Hf & Hy & ->)].
      * now do 2 apply lr_empty.
      * eapply lr_field'; eauto. now apply lr_empty.
    + destruct (lenient_cons_inv _ _ _ _ _ Hx) as [[-> Hy]|(b' & m' & v2 & Hne' & Hf' & Hy & ->)].
      * apply lr_empty. eapply lr_field'; eauto.
      * destruct (field_swap _ _ _ _ _ _ _ Hfg Hf Hf') as (w & Hg & Hf2).
        replace ((if b then 0 else 1) + ((if b' then 0 else 1) + m')) with ((if b' then 0 else 1) + ((if b then 0 else 1) + m')) by lia.
        eapply lr_field'; eauto. eapply lr_field'; eauto.
  - apply IH2; [now apply (pairs_perm fs)|]. auto.
Qed.

Lemma lenient_strict fs vars vars' : lenient_result d lookup fs vars 0 vars' -> strict_result d lookup fs vars true vars'.
Proof.
  revert vars. induction fs as [|f fs IH]; intros vars H.
  - inversion H; subst. constructor.
  - destruct (lenient_cons_inv _ _ _ _ _ H) as [[-> Hx]|(b & m & v1 & Hne & Hf & Hx & E)].
    + apply sr_empty. auto.
    + destruct b; [|discriminate]. cbn in E. subst m. eapply sr_ok; eauto.
Qed.

Lemma apart_pairs fs :
  (forall a b f g k v k' v' i, nth_error fs a = Some f -> nth_error fs b = Some g ->
     kv_field d f k v -> kv_field d g k' v' -> lookup k = Some i -> lookup k' = Some i -> a = b) ->
  ForallOrdPairs apart fs.
Proof.
  induction fs as [|f fs IH]; intros H; constructor.
  - apply Forall_forall. intros g Hg i (k & v & H1 & H2) (k' & v' & H3 & H4).
    apply In_nth_error in Hg as [b Hb]. specialize (H 0 (S b) f g k v k' v' i eq_refl Hb H1 H3 H2 H4). discriminate.
  - apply IH. intros a b g g' k v k' v' i Ha Hb H1 H2 H3 H4.
    specialize (H (S a) (S b) g g' k v k' v' i Ha Hb H1 H2 H3 H4). congruence.
Qed.
End Order.
