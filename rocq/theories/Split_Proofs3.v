From Verif Require Import Base Split_Model Split_Spec Split_Proofs Split_Proofs2.

Lemma split_default_fields {A} (p : A -> bool) (s : list A) :
  exists toks, split p s 0 = Ok (toks, length toks) /\
    tokens_of p s (fun f e => f) (fun f e => S f) toks /\
    Forall (fun r => fst r <= snd r /\ snd r <= length s) toks /\
    Forall (fun r => Forall (fun x => p x = false) (sub s r)) toks /\
    (s = [] -> toks = []) /\
    (s <> [] -> length toks = S (count_delims p s) /\
       weave (map (sub s) toks) (map (fun d => [d]) (filter p s)) = s).
Proof.
  destruct (split_tokens p s 0) as (toks & E & H). exists toks. split; [exact E|].
  assert (H' : tokens_of p s (fun f e => f) (fun f e => S f) toks) by exact H.
  split; [exact H'|].
  destruct H' as [[Hs ->]|[Hs Hc]].
  - repeat split; auto; congruence.
  - split; [apply (cuts_ranges p s (fun f e => f) (fun f e => S f)) with (a := 0); auto; intros; cbn; lia|].
    destruct (cuts_default_content p s 0 toks Hc ltac:(lia)) as (ds & I1 & I2 & I3 & I4 & I5).
    rewrite sub_full in *. split; [exact I3|]. split; [congruence|]. intros _.
    rewrite I5. split; [|exact I4]. unfold count_delims. now rewrite I5.
Qed.

Lemma split_compress_fields {A} (p : A -> bool) (s : list A) :
  exists toks, split p s 1 = Ok (toks, length toks) /\
    tokens_of p s (fun f e => f) (fun f e => e) toks /\
    Forall (fun r => fst r <= snd r /\ snd r <= length s) toks /\
    Forall (fun r => Forall (fun x => p x = false) (sub s r)) toks /\
    (s = [] -> toks = []) /\
    (s <> [] ->
       (exists runs, length toks = S (length runs) /\
          Forall (fun d => d <> [] /\ Forall (fun x => p x = true) d) runs /\
          weave (map (sub s) toks) runs = s) /\
       (forall i, 0 < i -> S i < length toks ->
          exists r, nth_error toks i = Some r /\ sub s r <> [])).
Proof.
  destruct (split_tokens p s 1) as (toks & E & H). exists toks. split; [exact E|].
  assert (H' : tokens_of p s (fun f e => f) (fun f e => e) toks) by exact H.
  split; [exact H'|].
  destruct H' as [[Hs ->]|[Hs Hc]].
  - repeat split; auto; congruence.
  - assert (HR : Forall (fun r => fst r <= snd r /\ snd r <= length s) toks).
    { apply (cuts_ranges p s (fun f e => f) (fun f e => e)) with (a := 0); auto; intros; cbn; lia. }
    split; [exact HR|].
    destruct (cuts_compress_content p s 0 toks Hc ltac:(lia)) as (ds & I1 & I2 & I3 & I4).
    rewrite sub_full in *. split; [exact I3|]. split; [congruence|]. intros _.
    split; [exists ds; auto|].
    intros i Hi Hl. inversion Hc as [a G1 G2|a f e toks' G1 G2 G3 G4 G5 G6 G7]; subst.
    + simpl in Hl. lia.
    + destruct i as [|i]; [lia|]. simpl in Hl.
      assert (HA : e < length s -> exists x, nth_error s e = Some x /\ p x = false).
      { intros Hel. destruct G6 as [G6|G6]; [lia|auto]. }
      destruct (cuts_compress_interior p s e toks' G7 HA i ltac:(lia)) as (r & Hr & Hlt).
      exists r. split; [exact Hr|]. intros Es.
        assert (L : length (sub s r) = 0) by now rewrite Es.
        assert (Hin : In r toks') by (eapply nth_error_In; eauto).
        inversion HR as [|x l Hx Hl' ]; subst.
        rewrite Forall_forall in Hl'. specialize (Hl' r Hin).
        destruct r as [a b]. cbn [fst snd] in *. rewrite sub_length in L by lia. lia.
Qed.

Lemma split_include_lossless {A} (p : A -> bool) (s : list A) (opt : N) :
  (has_bit opt 1 = true /\ has_bit opt 0 = false) \/
  (has_bit opt 1 = false /\ has_bit opt 2 = true) ->
  exists toks, split p s opt = Ok (toks, length toks) /\
    concat (map (sub s) toks) = s /\
    (forall i r, nth_error toks i = Some r ->
      exists fld del, sub s r = fld ++ del /\
        Forall (fun x => p x = false) fld /\ Forall (fun x => p x = true) del /\
        (S i < length toks -> del <> []) /\
        (S i = length toks -> del = []) /\
        (has_bit opt 1 = true -> length del <= 1)).
Proof.
  intros Ho. destruct (split_tokens p s opt) as (toks & E & H). exists toks. split; [exact E|].
  destruct H as [[Hs ->]|[Hs Hc]].
  { split; [now rewrite Hs|]. intros [|i] r Hr; discriminate. }
  assert (Ete : forall f e, spec_next_start opt f e = spec_tok_end opt f e).
  { intros f e. unfold spec_next_start, spec_tok_end.
    destruct Ho as [[-> ->]|[-> ->]]; reflexivity. }
  assert (Hto : forall f e, f < e -> f < spec_tok_end opt f e /\ spec_tok_end opt f e <= e).
  { intros f e Hfe. unfold spec_tok_end. destruct Ho as [[O1 O2]|[O1 O2]]; rewrite O1, ?O2; lia. }
  assert (Hc' : cuts p s (spec_tok_end opt) (spec_tok_end opt) 0 toks).
  { clear -Hc Ete. remember 0 as a. clear Heqa.
    induction Hc as [a H1 H2|a f e toks H1 H2 H3 H4 H5 H6 H7 IH].
    - now apply cut_last.
    - eapply cut_more; eauto. now rewrite Ete in IH. }
  split.
  - rewrite (cuts_tile p s (spec_tok_end opt) 0 toks); auto; try lia.
    + apply sub_full.
    + intros f e Hfe. specialize (Hto f e Hfe). lia.
  - intros i r Hr.
    destruct (has_bit opt 1) eqn:B1.
    2:{ destruct (cuts_include_shape p s _ _ 0 toks Hto Hto Hc' i r Hr)
          as (fld & del & E1 & E2 & E3 & E4 & E5).
        exists fld, del. repeat split; auto. discriminate. }
    (* include_1st: one delimiter *)
    clear E Hc Hs Ete. revert i r Hr. revert Hc'.
    set (one := 1). generalize 0 as a. subst one.
    intros a Hc'.
    induction Hc' as [a H1 H2|a f e toks H1 H2 H3 H4 H5 H6 H7 IH]; intros i r Hr.
    + destruct i as [|[|i]]; simpl in Hr; try discriminate. inversion Hr; subst r.
      exists (sub s (a,length s)), []. rewrite app_nil_r.
      repeat split; auto; try (simpl; lia).
      eapply Forall_impl; [|apply all_in_forall; eauto].
      intros x Hx; simpl in Hx. now destruct (p x).
    + destruct i as [|i].
      * simpl in Hr. inversion Hr; subst r.
        assert (Et : spec_tok_end opt f e = S f) by (unfold spec_tok_end; now rewrite B1).
        rewrite Et.
        exists (sub s (a,f)), (sub s (f, S f)). repeat split.
        -- symmetry. apply sub_app; lia.
        -- eapply Forall_impl; [|apply all_in_forall; [| |exact H4]; lia].
           intros x Hx; simpl in Hx. now destruct (p x).
        -- apply all_in_forall; try lia. eapply all_in_sub; eauto; lia.
        -- intros _ En. assert (L : length (sub s (f, S f)) = 0) by now rewrite En.
           rewrite sub_length in L; lia.
        -- intros En. simpl in En. inversion H7; subst; simpl in En; lia.
        -- intros _. rewrite sub_length by lia. lia.
      * simpl in Hr. destruct (IH i r Hr) as (fld & del & E1 & E2 & E3 & E4 & E5 & E6).
        exists fld, del. cbn [length].
        split; [auto|split; [auto|split; [auto|split; [|split; [|exact E6]]]]]; intros; [apply E4|apply E5]; lia.
Qed.

Lemma existsb_ext' {A} (f g : A -> bool) l : (forall x, f x = g x) -> existsb f l = existsb g l.
Proof. intros H. induction l; simpl; congruence. Qed.

(* predicate extensionality of split, needed to compare delimiter predicates *)
Lemma split_pred_ext {A} (p q : A -> bool) (s : list A) opt :
  (forall x, p x = q x) -> split p s opt = split q s opt.
Proof.
  intros H. destruct (split_tokens p s opt) as (t & E & Ht).
  destruct (split_tokens q s opt) as (t' & E' & Ht'). rewrite E, E'.
  assert (Hc : forall a toks te nx, cuts p s te nx a toks -> cuts q s te nx a toks).
  { intros a toks te nx Hc.
    induction Hc as [a H1 H2|a f e toks H1 H2 H3 H4 H5 H6 H7 IH].
    - apply cut_last; auto. intros i x Hi Hx. rewrite <- H. exact (H2 i x Hi Hx).
    - eapply cut_more; eauto.
      + intros i x Hi Hx. rewrite <- H. exact (H4 i x Hi Hx).
      + intros i x Hi Hx. rewrite <- H. exact (H5 i x Hi Hx).
      + destruct H6 as [H6|(x & Hx & Hp)]; [auto|]. right. exists x. split; auto.
        now rewrite <- H. }
  destruct Ht as [[Hs Ht]|[Hs Ht]], Ht' as [[Hs' Ht']|[Hs' Ht']]; try contradiction; subst; auto.
  apply Hc in Ht. now rewrite (cuts_unique q s _ _ _ _ Ht _ Ht').
Qed.

Lemma split_str_delims delims s opt :
  split_str delims s opt = split (fun c => existsb (fun d => Ascii.eqb d c) delims) s opt.
Proof.
  unfold split_str. destruct delims as [|d [|d' ds]].
  - apply split_pred_ext. intros c. apply mcdp_mem.
  - apply split_pred_ext. intros c. unfold single_delimiter_predicate. simpl.
    now rewrite orb_false_r.
  - apply split_pred_ext. intros c. apply mcdp_mem.
Qed.
