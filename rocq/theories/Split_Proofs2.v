From Verif Require Import Base Split_Model Split_Spec Split_Proofs.

Section Proofs.
  Context {A : Type}.
  Variable p : A -> bool.
  Variable s : list A.
  Notation nond := (fun x : A => negb (p x)).
  Notation all_in := (all_in s).
  Notation run_end := (run_end p s).

  Lemma run_end_unique i e e' : run_end i e -> run_end i e' -> e = e'.
  Proof.
    intros (R1 & R2 & R3 & R4) (Q1 & Q2 & Q3 & Q4).
    destruct (lt_eq_lt_dec e e') as [[L|L]|L]; auto; exfalso.
    - destruct R4 as [R4|(y & Hy & Hpy)]; [lia|].
      assert (p y = true) by (apply (Q3 e); auto; lia). congruence.
    - destruct Q4 as [Q4|(y & Hy & Hpy)]; [lia|].
      assert (p y = true) by (apply (R3 e'); auto; lia). congruence.
  Qed.

  Lemma run_end_exists i x : nth_error s i = Some x -> p x = true ->
    exists e, run_end i e /\ i < e.
  Proof.
    intros Hx Ep. pose proof (skip_delims_pre_spec p s i x Hx Ep) as Hp.
    apply holds_ex in Hp. destruct Hp as (e & _ & He). eauto.
  Qed.

  Lemma run_end_S i x e : nth_error s i = Some x -> p x = true -> run_end (S i) e -> run_end i e.
  Proof.
    intros Hx Hp (Q1 & Q2 & Q3 & Q4). repeat split; auto; try lia.
    eapply all_in_cons; eauto.
  Qed.

    (* the first delimiter position is determined *)
    Lemma field_unique a f f' :
      a <= f -> a <= f' -> all_in nond a f -> all_in nond a f' ->
      (exists x, nth_error s f = Some x /\ p x = true) ->
      (exists x, nth_error s f' = Some x /\ p x = true) -> f = f'.
    Proof.
      intros H1 H2 N1 N2 (x & Hx & Px) (y & Hy & Py).
      destruct (lt_eq_lt_dec f f') as [[L|L]|L]; auto; exfalso.
      - specialize (N2 f x ltac:(lia) Hx). simpl in N2. rewrite Px in N2. discriminate.
      - specialize (N1 f' y ltac:(lia) Hy). simpl in N1. rewrite Py in N1. discriminate.
    Qed.

    Lemma run_head f e : f < e -> e <= length s -> all_in p f e ->
      exists x, nth_error s f = Some x /\ p x = true.
    Proof.
      intros H1 H2 H3. destruct (nth_error s f) as [x|] eqn:E.
      - exists x; split; auto. apply (H3 f); auto; lia.
      - apply nth_error_None in E. lia.
    Qed.

    Lemma next_delim : forall k, k <= length s ->
      all_in nond k (length s) \/
      exists i x, k <= i /\ nth_error s i = Some x /\ p x = true /\ all_in nond k i.
    Proof.
      intros k Hk. remember (length s - k) as m eqn:Em. revert k Hk Em.
      induction m as [|m IH]; intros k Hk Em.
      - left. apply all_in_empty. lia.
      - destruct (nth_error s k) as [x|] eqn:Ex; [|apply nth_error_None in Ex; lia].
        destruct (p x) eqn:Ep.
        + right. exists k, x. repeat split; auto. now apply all_in_empty.
        + destruct (IH (S k)) as [H|(i & y & H1 & H2 & H3 & H4)]; try lia.
          * left. eapply all_in_cons; eauto. simpl; now rewrite Ep.
          * right. exists i, y. repeat split; auto; try lia.
            eapply all_in_cons; eauto. simpl; now rewrite Ep.
    Qed.

  Section Policy.
    Variables te nx : nat -> nat -> nat.
    Notation cuts := (cuts p s te nx).

    Lemma cuts_unique : forall a t1, cuts a t1 -> forall t2, cuts a t2 -> t1 = t2.
    Proof.
      intros a t1 H; induction H as [a H1 H2|a f e toks H1 H2 H3 H4 H5 H6 H7 IH]; intros t2 Ht2.
      - inversion Ht2 as [a' G1 G2|a' f e toks G1 G2 G3 G4 G5 G6 G7]; subst; auto.
        exfalso. destruct (run_head f e G2 G3 G5) as (x & Hx & Hp).
        pose proof (nth_error_some_lt _ _ _ Hx).
        specialize (H2 f x ltac:(lia) Hx). simpl in H2. rewrite Hp in H2. discriminate.
      - inversion Ht2 as [a' G1 G2|a' f' e' toks' G1 G2 G3 G4 G5 G6 G7]; subst.
        + exfalso. destruct (run_head f e H2 H3 H5) as (x & Hx & Hp).
          pose proof (nth_error_some_lt _ _ _ Hx).
          specialize (G2 f x ltac:(lia) Hx). simpl in G2. rewrite Hp in G2. discriminate.
        + assert (f = f').
          { eapply field_unique; eauto using run_head. }
          subst f'. assert (e = e').
          { apply (run_end_unique f); unfold Split_Proofs.run_end; repeat split; auto; lia. }
          subst e'. f_equal. now apply IH.
    Qed.

    Hypothesis nx_ok : forall f e, f < e -> f < nx f e /\ nx f e <= e.

    Lemma cuts_total : forall k, k <= length s -> exists toks, cuts k toks.
    Proof.
      intros k. remember (length s - k) as m eqn:Em. revert k Em.
      induction m as [m IH] using lt_wf_ind. intros k Em Hk.
      destruct (next_delim k Hk) as [H|(i & x & H1 & H2 & H3 & H4)].
      - exists [(k, length s)]. now apply cut_last.
      - destruct (run_end_exists i x H2 H3) as (e & (R1 & R2 & R3 & R4) & Hie).
        destruct (nx_ok i e Hie) as [N1 N2].
        pose proof (nth_error_some_lt _ _ _ H2).
        destruct (IH (length s - nx i e) ltac:(lia) (nx i e) eq_refl ltac:(lia)) as (toks & Ht).
        exists ((k, te i e) :: toks). eapply cut_more; eauto.
    Qed.

    (* every token is a sub-range of the input, and tokens are in order *)
    Hypothesis te_ok : forall f e, f < e -> f <= te f e /\ te f e <= nx f e.

    Lemma cuts_ranges : forall a toks, cuts a toks ->
      Forall (fun r => fst r <= snd r /\ snd r <= length s) toks.
    Proof.
      intros a toks H; induction H as [a H1 H2|a f e toks H1 H2 H3 H4 H5 H6 H7 IH].
      - constructor; auto.
      - constructor; auto. cbn [fst snd]. pose proof (te_ok f e H2). pose proof (nx_ok f e H2). lia.
    Qed.
  End Policy.

  (* ---------------- contents of the tokens ---------------- *)
  Lemma filter_all_false (l : list A) : Forall (fun x => nond x = true) l -> filter p l = [].
  Proof.
    induction 1 as [|x l Hx Hl IH]; simpl; auto.
    simpl in Hx. destruct (p x); [discriminate|auto].
  Qed.

  (* default mode: fields separated by single delimiters *)
  Lemma cuts_default_content : forall a toks,
    cuts p s (fun f e => f) (fun f e => S f) a toks -> a <= length s ->
    exists ds, length toks = S (length ds) /\
      Forall (fun d => p d = true) ds /\
      Forall (fun r => Forall (fun x => p x = false) (sub s r)) toks /\
      weave (map (sub s) toks) (map (fun d => [d]) ds) = sub s (a, length s) /\
      filter p (sub s (a, length s)) = ds.
  Proof.
    intros a toks H; induction H as [a H1 H2|a f e toks H1 H2 H3 H4 H5 H6 H7 IH]; intros Ha.
    - exists []. repeat split; auto.
      + constructor; auto. eapply Forall_impl; [|apply all_in_forall; eauto].
        intros x Hx; simpl in Hx. now destruct (p x).
      + apply filter_all_false. apply all_in_forall; auto.
    - destruct IH as (ds & I1 & I2 & I3 & I4 & I5); [lia|].
      destruct (run_head f e H2 H3 H5) as (x & Hx & Hp).
      exists (x :: ds). cbn [length map weave].
      repeat split; auto.
      + constructor; auto. eapply Forall_impl; [|apply all_in_forall; [| |exact H4]; lia].
        intros y Hy; simpl in Hy. now destruct (p y).
      + rewrite I4. rewrite (sub_drop s a f) by lia. f_equal.
        rewrite (sub_drop s f (S f)) by lia. f_equal. symmetry. now apply sub_one.
      + rewrite (sub_drop s a f) by lia. rewrite (sub_drop s f (S f)) by lia.
        rewrite !filter_app, I5. rewrite filter_all_false by (apply all_in_forall; auto; lia).
        rewrite (sub_one s f x Hx). cbn [filter]. rewrite Hp. reflexivity.
  Qed.

  (* compress mode: fields separated by non-empty runs of delimiters; only the
     first and the last field may be empty *)
  Lemma cuts_compress_content : forall a toks,
    cuts p s (fun f e => f) (fun f e => e) a toks -> a <= length s ->
    exists runs, length toks = S (length runs) /\
      Forall (fun d => d <> [] /\ Forall (fun x => p x = true) d) runs /\
      Forall (fun r => Forall (fun x => p x = false) (sub s r)) toks /\
      weave (map (sub s) toks) runs = sub s (a, length s).
  Proof.
    intros a toks H; induction H as [a H1 H2|a f e toks H1 H2 H3 H4 H5 H6 H7 IH]; intros Ha.
    - exists []. repeat split; auto.
      constructor; auto. eapply Forall_impl; [|apply all_in_forall; eauto].
      intros x Hx; simpl in Hx. now destruct (p x).
    - destruct IH as (ds & I1 & I2 & I3 & I4); [lia|].
      exists (sub s (f,e) :: ds). cbn [length map weave].
      repeat split; auto.
      + constructor; auto. split; [|apply all_in_forall; auto; lia].
        intros E. assert (L : length (sub s (f,e)) = 0) by now rewrite E.
        rewrite sub_length in L; lia.
      + constructor; auto. eapply Forall_impl; [|apply all_in_forall; [| |exact H4]; lia].
        intros y Hy; simpl in Hy. now destruct (p y).
      + rewrite I4. rewrite (sub_drop s a f) by lia. f_equal.
        now rewrite (sub_drop s f e) by lia.
  Qed.

  Lemma cuts_compress_interior : forall a toks,
    cuts p s (fun f e => f) (fun f e => e) a toks ->
    (a < length s -> exists x, nth_error s a = Some x /\ p x = false) ->
    forall i, S i < length toks -> exists r, nth_error toks i = Some r /\ (fst r < snd r).
  Proof.
    intros a toks H; induction H as [a H1 H2|a f e toks H1 H2 H3 H4 H5 H6 H7 IH]; intros Ha i Hi.
    - simpl in Hi. lia.
    - destruct i as [|i].
      + exists (a,f). split; auto. cbn [fst snd].
        destruct (run_head f e H2 H3 H5) as (x & Hx & Hp).
        destruct (Nat.eq_dec a f) as [->|]; [|lia].
        destruct Ha as (y & Hy & Hpy); [lia|]. congruence.
      + simpl in Hi. simpl. apply IH; [|lia].
        intros He. destruct H6 as [H6|H6]; [lia|auto].
  Qed.

  (* include modes with no skipping: tokens tile the input *)
  Lemma cuts_tile : forall te a toks,
    (forall f e, f < e -> f <= te f e <= e) ->
    cuts p s te te a toks -> a <= length s ->
    concat (map (sub s) toks) = sub s (a, length s).
  Proof.
    intros te a toks Hte H; induction H as [a H1 H2|a f e toks H1 H2 H3 H4 H5 H6 H7 IH]; intros Ha.
    - simpl. apply app_nil_r.
    - cbn [map concat]. pose proof (Hte f e H2). rewrite IH by lia.
      symmetry. apply sub_drop; lia.
  Qed.

  (* shape of the tokens in the include modes *)
  Lemma cuts_include_shape : forall te nx a toks,
    (forall f e, f < e -> f < te f e /\ te f e <= e) ->
    (forall f e, f < e -> f < nx f e /\ nx f e <= e) ->
    cuts p s te nx a toks ->
    forall i r, nth_error toks i = Some r ->
      exists fld del, sub s r = fld ++ del /\
        Forall (fun x => p x = false) fld /\ Forall (fun x => p x = true) del /\
        (S i < length toks -> del <> []) /\
        (S i = length toks -> del = []).
  Proof.
    intros te nx a toks Hte Hnx H; induction H as [a H1 H2|a f e toks H1 H2 H3 H4 H5 H6 H7 IH]; intros i r Hr.
    - destruct i as [|[|i]]; simpl in Hr; try discriminate. inversion Hr; subst r.
      exists (sub s (a,length s)), []. rewrite app_nil_r. repeat split; auto; try (simpl; lia).
      eapply Forall_impl; [|apply all_in_forall; eauto].
      intros x Hx; simpl in Hx. now destruct (p x).
    - destruct i as [|i].
      + simpl in Hr. inversion Hr; subst r. pose proof (Hte f e H2).
        exists (sub s (a,f)), (sub s (f, te f e)). repeat split.
        * symmetry. apply sub_app; lia.
        * eapply Forall_impl; [|apply all_in_forall; [| |exact H4]; lia].
          intros x Hx; simpl in Hx. now destruct (p x).
        * apply all_in_forall; try lia. eapply all_in_sub; eauto; lia.
        * intros _ E. assert (L : length (sub s (f, te f e)) = 0) by now rewrite E.
          rewrite sub_length in L; lia.
        * intros E. simpl in E. inversion H7; subst; simpl in E; lia.
      + simpl in Hr. destruct (IH i r Hr) as (fld & del & E1 & E2 & E3 & E4 & E5).
        exists fld, del. cbn [length]. split; [auto|split; [auto|split; [auto|split; intros; [apply E4|apply E5]; lia]]].
  Qed.
End Proofs.

Section Token.
  Context {A : Type}.
  Variable p : A -> bool.
  Variable s : list A.
  Notation nond := (fun x : A => negb (p x)).
  Notation all_in := (all_in s).
  Notation run_end := (run_end p s).

  Lemma spec_nx_ok opt : forall f e, f < e -> f < spec_next_start opt f e /\ spec_next_start opt f e <= e.
  Proof.
    intros f e H. unfold spec_next_start.
    destruct (has_bit opt 1), (has_bit opt 0), (has_bit opt 2); lia.
  Qed.

  Lemma spec_te_ok opt : forall f e, f < e ->
    f <= spec_tok_end opt f e /\ spec_tok_end opt f e <= spec_next_start opt f e.
  Proof.
    intros f e H. unfold spec_tok_end, spec_next_start.
    destruct (has_bit opt 1), (has_bit opt 0), (has_bit opt 2); lia.
  Qed.

  (* --- tokenizer --- *)
  Variable opt : N.
  Hypothesis not7 : has_bit opt 0 && has_bit opt 1 && has_bit opt 2 = false.
  Notation te := (spec_tok_end opt).
  Notation nx := (spec_next_start opt).
  Notation cuts := (cuts p s te nx).

  Definition TokAt (k : nat) (it : tok_iter) : Prop :=
    (last_token_done it = false /\
     exists i e, run_end i e /\ i < e /\ k <= i /\ all_in nond k i /\
       current_token it = (k, te i e) /\ range_first it = k /\ range_second it = nx i e)
    \/
    (last_token_done it = true /\ all_in nond k (length s) /\
     current_token it = (k, length s) /\ range_first it = k /\ range_second it = length s).

  Lemma tok_incr_scan it :
    last_token_done it = false -> range_second it < length s ->
    holds (tok_incr p s opt it) (TokAt (range_second it)).
  Proof.
    intros Hd Hr. unfold tok_incr. rewrite Hd. cbv zeta.
    rewrite compress_bit, inc1_bit, incall_bit.
    set (k := range_second it) in *.
    destruct (Nat.eqb_spec (length s) k); [lia|]. cbn [negb].
    eapply holds_bind2 with
      (P := fun r => match r with
                     | inl i => i = length s /\ all_in nond k i
                     | inr it' => TokAt k it'
                     end).
    - apply loop_rule with (I := fun i => k <= i <= length s /\ all_in nond k i)
                           (mu := fun i => length s - i).
      + intros i (H1 & H2). destruct (Nat.eqb_spec i (length s)) as [E|E].
        { simpl. auto. }
        apply holds_bind, holds_rd; [lia|]. intros x Hx.
        destruct (p x) eqn:Ep.
        2:{ cbn [holds]. split; [split|]; try lia. eapply all_in_snoc; eauto. simpl; now rewrite Ep. }
        destruct (run_end_exists p s i x Hx Ep) as (e & He & Hie).
        assert (Hrun1 : forall j, run_end (S i) j -> j = e).
        { intros j Hj. apply (run_end_unique p s i); auto. eapply run_end_S; eauto. }
        assert (Hrun0 : forall j, run_end i j -> j = e).
        { intros j Hj. apply (run_end_unique p s i); auto. }
        assert (Hfin : forall b k', b = te i e -> k' = nx i e ->
                  TokAt k (TokIter k k' (k, b) false)).
        { intros b k' -> ->. left. split; [reflexivity|]. exists i, e.
          split; [exact He|]. split; [exact Hie|]. split; [lia|]. split; [exact H2|]. auto. }
        destruct (has_bit opt 1) eqn:B1; cbn [orb].
        * cbn [bind].
          destruct (has_bit opt 0) eqn:B0; destruct (has_bit opt 2) eqn:B2; cbn [negb andb] in *;
            try discriminate.
          -- eapply holds_bind2; [apply skip_delims_spec; lia|].
             intros j Hj. apply Hrun1 in Hj. subst j. cbn [holds].
             apply Hfin; [unfold spec_tok_end|unfold spec_next_start]; now rewrite ?B0, ?B1.
          -- cbn [bind holds].
             apply Hfin; [unfold spec_tok_end|unfold spec_next_start]; now rewrite ?B0, ?B1.
          -- cbn [bind holds].
             apply Hfin; [unfold spec_tok_end|unfold spec_next_start]; now rewrite ?B0, ?B1.
        * destruct (has_bit opt 2) eqn:B2; cbn [orb negb andb].
          -- eapply holds_bind2; [apply skip_delims_spec; lia|].
             intros j Hj. apply Hrun0 in Hj. subst j. cbn [bind holds].
             apply Hfin; [unfold spec_tok_end|unfold spec_next_start]; now rewrite ?B1, ?B2.
          -- destruct (has_bit opt 0) eqn:B0.
             ++ eapply holds_bind2; [eapply skip_delims_pre_spec; eauto|].
                intros j (Hj & _). apply Hrun0 in Hj. subst j. cbn [holds].
                apply Hfin; [unfold spec_tok_end|unfold spec_next_start]; now rewrite ?B0, ?B1, ?B2.
             ++ cbn [bind holds].
                apply Hfin; [unfold spec_tok_end|unfold spec_next_start]; now rewrite ?B0, ?B1, ?B2.
      + split; [lia|]. now apply all_in_empty.
      + lia.
    - intros [i|it'] H; [|exact H].
      destruct H as [-> Hn].
      destruct (Nat.eqb_spec k (length s)); [lia|]. cbn [negb].
      destruct (length s) as [|m] eqn:El; [lia|].
      apply holds_bind, holds_rd; [lia|]. intros x Hx.
      assert (Hpx : p x = false).
      { specialize (Hn m x ltac:(lia) Hx). simpl in Hn. now destruct (p x). }
      rewrite Hpx. cbn [holds]. right. rewrite El. auto.
  Qed.

  Lemma tok_incr_trailing it x :
    last_token_done it = false -> range_second it = length s ->
    range_first it < length s -> nth_error s (length s - 1) = Some x -> p x = true ->
    tok_incr p s opt it =
      Ok (TokIter (range_first it) (length s) (length s, length s) true).
  Proof.
    intros Hd Hr Hf Hx Hp. unfold tok_incr. rewrite Hd, Hr. cbv zeta.
    rewrite Nat.eqb_refl. cbn [negb loop bind]. rewrite Nat.eqb_refl. cbn [bind].
    destruct (Nat.eqb_spec (range_first it) (length s)); [lia|]. cbn [negb].
    destruct (length s) as [|m] eqn:El; [lia|].
    replace (S m - 1) with m in Hx by lia. rewrite (rd_nth _ _ _ Hx). cbn [bind].
    rewrite Hp. reflexivity.
  Qed.

  Lemma tokenize_spec :
    holds (tokenize p s opt) (tokens_of p s te nx).
  Proof.
    unfold tokenize. destruct (Nat.eq_dec (length s) 0) as [E0|E0].
    { assert (s = []) as E by (destruct s; [auto|discriminate]). rewrite E. cbn.
      left; auto. }
    assert (Hs : s <> []) by (intros E; rewrite E in E0; simpl in E0; lia).
    unfold tok_make at 1. destruct (Nat.eqb_spec (length s) 0); [lia|]. cbn [negb].
    eapply holds_bind2.
    { apply tok_incr_scan; cbn [last_token_done range_second]; auto. lia. }
    cbn [range_second]. intros bg Hbg.
    unfold tok_make. rewrite Nat.eqb_refl. cbn [negb bind].
    set (ed := TokIter _ _ _ _).
    apply loop_rule with
      (I := fun st => let '(it, out) := st in
         (last_token_done it = false /\
          exists k x, nth_error s (range_second it - 1) = Some x /\ p x = true /\
            range_first it < range_second it <= length s /\ k = range_second it /\
            (forall toks, cuts k toks -> cuts 0 (out ++ current_token it :: toks)))
         \/ (last_token_done it = true /\ range_first it < length s /\
             range_second it = length s /\ cuts 0 (out ++ [current_token it]))
         \/ (last_token_done it = true /\ range_first it = length s /\
             range_second it = length s /\ cuts 0 out))
      (mu := fun st => let '(it, out) := st in
         if last_token_done it then (if range_first it =? length s then 0 else 1)
         else length s - range_second it + 2).
    - intros [it out] HI.
      destruct HI as [(Hd & k & x & Hx & Hp & Hlt & Hk & Hc)|[(Hd & Hf & Hr & Hc)|(Hd & Hf & Hr & Hc)]].
      + (* a token that ended at a delimiter is current *)
        unfold tok_eq, ed. cbn [range_first range_second].
        destruct (Nat.eqb_spec (range_first it) (length s)); [lia|]. cbn [andb].
        subst k.
        destruct (Nat.eq_dec (range_second it) (length s)) as [Er|Er].
        * rewrite Er in Hx.
          rewrite (tok_incr_trailing it x) by (auto; lia). cbn [bind holds].
          split.
          -- right; left. cbn [last_token_done range_first range_second current_token].
             repeat split; auto; try lia.
             rewrite <- app_assoc. apply Hc. rewrite Er.
             apply cut_last; auto. apply all_in_empty; lia.
          -- rewrite Hd. cbn [last_token_done range_first].
             destruct (Nat.eqb_spec (range_first it) (length s)); lia.
        * eapply holds_bind2; [apply tok_incr_scan; auto; lia|].
          intros it' Hit'. cbn [holds]. rewrite Hd.
          destruct Hit' as [(Hd' & i & e & He & Hie & Hki & Hn & Hcur & Hf' & Hs')|(Hd' & Hn & Hcur & Hf' & Hs')].
          -- split.
             ++ left. split; auto. pose proof (spec_nx_ok opt i e Hie) as [N1 N2].
                pose proof He as (R1 & R2 & R3 & R4).
                destruct (nth_error s (range_second it' - 1)) as [y|] eqn:Ey.
                2:{ apply nth_error_None in Ey. lia. }
                exists (range_second it'), y. repeat split; auto; try lia.
                ** apply (R3 (range_second it' - 1)); auto. lia.
                ** intros toks Ht. rewrite <- app_assoc. apply Hc. rewrite Hcur.
                   eapply cut_more; eauto; try lia. now rewrite <- Hs'.
             ++ rewrite Hd'. pose proof (spec_nx_ok opt i e Hie) as [N1 N2].
                destruct He as (R1 & R2 & R3 & R4). lia.
          -- split.
             ++ right; left. repeat split; auto; try lia.
                rewrite <- app_assoc. apply Hc. rewrite Hcur. apply cut_last; auto. lia.
             ++ rewrite Hd'. destruct (range_first it' =? length s); lia.
      + unfold tok_eq, ed. cbn [range_first range_second].
        destruct (Nat.eqb_spec (range_first it) (length s)); [lia|]. cbn [andb].
        unfold tok_incr. rewrite Hd. cbn [bind holds]. split.
        * right; right. cbn [last_token_done range_first range_second]. repeat split; auto.
        * cbn [last_token_done range_first]. rewrite Hr, Nat.eqb_refl. destruct (Nat.eqb_spec (range_first it) (length s)); lia.
      + unfold tok_eq, ed. cbn [range_first range_second]. rewrite Hf, Hr, Nat.eqb_refl.
        cbn [andb holds]. right. auto.
    - destruct Hbg as [(Hd' & i & e & He & Hie & Hki & Hn & Hcur & Hf' & Hs')|(Hd' & Hn & Hcur & Hf' & Hs')].
      + left. split; auto. pose proof (spec_nx_ok opt i e Hie) as [N1 N2].
        pose proof He as (R1 & R2 & R3 & R4).
        destruct (nth_error s (range_second bg - 1)) as [y|] eqn:Ey.
        2:{ apply nth_error_None in Ey. lia. }
        exists (range_second bg), y. repeat split; auto; try lia.
        * apply (R3 (range_second bg - 1)); auto. lia.
        * intros toks Ht. cbn [app]. rewrite Hcur.
          eapply cut_more; eauto; try lia. now rewrite <- Hs'.
      + right; left. repeat split; auto; try lia.
        cbn [app]. rewrite Hcur. apply cut_last; auto. lia.
    - destruct (last_token_done bg); [destruct (range_first bg =? length s)|]; lia.
  Qed.

  Lemma tokenize_split :
    exists toks, tokenize p s opt = Ok toks /\ split p s opt = Ok (toks, length toks).
  Proof.
    pose proof tokenize_spec as H. apply holds_ex in H. destruct H as (t & E & H).
    destruct (split_tokens p s opt) as (t' & E' & H').
    exists t. split; auto. rewrite E'.
    destruct H as [[Hs Ht]|[Hs Ht]], H' as [[Hs' Ht']|[Hs' Ht']]; try contradiction; subst; auto.
    now rewrite (cuts_unique p s te nx _ _ Ht' _ Ht).
  Qed.
End Token.

Section SplitN.
  Context {A : Type}.
  Variable p : A -> bool.
  Variable s : list A.
  Variable opt : N.
  (* split_n treats include_all like include_1st *)
  Hypothesis not_all : has_bit opt 2 = true -> has_bit opt 1 = true.
  Notation te := (spec_tok_end opt).
  Notation nx := (spec_next_start opt).
  Notation cuts := (cuts p s te nx).
  Notation run_end := (run_end p s).

  Lemma split_n_spec cnt :
    s <> [] -> 0 < cnt ->
    holds (split_n p s cnt opt)
      (fun r => exists toks, cuts 0 toks /\ fst r = firstn cnt toks /\ snd r = length (fst r)).
  Proof.
    intros Hs Hc. unfold split_n.
    destruct (Nat.eqb_spec cnt 0); [lia|].
    destruct (Nat.eqb_spec (length s) 0) as [E0|E0].
    { destruct s; [congruence|discriminate]. }
    rewrite compress_bit, inc1_bit, incall_bit. cbv zeta.
    assert (Hearly : forall k out n f,
      Inv p s te nx (k, k, out ++ [f], S n) -> cnt <= S n -> n < cnt ->
      exists toks, cuts 0 toks /\ out ++ [f] = firstn cnt toks /\ S n = length (out ++ [f])).
    { intros k out n' f (H1 & H2 & H3 & H4 & H5) L1 L2.
      destruct (cuts_total p s te nx (spec_nx_ok opt) k ltac:(lia)) as (toks & Ht).
      exists ((out ++ [f]) ++ toks). repeat split; auto.
      replace cnt with (length (out ++ [f])) by (rewrite <- H3; lia).
      now rewrite firstn_app_len. }
    eapply holds_bind2 with
      (P := fun r => match r with
         | inl st => Inv p s te nx st /\ snd (fst (fst st)) = length s /\ snd st < cnt
         | inr r => exists toks, cuts 0 toks /\ fst r = firstn cnt toks /\ snd r = length (fst r)
         end).
    - apply loop_rule with (I := fun st => Inv p s te nx st /\ snd st < cnt)
                           (mu := fun st => length s - snd (fst (fst st))).
      + intros [[[f i] out] m] (HI & Hm). cbn [fst snd] in *.
        destruct (Nat.eqb_spec i (length s)) as [E|E].
        { simpl. auto. }
        pose proof HI as (H1 & _).
        apply holds_bind, holds_rd; [lia|]. intros x Hx.
        destruct (p x) eqn:Ep; [|cbn [holds fst snd]; split; [split; [eapply Inv_step; eauto|auto]|lia]].
        destruct (run_end_exists p s i x Hx Ep) as (e & He & Hie).
        assert (Hrun1 : forall j, run_end (S i) j -> j = e).
        { intros j Hj. apply (run_end_unique p s i); auto. eapply run_end_S; eauto. }
        assert (Hrun0 : forall j, run_end i j -> j = e).
        { intros j Hj. apply (run_end_unique p s i); auto. }
        assert (HB : (has_bit opt 1 || (negb (has_bit opt 1) && has_bit opt 2)) = has_bit opt 1).
        { destruct (has_bit opt 1), (has_bit opt 2); auto. specialize (not_all eq_refl). discriminate. }
        rewrite HB.
        assert (HI' : Inv p s te nx (nx i e, nx i e, out ++ [(f, te i e)], S m)).
        { pose proof (spec_nx_ok opt i e Hie). eapply Inv_cut; eauto; lia. }
        destruct (has_bit opt 1) eqn:B1.
        * assert (Ete : te i e = S i) by (unfold spec_tok_end; now rewrite B1).
          rewrite Ete in HI'.
          destruct (Nat.leb_spec cnt (S m)) as [Lc|Lc].
          { cbn [holds fst snd]. eapply Hearly; eauto. }
          destruct (has_bit opt 0) eqn:B0.
          -- eapply holds_bind2; [apply skip_delims_spec; lia|].
             intros k Hk. apply Hrun1 in Hk. subst k. cbn [holds fst snd].
             assert (En : nx i e = e) by (unfold spec_next_start; now rewrite B1, B0).
             rewrite En in HI'. split; [split; [auto|lia]|lia].
          -- cbn [bind holds fst snd].
             assert (En : nx i e = S i) by (unfold spec_next_start; now rewrite B1, B0).
             rewrite En in HI'. split; [split; [auto|lia]|lia].
        * assert (B2 : has_bit opt 2 = false).
          { destruct (has_bit opt 2); auto. }
          assert (Ete : te i e = i) by (unfold spec_tok_end; now rewrite B1, B2).
          rewrite Ete in HI'.
          destruct (Nat.leb_spec cnt (S m)) as [Lc|Lc].
          { cbn [holds fst snd]. eapply Hearly; eauto. }
          destruct (has_bit opt 0) eqn:B0.
          -- eapply holds_bind2; [eapply skip_delims_pre_spec; eauto|].
             intros k (Hk & _). apply Hrun0 in Hk. subst k. cbn [holds fst snd].
             assert (En : nx i e = e) by (unfold spec_next_start; now rewrite B1, B2, B0).
             rewrite En in HI'. split; [split; [auto|lia]|lia].
          -- cbn [bind holds fst snd].
             assert (En : nx i e = S i) by (unfold spec_next_start; now rewrite B1, B2, B0).
             rewrite En in HI'. split; [split; [auto|lia]|lia].
      + split; [apply Inv_init|cbn; lia].
      + cbn; lia.
    - intros [[[[f i] out] m]|[out m]] H.
      + cbn [fst snd] in H. destruct H as (HI & Hi & Hm).
        eapply holds_weaken.
        * eapply holds_ex. pose proof (last_token_spec p s te nx f i out m Hs HI Hi) as HL.
          apply holds_ex in HL. destruct HL as (r & Er & Hr). exists r. split; [exact Er|].
          exact (conj Er Hr).
        * intros [t k] (Er & Ht & Hk). cbn [fst snd] in *. exists t. repeat split; auto.
          pose proof HI as (_ & _ & H3 & _).
          assert (length t <= cnt).
          { unfold last_token in Er. destruct (f =? i) eqn:Ef; cbn [negb] in Er.
            - destruct i; [discriminate|]. destruct (rd s i) as [y| |]; cbn [bind] in Er; try discriminate.
              destruct (p y); inversion Er; subst; rewrite ?app_length; simpl; lia.
            - inversion Er; subst. rewrite app_length; simpl; lia. }
          now rewrite firstn_all2.
      + exact H.
  Qed.

  Lemma split_n_firstn cnt :
    exists toks, split p s opt = Ok (toks, length toks) /\
      split_n p s cnt opt = Ok (firstn cnt toks, Nat.min cnt (length toks)).
  Proof.
    destruct (split_tokens p s opt) as (t & E & Ht). exists t. split; auto.
    destruct (Nat.eq_dec cnt 0) as [->|Hc].
    { reflexivity. }
    destruct Ht as [[Hs Ht]|[Hs Ht]].
    - subst t. rewrite Hs. unfold split_n. destruct (Nat.eqb_spec cnt 0); [lia|].
      cbn. rewrite firstn_nil. f_equal. f_equal. lia.
    - pose proof (split_n_spec cnt Hs ltac:(lia)) as H. apply holds_ex in H.
      destruct H as ([r n] & Er & toks & Hk & H1 & H2). cbn [fst snd] in *.
      rewrite (cuts_unique p s te nx _ _ Hk _ Ht) in H1. subst r n. rewrite Er.
      now rewrite firstn_length.
  Qed.
End SplitN.
