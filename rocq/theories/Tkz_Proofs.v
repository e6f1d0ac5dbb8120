From Verif Require Import Base Split_Model Split_Spec Split_Proofs Split_Proofs2 Tkz_Model Tkz_Spec.
Local Open Scope nat_scope.

Section P.
Context {A : Type}.
Implicit Types (p : A -> bool) (s : list A).

Definition shaped p s opt (z : tokenizer A) : Prop :=
  z_opt z = opt /\ z_pred z = p /\ z_text z = s /\
  exists b e, tok_make p s opt 0 = Ok b /\ tok_make p s opt (length s) = Ok e /\
              z_begin z = Itr s opt p b /\ z_end z = Itr s opt p e.

Lemma walk_shaped p s opt z : shaped p s opt z -> walk z = tokenize p s opt.
Proof.
  intros (Eo & Ep & Es & b & e & E1 & E2 & Eb & Ee). unfold walk, tokenize. rewrite E1, E2, Eb, Ee, Es. cbn [bind].
  assert (G : forall fuel b out,
    loop fuel (fun '(i, out) => if same i (Itr s opt p e) then Ok (inr out)
                                else i' <- next i ;; Ok (inl (i', out ++ [deref i]))) (Itr s opt p b, out) =
    loop fuel (fun '(it, out) => if tok_eq it e then Ok (inr out)
         else it' <- tok_incr p s opt it ;; Ok (inl (it', out ++ [current_token it]))) (b, out)); [|apply G].
  clear. induction fuel as [|fuel IH]; intros b out; [reflexivity|]. cbn [loop]. unfold same at 1. cbn [i_at].
  destruct (tok_eq b e); [reflexivity|]. unfold next at 1. cbn [i_pred i_text i_opt i_at].
  destruct (tok_incr p s opt b) as [b'| |]; cbn [bind]; [|reflexivity|reflexivity]. apply IH.
Qed.

Lemma tok_incr_ok p s opt it : last_token_done it = false -> range_second it < length s ->
  holds (tok_incr p s opt it) (fun _ => True).
Proof.
  intros Hd Hr. unfold tok_incr. rewrite Hd. cbv zeta. set (k := range_second it) in *.
  destruct (Nat.eqb_spec (length s) k); [lia|]. cbn [negb].
  eapply holds_bind2 with (P := fun r => match r with inl i => i = length s | inr _ => True end).
  - apply loop_rule with (I := fun i => k <= i <= length s) (mu := fun i => length s - i); [|lia|lia].
    intros i H1. destruct (Nat.eqb_spec i (length s)) as [E|E]; [exact E|].
    apply holds_bind, holds_rd; [lia|]. intros x Hx. destruct (p x) eqn:Ep; [|cbn [holds]; lia].
    destruct (perform_include_1st_delimiter opt || perform_include_all_delimiters opt).
    + eapply holds_bind2 with (P := fun j => j <= length s).
      * destruct (perform_include_1st_delimiter opt); [cbn [holds]; lia|].
        destruct (perform_include_all_delimiters opt); [|cbn [holds]; lia].
        eapply holds_weaken; [apply skip_delims_spec; lia|]. intros j Hj. unfold run_end in Hj. cbv beta in Hj; intuition lia.
      * intros j Hj. eapply holds_bind2 with (P := fun _ => True).
        { destruct (_ && _); [|exact I]. eapply holds_weaken; [apply skip_delims_spec; lia|]. auto. }
        intros; exact I.
    + eapply holds_bind2 with (P := fun _ => True); [|intros; exact I].
      destruct (perform_compress_delimiters opt); [|exact I].
      eapply holds_weaken; [eapply skip_delims_pre_spec; eauto|]. auto.
  - intros [i|it'] H; [|exact I]. subst i. destruct (Nat.eqb_spec k (length s)); [lia|]. cbn [negb].
    destruct (length s) as [|m] eqn:El; [lia|]. apply holds_bind, holds_rd; [lia|]. intros; exact I.
Qed.

Lemma tok_make_ok p s opt b : b <= length s -> exists x, tok_make p s opt b = Ok x.
Proof.
  intros H. unfold tok_make. cbv zeta. destruct (Nat.eqb_spec (length s) b) as [E|E]; cbn [negb]; [eauto|].
  pose proof (tok_incr_ok p s opt (TokIter b b (length s, length s) false)) as T. cbn [last_token_done range_second] in T.
  specialize (T eq_refl ltac:(lia)). destruct (tok_incr p s opt _); cbn [holds] in T; [eauto|contradiction..].
Qed.

Lemma make_shaped p s opt : exists z, make p s opt = Ok z /\ shaped p s opt z.
Proof.
  destruct (tok_make_ok p s opt 0) as [b Eb]; [lia|]. destruct (tok_make_ok p s opt (length s)) as [e Ee]; [lia|].
  unfold make, make_itr. rewrite Eb, Ee. cbn [bind]. eexists. split; [reflexivity|].
  repeat split. exists b, e. auto.
Qed.

Lemma assign_shaped p s opt z s' : shaped p s opt z -> exists z', assign z s' = Ok z' /\ shaped p s' opt z'.
Proof.
  intros (Eo & Ep & Es & b & e & E1 & E2 & Eb & Ee). unfold assign, make_itr, set_itr.
  destruct (tok_make_ok p s' opt 0) as [b' Eb']; [lia|]. destruct (tok_make_ok p s' opt (length s')) as [e' Ee']; [lia|].
  rewrite Eo, Ep, Eb', Ee'. cbn [bind i_text i_opt i_at]. rewrite Eb, Ee. cbn [i_pred].
  eexists. split; [reflexivity|]. repeat split. exists b', e'. auto.
Qed.

Lemma set_shaped p s opt z s' opt' z' : shaped p s opt z -> shaped p s' opt' z' -> shaped p s' opt' (set z z').
Proof.
  intros (Eo & Ep & Es & b & e & E1 & E2 & Eb & Ee) (Eo' & Ep' & Es' & b' & e' & E1' & E2' & Eb' & Ee').
  unfold set, set_itr. rewrite Eb, Ee, Eb', Ee', Eo', Ep, Es'. repeat split. exists b', e'. auto.
Qed.

Lemma eval_shaped p b : only_pred p b -> exists z, eval b = Ok z /\ shaped p (text_of b) (opt_of b) z.
Proof.
  induction b as [q s opt|b IH s|a IHa b IHb]; cbn [only_pred text_of opt_of eval].
  - intros ->. apply make_shaped.
  - intros H. destruct (IH H) as (z & E & Hz). rewrite E. cbn [bind]. eapply assign_shaped; eauto.
  - intros [Ha Hb]. destruct (IHa Ha) as (x & Ex & Hx). destruct (IHb Hb) as (y & Ey & Hy).
    rewrite Ex, Ey. cbn [bind]. eexists. split; [reflexivity|]. eapply set_shaped; eauto.
Qed.

Lemma eval_walk p b : only_pred p b ->
  exists z, eval b = Ok z /\ walk z = tokenize p (text_of b) (opt_of b).
Proof. intros H. destruct (eval_shaped p b H) as (z & E & Hz). exists z. split; [exact E|]. now apply walk_shaped. Qed.

(* moving an iterator *)
Fixpoint steps (k : nat) (i : itr A) : outcome (itr A) :=
  match k with 0 => Ok i | S k => i' <- next i ;; steps k i' end.

Lemma for_up_steps n : forall a i, for_up a n (fun _ i => next i) i = steps n i.
Proof.
  induction n as [|n IH]; intros a i; cbn [for_up steps]; [reflexivity|].
  destruct (next i); cbn [bind]; auto.
Qed.

Lemma next_at_end p s opt x : range_first x = length s -> range_second x = length s ->
  exists y, tok_incr p s opt x = Ok y /\ range_first y = length s /\ range_second y = length s /\ current_token y = current_token x.
Proof.
  intros H1 H2. unfold tok_incr. cbv zeta. destruct (last_token_done x); [eexists; split; [reflexivity|]; cbn; auto|].
  rewrite H2, Nat.eqb_refl. cbn [negb loop]. rewrite Nat.eqb_refl. cbn [bind]. rewrite H1, Nat.eqb_refl. cbn [negb].
  eexists; split; [reflexivity|]; cbn; auto.
Qed.

Lemma steps_at_end p s opt k : forall x, range_first x = length s -> range_second x = length s ->
  exists y, steps k (Itr s opt p x) = Ok (Itr s opt p y) /\
    range_first y = length s /\ range_second y = length s /\ current_token y = current_token x.
Proof.
  induction k as [|k IH]; intros x H1 H2; cbn [steps]; [eauto 6|].
  unfold next. cbn [i_pred i_text i_opt i_at]. destruct (next_at_end p s opt x H1 H2) as (y & E & Y1 & Y2 & Y3).
  rewrite E. cbn [bind]. destruct (IH y Y1 Y2) as (w & Ew & W1 & W2 & W3). exists w. rewrite W3. auto.
Qed.

Lemma loop_steps p s opt e : range_first e = length s -> range_second e = length s ->
  forall fuel x out res,
  loop fuel (fun '(it, out) =>
         if tok_eq it e then Ok (inr out)
         else it' <- tok_incr p s opt it ;; Ok (inl (it', out ++ [current_token it]))) (x, out) = Ok res ->
  exists toks, res = out ++ toks /\
   forall k, exists y, steps k (Itr s opt p x) = Ok (Itr s opt p y) /\
    match nth_error toks k with
    | Some t => current_token y = t /\ tok_eq y e = false
    | None => tok_eq y e = true
    end.
Proof.
  intros He1 He2. induction fuel as [|fuel IH]; intros x out res E; [discriminate|]. cbn [loop] in E.
  destruct (tok_eq x e) eqn:Q.
  - injection E as <-. exists []. split; [now rewrite app_nil_r|]. intros k.
    unfold tok_eq in Q. rewrite He1, He2 in Q. apply andb_prop in Q. destruct Q as [Q1 Q2]. apply Nat.eqb_eq in Q1, Q2.
    destruct (steps_at_end p s opt k x Q1 Q2) as (y & Ey & Y1 & Y2 & Y3). exists y. split; [exact Ey|].
    destruct k; cbn [nth_error]; unfold tok_eq; rewrite Y1, Y2, He1, He2, !Nat.eqb_refl; reflexivity.
  - destruct (tok_incr p s opt x) as [x'| |] eqn:Ex; cbn [bind] in E; try discriminate.
    destruct (IH x' _ _ E) as (toks & -> & H). exists (current_token x :: toks). split; [now rewrite <- app_assoc|].
    intros [|k]; cbn [nth_error steps]; [exists x; auto|].
    unfold next. cbn [i_pred i_text i_opt i_at]. rewrite Ex. cbn [bind]. apply H.
Qed.

Lemma tok_make_end p s opt : tok_make p s opt (length s) = Ok (TokIter (length s) (length s) (length s, length s) false).
Proof. unfold tok_make. cbv zeta. now rewrite Nat.eqb_refl. Qed.

Lemma begin_advance p s opt z toks inc : make p s opt = Ok z -> tokenize p s opt = Ok toks ->
  exists i, advance (z_begin z) inc = Ok i /\
    match nth_error toks (Z.to_nat inc) with
    | Some t => deref i = t /\ same i (z_end z) = false /\ as_string i = sub s t /\ remaining i = skipn (fst t) s
    | None => same i (z_end z) = true
    end.
Proof.
  intros Ez Et. unfold make, make_itr in Ez. unfold tokenize in Et.
  destruct (tok_make p s opt 0) as [b| |] eqn:Eb; cbn [bind] in Ez, Et; try discriminate.
  rewrite tok_make_end in Ez, Et. cbn [bind] in Ez, Et. injection Ez as <-. cbn [z_begin z_end].
  apply loop_steps in Et; [|reflexivity..]. destruct Et as (toks' & E & H). cbn [app] in E. subst toks'.
  destruct (H (Z.to_nat inc)) as (y & Ey & Hy). exists (Itr s opt p y). split.
  - unfold advance. destruct (Z.ltb_spec 0 inc) as [G|G]; [now rewrite for_up_steps|].
    replace (Z.to_nat inc) with 0 in Ey by lia. cbn [steps] in Ey. injection Ey as <-. reflexivity.
  - destruct (nth_error toks (Z.to_nat inc)) as [t|]; unfold same; cbn [i_at] in *; [|exact Hy].
    unfold as_string, remaining, deref. cbn [i_at i_text]. destruct Hy as [<- Hy]. auto.
Qed.

Lemma advance_add p s opt z a b : make p s opt = Ok z -> (0 <= a)%Z -> (0 <= b)%Z ->
  (i <- advance (z_begin z) a ;; advance i b) = advance (z_begin z) (a + b).
Proof.
  intros _ Ha Hb.
  assert (K : forall n i, (0 <= n)%Z -> advance i n = steps (Z.to_nat n) i).
  { intros n i Hn. unfold advance. destruct (Z.ltb_spec 0 n) as [G|G]; [apply for_up_steps|].
    replace (Z.to_nat n) with 0 by lia. reflexivity. }
  rewrite !K by lia. rewrite Z2Nat.inj_add by lia. generalize (z_begin z) as i. generalize (Z.to_nat a) as m.
  intros m. induction m as [|m IH]; intros i; cbn [steps Nat.add bind]; [now rewrite K|].
  destruct (next i); cbn [bind]; auto.
Qed.
End P.
