From Verif Require Import Base Split_Model Split_Spec Split_Proofs Split_Proofs2 Split_Proofs3 Parse_Model Parse_Spec.
From Verif Require Export Parse_Spec2.

Lemma tokens_unique {A} (p : A -> bool) s te nx t1 t2 : tokens_of p s te nx t1 -> tokens_of p s te nx t2 -> t1 = t2.
Proof.
  intros [[H1 H2]|[H1 H2]] [[H3 H4]|[H3 H4]]; subst; try congruence.
  eapply cuts_unique; eauto.
Qed.

Lemma tokens_of_ext {A} (p q : A -> bool) s te nx toks : (forall x, p x = q x) ->
  tokens_of p s te nx toks -> tokens_of q s te nx toks.
Proof.
  intros H [[H1 H2]|[H1 H2]]; [left; auto|right]. split; auto.
  induction H2 as [a H2 H3|a f e toks H2 H3 H4 H5 H6 H7 H8 IH].
  - apply cut_last; auto. intros i x Hi Hx. rewrite <- H. exact (H3 i x Hi Hx).
  - eapply cut_more; eauto.
    + intros i x Hi Hx. rewrite <- H. exact (H5 i x Hi Hx).
    + intros i x Hi Hx. rewrite <- H. exact (H6 i x Hi Hx).
    + destruct H7 as [H7|(x & Hx & Hp)]; [auto|]. right. exists x. split; auto. now rewrite <- H.
Qed.

Lemma tokens_of_fun {A} (p : A -> bool) s te nx te' nx' toks :
  (forall f e, te f e = te' f e) -> (forall f e, nx f e = nx' f e) ->
  tokens_of p s te nx toks -> tokens_of p s te' nx' toks.
Proof.
  intros H H' [[H1 H2]|[H1 H2]]; [left; auto|right]. split; auto.
  induction H2 as [a H2 H3|a f e toks H2 H3 H4 H5 H6 H7 H8 IH]; [apply cut_last; auto|].
  rewrite H. eapply cut_more; eauto. rewrite <- H'. exact IH.
Qed.

Lemma delim_pred_is delims c : delim_pred delims c = is_delim delims c.
Proof.
  unfold delim_pred, is_delim. destruct delims as [|d [|d' ds]]; try apply mcdp_mem.
  unfold single_delimiter_predicate. simpl. now rewrite orb_false_r.
Qed.

Lemma split_toks delims s opt : exists toks, split (delim_pred delims) s opt = Ok (toks, length toks) /\
  tokens_of (is_delim delims) s (spec_tok_end opt) (spec_next_start opt) toks.
Proof.
  destruct (split_tokens (delim_pred delims) s opt) as (toks & E & H). exists toks. split; auto.
  eapply tokens_of_ext; [|exact H]. apply delim_pred_is.
Qed.

Lemma split_1 delims s : exists toks, split (delim_pred delims) s 1 = Ok (toks, length toks) /\
  tokens_of (is_delim delims) s (fun f e => f) (fun f e => e) toks.
Proof. destruct (split_toks delims s 1) as (toks & E & H). exists toks. split; auto. Qed.

Lemma split_n_1 delims s n : exists toks, tokens_of (is_delim delims) s (fun f e => f) (fun f e => e) toks /\
  split_n (delim_pred delims) s n 1 = Ok (firstn n toks, Nat.min n (length toks)).
Proof.
  destruct (split_1 delims s) as (toks & E & H). exists toks. split; auto.
  destruct (split_n_firstn (delim_pred delims) s 1 ltac:(discriminate) n) as (toks' & E' & En).
  rewrite E in E'. injection E' as ->. exact En.
Qed.

Lemma compressed_unique delims s t1 t2 : compressed_tokens delims s t1 -> compressed_tokens delims s t2 -> t1 = t2.
Proof. intros (a & Ha & ->) (b & Hb & ->). now rewrite (tokens_unique _ _ _ _ _ _ Ha Hb). Qed.

(* ------------------------------------------------------------------ *)
Lemma convert_all_iff s toks : forall ts i b ts', i + length ts <= length toks ->
  (convert_all s toks i ts = Ok (b, ts') <-> results ts (map (sub s) (skipn i toks)) b ts').
Proof.
  induction ts as [|t ts IH]; intros i b ts' Hl; cbn [convert_all].
  - split; [intros E; injection E as <- <-; constructor|]. intros H. inversion H. reflexivity.
  - simpl in Hl. destruct (nth_error toks i) as [r|] eqn:Er; [|apply nth_error_None in Er; lia].
    rewrite (rd_nth _ _ _ Er). cbn [bind]. rewrite (skipn_nth_cons _ _ _ Er). cbn [map].
    unfold run_target. destruct (t_conv t (sub s r) (t_val t)) as [[c v]| |] eqn:Ec; cbn [bind].
    2,3: split; [discriminate|intros H; inversion H; congruence].
    destruct c; cbn [negb].
    + specialize (IH (S i)). destruct (convert_all s toks (S i) ts) as [[b1 ts1]| |] eqn:Ea; cbn [bind].
      * split.
        -- intros E. injection E as <- <-. apply res_ok; auto. apply IH; [lia|reflexivity].
        -- intros H. inversion H as [|? ? v0 ? ? ? ts2 Ec0 Hr|? ? v0 ? ? Ec0]; subst; rewrite Ec in Ec0; [|discriminate].
           injection Ec0 as <-. apply IH in Hr; [|lia]. injection Hr as <- <-. reflexivity.
      * split; [discriminate|]. intros H. exfalso.
        inversion H as [|? ? v0 ? ? ? ts2 Ec0 Hr|? ? v0 ? ? Ec0]; subst; [|congruence]. apply IH in Hr; [discriminate|lia].
      * split; [discriminate|]. intros H. exfalso.
        inversion H as [|? ? v0 ? ? ? ts2 Ec0 Hr|? ? v0 ? ? Ec0]; subst; [|congruence]. apply IH in Hr; [discriminate|lia].
    + split.
      * intros E. injection E as <- <-. apply res_fail. exact Ec.
      * intros H. inversion H as [|? ? v0 ? ? ? ts2 Ec0 Hr|? ? v0 ? ? Ec0]; subst; rewrite Ec in Ec0; [discriminate|].
        injection Ec0 as <-. reflexivity.
Qed.

Lemma results_firstn ts xs b ts' n : length ts <= n -> (results ts (firstn n xs) b ts' <-> results ts xs b ts').
Proof.
  revert xs b ts' n. induction ts as [|t ts IH]; intros xs b ts' n Hn.
  - split; intros H; inversion H; constructor.
  - simpl in Hn. destruct n; [lia|]. destruct xs as [|x xs]; [reflexivity|]. cbn [firstn].
    split; intros H; inversion H; subst.
    + apply res_ok; auto. eapply IH; [|eassumption]. lia.
    + now apply res_fail.
    + apply res_ok; auto. apply IH; [lia|auto].
    + now apply res_fail.
Qed.

Lemma parse_values_iff delims s ts texts b ts' : compressed_tokens delims s texts ->
  (parse_values delims s ts = Ok (b, ts') <->
   if length texts <? length ts then b = false /\ ts' = ts else results ts texts b ts').
Proof.
  intros (toks & Ht & ->). rewrite map_length.
  destruct (split_n_1 delims s (length ts)) as (toks' & Ht' & E).
  rewrite <- (tokens_unique _ _ _ _ _ _ Ht Ht') in E. clear toks' Ht'.
  unfold parse_values. rewrite E. cbn [bind].
  replace (Nat.min (length ts) (length toks) <? length ts) with (length toks <? length ts).
  2:{ destruct (length toks <? length ts) eqn:El; symmetry; [apply Nat.ltb_lt in El; apply Nat.ltb_lt; lia|
      apply Nat.ltb_ge in El; apply Nat.ltb_ge; lia]. }
  destruct (length toks <? length ts) eqn:El.
  - split; [intros H; injection H as <- <-; auto|]. intros [-> ->]. reflexivity.
  - apply Nat.ltb_ge in El. rewrite convert_all_iff by (rewrite firstn_length; lia). cbn [skipn].
    rewrite <- firstn_map. apply results_firstn. lia.
Qed.

Lemma results_true ts xs ts' : results ts xs true ts' ->
  length ts' = length ts /\ length ts <= length xs /\
  forall i t x, nth_error ts i = Some t -> nth_error xs i = Some x ->
    exists v, t_conv t x (t_val t) = Ok (true, v) /\ nth_error ts' i = Some (Target (t_type t) (t_conv t) v).
Proof.
  intros H. remember true as b eqn:Eb. induction H as [xs|t x v ts xs b ts' Hc _ IH|]; subst; try discriminate.
  - simpl. split; [lia|]. split; [lia|]. intros [|i] t x; discriminate.
  - destruct IH as (H1 & H2 & H3); auto. simpl. split; [lia|]. split; [lia|].
    intros [|i] t' x' Ht Hx; cbn in *; [|eauto]. injection Ht as <-. injection Hx as <-. eauto.
Qed.

Lemma results_false ts xs ts' : results ts xs false ts' ->
  exists j, j < length ts /\ length ts' = length ts /\
    (exists t x v, nth_error ts j = Some t /\ nth_error xs j = Some x /\ t_conv t x (t_val t) = Ok (false, v) /\
       nth_error ts' j = Some (Target (t_type t) (t_conv t) v)) /\
    (forall i t x, i < j -> nth_error ts i = Some t -> nth_error xs i = Some x ->
      exists v, t_conv t x (t_val t) = Ok (true, v) /\ nth_error ts' i = Some (Target (t_type t) (t_conv t) v)) /\
    (forall i, j < i -> nth_error ts' i = nth_error ts i).
Proof.
  intros H. remember false as b eqn:Eb. induction H as [xs|t x v ts xs b ts' Hc _ IH|t x v ts xs Hc]; subst; try discriminate.
  - destruct IH as (j & H1 & H2 & H3 & H4 & H5); auto. exists (S j). simpl. split; [lia|]. split; [lia|]. split; [auto|]. split.
    + intros [|i] t' x' Hi Ht Hx; cbn in *; [|eapply H4; eauto; lia]. injection Ht as <-. injection Hx as <-. eauto.
    + intros [|i] Hi; [lia|]. cbn. apply H5. lia.
  - exists 0. simpl. split; [lia|]. split; [auto|]. split; [exists t, x, v; auto|]. split; [lia|].
    intros [|i] Hi; [lia|]. reflexivity.
Qed.

(* ------------------------------------------------------------------ *)
Section Containers.
Context {T C : Type}.
Variable conv : converter T.
Variable d : T.
Variable add : C -> T -> C.
Variable ok : list ascii -> option T.

Notation behaves := (Parse_Spec2.behaves conv d ok).

Lemma insert_ranges_ok s toks : Forall (fun r => behaves (sub s r)) toks -> forall c,
  exists vs, converted ok (map (sub s) toks) vs /\
    insert_ranges conv d add s toks c = Ok (fold_left add vs c).
Proof.
  unfold insert_ranges. induction 1 as [|r toks Hr _ IH]; intros c.
  - exists []. split; [constructor|reflexivity].
  - cbn [fold_left bind]. unfold insert_range at 2. unfold Parse_Spec2.behaves in Hr. cbn [map].
    destruct (ok (sub s r)) as [v|] eqn:Eo.
    + rewrite Hr. cbn [bind]. destruct (IH (add c v)) as (vs & H1 & H2). exists (v :: vs).
      split; [constructor; auto|exact H2].
    + destruct Hr as (v & ->). cbn [bind]. destruct (IH c) as (vs & H1 & H2). exists vs.
      split; [now apply conv_skip|exact H2].
Qed.

Lemma parse_container_ok delims s opt c toks :
  tokens_of (is_delim delims) s (spec_tok_end opt) (spec_next_start opt) toks ->
  Forall (fun r => behaves (sub s r)) toks ->
  exists vs, converted ok (map (sub s) toks) vs /\
    parse_container conv d add delims s opt c = Ok (fold_left add vs c, length toks).
Proof.
  intros Ht Hb. destruct (split_toks delims s opt) as (toks' & E & H').
  rewrite (tokens_unique _ _ _ _ _ _ H' Ht) in E.
  unfold parse_container. rewrite E. cbn [bind].
  destruct (insert_ranges_ok s toks Hb c) as (vs & H1 & ->). exists vs. auto.
Qed.

Lemma parse_n_container_ok (size : C -> nat) delims s n opt c toks :
  (has_bit opt 2 = true -> has_bit opt 1 = true) ->
  tokens_of (is_delim delims) s (spec_tok_end opt) (spec_next_start opt) toks ->
  Forall (fun r => behaves (sub s r)) (firstn n toks) ->
  exists vs, converted ok (map (sub s) (firstn n toks)) vs /\
    parse_n_container conv d add size delims s n opt c = Ok (fold_left add vs c, size (fold_left add vs c) - size c).
Proof.
  intros Ho Ht Hb. destruct (split_toks delims s opt) as (toks' & E & H'). rewrite (tokens_unique _ _ _ _ _ _ H' Ht) in E.
  destruct (split_n_firstn (delim_pred delims) s opt Ho n) as (toks2 & E2 & En). rewrite E in E2. injection E2 as <-.
  unfold parse_n_container. rewrite En. cbn [bind].
  destruct (insert_ranges_ok s (firstn n toks) Hb c) as (vs & H1 & ->). exists vs. auto.
Qed.

Lemma add_all_ok s : forall toks c, Forall (fun r => behaves (sub s r)) toks ->
  exists vs, add_all conv d add s toks c = Ok (length vs =? length toks, fold_left add vs c) /\
    map ok (map (sub s) (firstn (length vs) toks)) = map Some vs /\
    (length vs < length toks -> exists r, nth_error toks (length vs) = Some r /\ ok (sub s r) = None).
Proof.
  induction toks as [|r toks IH]; intros c Hb.
  - exists []. split; [reflexivity|]. split; [reflexivity|]. simpl. lia.
  - inversion Hb as [|? ? Hr Hb']; subst. unfold Parse_Spec2.behaves in Hr. cbn [add_all].
    destruct (ok (sub s r)) as [v|] eqn:Eo.
    + rewrite Hr. cbn [bind negb]. destruct (IH (add c v) Hb') as (vs & H1 & H2 & H3). exists (v :: vs).
      split; [exact H1|]. cbn [length firstn map]. split; [rewrite Eo, H2; reflexivity|].
      intros Hl. apply H3. lia.
    + destruct Hr as (v & ->). cbn [bind negb]. exists []. split; [reflexivity|]. split; [reflexivity|].
      intros _. exists r. auto.
Qed.

Lemma parse_args_seq_ok (brk : bool) : forall argv, Forall (fun x => forall t, match ok x with Some v => conv x t = Ok (true, v)
                                            | None => exists v, conv x t = Ok (false, v) end) argv ->
  forall i argc tmp c, i + length argv = argc ->
  exists vs n, parse_args_seq conv add brk argv i argc tmp c = Ok (fold_left add vs c, n) /\
    (brk = true -> n = i + length vs /\ map ok (firstn (length vs) argv) = map Some vs /\
       (length vs < length argv -> exists x, nth_error argv (length vs) = Some x /\ ok x = None)) /\
    (brk = false -> n = argc /\ converted ok argv vs).
Proof.
  induction argv as [|a argv IH]; intros Hc i argc tmp c Hl; cbn [parse_args_seq].
  - exists [], argc. split; [reflexivity|]. simpl in *. split; intros _.
    + split; [lia|]. split; [reflexivity|]. lia.
    + split; [auto|constructor].
  - pose proof (Forall_inv Hc tmp) as Ha. cbv beta in Ha. specialize (IH (Forall_inv_tail Hc)). destruct (ok a) as [v|] eqn:Eo.
    + rewrite Ha. cbn [bind negb]. destruct (IH (S i) argc v (add c v)) as (vs & n & E & H1 & H2); [simpl in Hl; lia|].
      exists (v :: vs), n. split; [exact E|]. split; intros Hb.
      * destruct (H1 Hb) as (H3 & H4 & H5). cbn [length firstn map]. split; [lia|].
        split; [rewrite Eo, H4; reflexivity|]. intros Hlt. apply H5. lia.
      * destruct (H2 Hb) as (H3 & H4). split; [auto|constructor; auto].
    + destruct Ha as (v & ->). cbn [bind negb]. destruct brk.
      * exists [], i. split; [reflexivity|]. split; [|discriminate]. intros _. simpl. split; [lia|]. split; [reflexivity|].
        intros _. exists a. auto.
      * destruct (IH (S i) argc v c) as (vs & n & E & _ & H2); [simpl in Hl; lia|].
        exists vs, n. split; [exact E|]. split; [discriminate|]. intros Hb. destruct (H2 Hb) as (H3 & H4).
        split; [auto|now apply conv_skip].
Qed.
End Containers.

(* parse(t1..tk, container) *)
Lemma parse_values_rest_ok {T C} conv (d : T) (add : C -> T -> C) ok delims s ts c texts :
  compressed_tokens delims s texts ->
  (length texts < S (length ts) -> parse_values_rest conv d add delims s ts c = Ok (false, ts, c)) /\
  (length ts < length texts -> forall b ts', results ts texts b ts' ->
     Forall (behaves conv d ok) (skipn (length ts) texts) ->
     if b then exists vs, parse_values_rest conv d add delims s ts c =
                 Ok (length vs =? length texts - length ts, ts', fold_left add vs c) /\
                 map ok (firstn (length vs) (skipn (length ts) texts)) = map Some vs /\
                 (length vs < length texts - length ts ->
                    exists x, nth_error texts (length ts + length vs) = Some x /\ ok x = None)
     else parse_values_rest conv d add delims s ts c = Ok (false, ts', c)).
Proof.
  intros (toks & Ht & ->). rewrite map_length.
  destruct (split_1 delims s) as (toks' & E & Ht').
  rewrite <- (tokens_unique _ _ _ _ _ _ Ht Ht') in E. clear toks' Ht'.
  unfold parse_values_rest. rewrite E. cbn [bind]. split.
  - intros Hl. replace (length toks <? S (length ts)) with true by (symmetry; apply Nat.ltb_lt; lia). reflexivity.
  - intros Hl b ts' Hr Hb. replace (length toks <? S (length ts)) with false by (symmetry; apply Nat.ltb_ge; lia).
    assert (convert_all s toks 0 ts = Ok (b, ts')) as -> by (apply convert_all_iff; [lia|exact Hr]).
    cbn [bind]. destruct b; cbn [negb]; [|reflexivity].
    destruct (results_true _ _ _ Hr) as (Hlen & _ & _). rewrite Hlen.
    rewrite skipn_map in Hb. 
    destruct (add_all_ok conv d add ok s (skipn (length ts) toks) c) as (vs & E1 & E2 & E3).
    { rewrite Forall_map in Hb. exact Hb. }
    rewrite skipn_length in *. exists vs. rewrite E1. cbn [bind]. split; [reflexivity|]. split.
    + rewrite skipn_map, firstn_map. exact E2.
    + intros Hv. destruct (E3 Hv) as (r & Hn & Ho). exists (sub s r). split; [|exact Ho].
      rewrite nth_error_map. rewrite nth_error_skipn in Hn. rewrite Hn. reflexivity.
Qed.

(* parse(argc,argv,t1..tn) always ends in UB unless the number of arguments is wrong or a
   conversion fails *)
Lemma parse_args_from_ub : forall ts argv i n,
  i + length ts = S (length argv) -> (forall k t x, nth_error ts k = Some t -> nth_error argv (i + k) = Some x -> exists v, t_conv t x (t_val t) = Ok (true, v)) ->
  ts <> [] -> parse_args_from argv i ts n = UB.
Proof.
  induction ts as [|t ts IH]; intros argv i n Hl Hc Hne; [congruence|]. cbn [parse_args_from].
  destruct ts as [|t' ts'].
  - rewrite rd_ub by (simpl in Hl; lia). reflexivity.
  - destruct (nth_error argv i) as [a|] eqn:Ea; [|apply nth_error_None in Ea; simpl in Hl; lia].
    rewrite (rd_nth _ _ _ Ea). cbn [bind]. unfold run_target.
    destruct (Hc 0 t a eq_refl ltac:(now rewrite Nat.add_0_r)) as (v & ->). cbn [bind negb].
    rewrite IH; [reflexivity|simpl in *; lia| |discriminate].
    intros k u x Hu Hx. apply (Hc (S k) u x Hu). now rewrite <- Nat.add_succ_comm.
Qed.
