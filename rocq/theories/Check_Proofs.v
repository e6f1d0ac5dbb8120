(* Proofs about the checks of strtk_tokenizer_test.cpp. *)
From Verif Require Import Base Split_Model Split_Spec Split_Proofs Split_Proofs2 Split_Proofs3 Parse_Model Parse_Spec Parse_Spec2 Parse_Proofs Parse_Proofs2 Check_Model Check_Spec.
Local Open Scope nat_scope.

Lemma same_text_eq a b : same_text a b = true <-> a = b.
Proof. unfold same_text. destruct (list_eq_dec ascii_dec a b); split; intros; congruence. Qed.

Lemma sub_empty {A} (s : list A) r : fst r <= snd r -> snd r <= length s -> (sub s r = [] <-> fst r = snd r).
Proof.
  intros H1 H2. unfold sub. split; intros H.
  - apply (f_equal (@length A)) in H. rewrite firstn_length, skipn_length in H. cbn in H. lia.
  - rewrite H, Nat.sub_diag. reflexivity.
Qed.

Lemma shown_text s r : fst r <= snd r -> snd r <= length s -> shown s r = bracketed (sub s r).
Proof.
  intros H1 H2. pose proof (sub_empty s r H1 H2) as E. unfold shown, bracketed. destruct (Nat.eqb_spec (fst r) (snd r)) as [He|He].
  - now rewrite (proj2 E He).
  - destruct (sub s r); [exfalso; apply He, E; reflexivity|reflexivity].
Qed.

Lemma split_either (p : ascii -> bool) s (c : bool) : exists toks,
  split p s (if c then 1 else 0)%N = Ok (toks, length toks) /\
  tokenize p s (if c then 1 else 0)%N = Ok toks /\
  tokens_of p s (fun f e => f) (fun f e => if c then e else S f) toks /\
  Forall (fun r => fst r <= snd r /\ snd r <= length s) toks /\
  Forall (fun r => Forall (fun x => p x = false) (sub s r)) toks.
Proof.
  destruct c.
  - destruct (split_compress_fields p s) as (toks & H1 & H2 & H3 & H4 & _). exists toks.
    destruct (tokenize_split p s 1%N eq_refl) as (toks' & T1 & T2). rewrite H1 in T2. injection T2 as <-. auto.
  - destruct (split_default_fields p s) as (toks & H1 & H2 & H3 & H4 & _). exists toks.
    destruct (tokenize_split p s 0%N eq_refl) as (toks' & T1 & T2). rewrite H1 in T2. injection T2 as <-. auto.
Qed.

Definition row (s : list ascii) (toks : list (nat * nat)) : list ascii := separated (str ",") (map (shown s) toks).

Lemma row_snoc s toks t : row s (toks ++ [t]) = (match toks with [] => [] | _ => row s toks ++ str "," end) ++ shown s t.
Proof.
  unfold row. rewrite map_app. cbn [map]. destruct toks as [|a toks]; [reflexivity|].
  rewrite separated_app_one by (cbn; discriminate). now rewrite app_assoc.
Qed.

Lemma row_brackets s toks : Forall (fun r => fst r <= snd r /\ snd r <= length s) toks ->
  row s toks = separated (str ",") (map bracketed (map (sub s) toks)).
Proof.
  intros H. unfold row. f_equal. rewrite map_map. apply map_ext_in. intros r Hr. rewrite Forall_forall in H.
  destruct (H r Hr). now apply shown_text.
Qed.

Lemma split_loop s toks : (N.of_nat (length toks) < 2 ^ 64)%N ->
  for_up 0 (length toks)
    (fun i result =>
       t <- rd toks i ;;
       let result := result ++ shown s t in
       Ok (if negb (N.of_nat i =? (N.of_nat (length toks) + 2 ^ 64 - 1) mod 2 ^ 64)%N then result ++ str "," else result)) [] =
  Ok (row s toks).
Proof.
  intros Hb. apply holds_eq.
  eapply holds_weaken;
    [apply (for_up_rule (fun i w => w = row s (firstn i toks) ++ if (0 <? i) && (i <? length toks) then str "," else []) _ (length toks) 0)
    | ].
  - intros i w Hi ->. destruct (nth_error toks i) as [t|] eqn:Et; [|apply nth_error_None in Et; lia].
    unfold rd. rewrite Et. cbn [bind holds]. rewrite (firstn_S_nth _ _ _ Et), row_snoc.
    assert (Ei : ((N.of_nat (length toks) + 2 ^ 64 - 1) mod 2 ^ 64 = N.of_nat (length toks - 1))%N).
    { replace (N.of_nat (length toks) + 2 ^ 64 - 1)%N with (N.of_nat (length toks - 1) + 1 * 2 ^ 64)%N by lia.
      rewrite N.mod_add by lia. apply N.mod_small. lia. }
    rewrite Ei.
    assert (E1 : row s (firstn i toks) ++ (if (0 <? i) && (i <? length toks) then str "," else []) =
                 match firstn i toks with [] => [] | _ => row s (firstn i toks) ++ str "," end).
    { destruct i as [|i]; [reflexivity|]. destruct toks as [|a toks]; [cbn in Hi; lia|]. cbn [firstn].
      destruct (Nat.ltb_spec 0 (S i)); [|lia]. destruct (Nat.ltb_spec (S i) (length (a :: toks))); [reflexivity|lia]. }
    rewrite E1. change (0 <? S i) with true. cbn [andb].
    destruct (Nat.ltb_spec (S i) (length toks)) as [Hl|Hl].
    + destruct (N.eqb_spec (N.of_nat i) (N.of_nat (length toks - 1))); [lia|reflexivity].
    + destruct (N.eqb_spec (N.of_nat i) (N.of_nat (length toks - 1))); [cbn [negb]; now rewrite app_nil_r|lia].
  - reflexivity.
  - cbn [plus]. intros w ->. rewrite firstn_all, Nat.ltb_irrefl, andb_false_r, app_nil_r. reflexivity.
Qed.

Lemma itr_loop (p : ascii -> bool) s opt ed : forall fuel it out result toks,
  loop fuel
    (fun '(it, out) =>
       if tok_eq it ed then Ok (inr out)
       else it' <- tok_incr p s opt it ;; Ok (inl (it', out ++ [current_token it]))) (it, out) = Ok toks ->
  result = row s out ++ (match out with [] => [] | _ => if tok_eq it ed then [] else str "," end) ->
  loop fuel
    (fun '(it, result) =>
       if tok_eq ed it then Ok (inr result)
       else
         let result := result ++ shown s (current_token it) in
         it' <- tok_incr p s opt it ;;
         Ok (inl (it', if negb (tok_eq it' ed) then result ++ str "," else result))) (it, result) = Ok (row s toks).
Proof.
  assert (Hsym : forall a b, tok_eq a b = tok_eq b a).
  { intros a b. unfold tok_eq. now rewrite (Nat.eqb_sym (range_first a)), (Nat.eqb_sym (range_second a)). }
  induction fuel as [|fuel IH]; intros it out result toks H ->; [discriminate|].
  cbn [loop] in *. rewrite (Hsym ed it). destruct (tok_eq it ed) eqn:E.
  - cbn [bind] in *. injection H as <-. f_equal. destruct out; now rewrite app_nil_r.
  - destruct (tok_incr p s opt it) as [it'| |] eqn:Ei; cbn [bind] in *; try discriminate.
    apply (IH it' (out ++ [current_token it])); [exact H|]. rewrite row_snoc.
    assert (Hm : forall X (a b : X), match out ++ [current_token it] with [] => a | _ => b end = b) by (intros; destruct out; reflexivity).
    rewrite Hm. clear Hm. destruct out as [|o out]; destruct (tok_eq it' ed); cbn [negb]; rewrite ?app_nil_r; reflexivity.
Qed.

Lemma cuts_count (p : ascii -> bool) s te nx a toks : (forall f e, f < e -> f < nx f e) ->
  cuts p s te nx a toks -> a <= length s -> length toks <= S (length s - a).
Proof.
  intros Hn H. induction H as [a Ha H|a f e toks H1 H2 H3 H4 H5 H6 H7 IH]; intros Hle; [cbn; lia|].
  specialize (Hn f e H2). cbn [length]. 
  assert (Hx : nx f e <= length s) by (inversion H7; subst; lia). specialize (IH Hx). lia.
Qed.

Lemma tokens_count (p : ascii -> bool) s (c : bool) toks :
  tokens_of p s (fun f e => f) (fun f e => if c then e else S f) toks -> length toks <= S (length s).
Proof.
  intros [[-> ->]|[_ H]]; [cbn; lia|]. apply cuts_count in H; [lia| |lia]. intros f e Hf. destruct c; lia.
Qed.

Lemma split_result_ok (p : ascii -> bool) s (c : bool) : (N.of_nat (length s) + 1 < 2 ^ 64)%N -> exists toks,
  tokens_of p s (fun f e => f) (fun f e => if c then e else S f) toks /\
  Forall (fun r => Forall (fun x => p x = false) (sub s r)) toks /\
  split_result p s c = Ok (separated (str ",") (map bracketed (map (sub s) toks))) /\
  itr_result p s c = split_result p s c.
Proof.
  intros Hb. destruct (split_either p s c) as (toks & H1 & H2 & H3 & H4 & H5). exists toks.
  split; [exact H3|]. split; [exact H5|].
  assert (E : split_result p s c = Ok (row s toks)).
  { unfold split_result. rewrite H1. cbn [bind]. apply split_loop. pose proof (tokens_count p s c toks H3). lia. }
  rewrite E, (row_brackets _ _ H4). split; [reflexivity|]. rewrite <- (row_brackets _ _ H4). clear E.
  unfold tokenize in H2. unfold itr_result. set (opt := (if c then 1 else 0)%N) in *.
  destruct (tok_make p s opt 0) as [it| |]; cbn [bind] in *; try discriminate.
  destruct (tok_make p s opt (length s)) as [ed| |]; cbn [bind] in *; try discriminate.
  apply (itr_loop p s opt ed _ it [] [] toks H2). reflexivity.
Qed.

(* ------------------------------------------------------------------ *)
Lemma bracketed_inj x y : ~ In "<"%char x -> ~ In "<"%char y -> bracketed x = bracketed y -> x = y.
Proof.
  intros Hx Hy E. destruct x as [|a x], y as [|b y]; cbn in E; auto; exfalso.
  - apply Hy. injection E as <- _. now left.
  - apply Hx. injection E as -> _. now left.
Qed.

Lemma bracketed_no_comma x : ~ In ","%char x -> ~ In ","%char (bracketed x).
Proof. destruct x; intros H; [|exact H]. cbn. intros [E|[E|[]]]; discriminate. Qed.

Lemma rows_same xs ys : Forall (fun x => ~ In ","%char x /\ ~ In "<"%char x) xs ->
  Forall (fun x => ~ In ","%char x /\ ~ In "<"%char x) ys ->
  separated (str ",") (map bracketed xs) = separated (str ",") (map bracketed ys) -> xs = ys.
Proof.
  intros Hx Hy E.
  assert (Fx : Forall (fun t => ~ In ","%char t) (map bracketed xs)).
  { rewrite Forall_map. eapply Forall_impl; [|exact Hx]. cbn. intros a [Ha _]. now apply bracketed_no_comma. }
  assert (Fy : Forall (fun t => ~ In ","%char t) (map bracketed ys)).
  { rewrite Forall_map. eapply Forall_impl; [|exact Hy]. cbn. intros a [Ha _]. now apply bracketed_no_comma. }
  assert (L : length xs = length ys).
  { pose proof (filter_sep ","%char _ Fx) as Lx. pose proof (filter_sep ","%char _ Fy) as Ly.
    change [","%char] with (str ",") in Lx, Ly. rewrite E, Ly in Lx. apply (f_equal (@length ascii)) in Lx.
    rewrite !repeat_length, !map_length in Lx. clear Fx Fy Ly.
    assert (N1 : forall z, bracketed z <> []) by (intros [|? ?]; discriminate).
    destruct xs as [|a [|a' xs]], ys as [|b [|b' ys]]; cbn [map separated length pred] in *; try lia; exfalso.
    - symmetry in E. now apply N1 in E.
    - now apply N1 in E. }
  assert (M : map bracketed xs = map bracketed ys).
  { apply (sep_unique ","%char); auto. now rewrite !map_length. }
  clear - Hx Hy M. revert ys Hy M. induction Hx as [|x xs [_ H] Hx IH]; intros [|y ys] Hy M; try discriminate; auto.
  cbn [map] in M. injection M as M1 M2. inversion Hy as [|? ? [_ H'] Hy']; subst. f_equal; [|now apply IH].
  now apply bracketed_inj.
Qed.

(* ------------------------------------------------------------------ *)
(* split_n of a joined text *)
Lemma cuts_run (p : ascii -> bool) rest : (rest = [] \/ exists c r, rest = c :: r /\ p c = false) ->
  forall v pre toks, Forall (fun x => p x = true) v ->
  cuts p (pre ++ v ++ rest) (fun f e => f) (fun f e => S f) (length pre + length v) toks ->
  exists toks', cuts p (pre ++ v ++ rest) (fun f e => f) (fun f e => S f) (length pre) toks' /\
    map (sub (pre ++ v ++ rest)) toks' = repeat [] (length v) ++ map (sub (pre ++ v ++ rest)) toks.
Proof.
  intros Hr. induction v as [|d v IH]; intros pre toks Hv H.
  - exists toks. cbn [length] in H. rewrite Nat.add_0_r in H. auto.
  - inversion Hv as [|? ? Hd Hv']; subst.
    destruct (IH (pre ++ [d]) toks Hv') as (toks' & H1 & H2).
    { rewrite <- app_assoc, app_length. cbn [app length] in *. replace (length pre + 1 + length v) with (length pre + S (length v)) by lia. exact H. }
    rewrite <- app_assoc, app_length in *. cbn [app length] in *.
    exists ((length pre, length pre) :: toks'). split.
    + apply (cut_more p _ (fun f e => f) (fun f e => S f) (length pre) (length pre) (length pre + S (length v))).
      * lia.
      * lia.
      * rewrite app_length. cbn [length]. rewrite app_length. lia.
      * intros i x Hi. lia.
      * exact (all_in_all p pre (d :: v) rest Hv).
      * destruct Hr as [->|(c & r & -> & Hc)].
        -- left. rewrite app_nil_r, app_length. reflexivity.
        -- right. exists c. split; [|exact Hc]. change (d :: v ++ c :: r) with ((d :: v) ++ c :: r). rewrite app_assoc, nth_error_app2 by (rewrite app_length; cbn; lia).
           rewrite app_length. cbn [length]. now rewrite Nat.sub_diag.
      * replace (S (length pre)) with (length pre + 1) by lia. exact H1.
    + cbn [map repeat app]. f_equal; [|exact H2]. unfold sub. cbn [fst snd]. now rewrite Nat.sub_diag.
Qed.

Lemma cuts_spaced (p : ascii -> bool) sep : sep <> [] -> Forall (fun x => p x = true) sep -> forall cs pre, cs <> [] ->
  Forall (fun c => p c = false) cs ->
  exists toks, cuts p (pre ++ separated sep (map (fun c => [c]) cs)) (fun f e => f) (fun f e => S f) (length pre) toks /\
    map (sub (pre ++ separated sep (map (fun c => [c]) cs))) toks = spaced (length sep) cs.
Proof.
  intros Hne Hs. induction cs as [|c cs IH]; intros pre Hn Hc; [congruence|].
  inversion Hc as [|? ? Hc1 Hc2]; subst. destruct cs as [|c2 cs].
  - cbn [map separated spaced]. exists [(length pre, length (pre ++ [c]))]. split.
    + apply cut_last; [rewrite app_length; lia|]. rewrite app_length.
      pose proof (all_in_free p pre [c] [] ltac:(now constructor)) as H. rewrite app_nil_r in H. exact H.
    + cbn [map]. f_equal. rewrite app_length. rewrite <- (app_nil_r [c]) at 1. apply (sub_here pre [c] []).
  - change (separated sep (map (fun c => [c]) (c :: c2 :: cs))) with ([c] ++ sep ++ separated sep (map (fun c => [c]) (c2 :: cs))).
    change (spaced (length sep) (c :: c2 :: cs)) with ([c] :: repeat [] (length sep - 1) ++ spaced (length sep) (c2 :: cs)).
    destruct sep as [|d sep]; [congruence|]. inversion Hs as [|? ? Hd Hs']; subst.
    set (rest := separated (d :: sep) (map (fun c => [c]) (c2 :: cs))) in *.
    assert (Hr : rest = [] \/ exists c r, rest = c :: r /\ p c = false).
    { right. inversion Hc2; subst. subst rest. cbn [map separated]. destruct (map (fun c => [c]) cs); eexists; eexists; (split; [reflexivity|assumption]). }
    destruct (IH (pre ++ [c] ++ (d :: sep)) ltac:(discriminate) Hc2) as (toks & H1 & H2).
    assert (Es : (pre ++ [c] ++ (d :: sep)) ++ rest = (pre ++ [c; d]) ++ sep ++ rest) by (rewrite <- !app_assoc; reflexivity).
    rewrite Es in H1, H2.
    destruct (cuts_run p rest Hr sep (pre ++ [c; d]) toks Hs') as (toks' & H3 & H4).
    { replace (length (pre ++ [c; d]) + length sep) with (length (pre ++ [c] ++ d :: sep)); [exact H1|]. rewrite !app_length. cbn. lia. }
    assert (E2 : (pre ++ [c; d]) ++ sep ++ rest = pre ++ [c] ++ (d :: sep) ++ rest) by (rewrite <- !app_assoc; reflexivity).
    rewrite E2 in *. exists ((length pre, length pre + 1) :: toks'). split.
    + apply (cut_more p _ (fun f e => f) (fun f e => S f) (length pre) (length pre + 1) (length pre + 1 + length (d :: sep))).
      * lia.
      * cbn. lia.
      * rewrite !app_length. cbn [length]. lia.
      * exact (all_in_free p pre [c] ((d :: sep) ++ rest) ltac:(now constructor)).
      * pose proof (all_in_all p (pre ++ [c]) (d :: sep) rest Hs) as H. rewrite <- app_assoc, app_length in H. exact H.
      * destruct Hr as [Hr|(x & r & Hr & Hx)]; rewrite Hr in *.
        -- left. rewrite !app_length. cbn [length]. lia.
        -- right. exists x. split; [|exact Hx]. rewrite (app_assoc pre), app_assoc.
           rewrite nth_error_app2 by (rewrite !app_length; cbn [length]; lia).
           replace (_ - _) with 0 by (rewrite !app_length; cbn [length]; lia). reflexivity.
      * replace (S (length pre + 1)) with (length (pre ++ [c; d])) by (rewrite app_length; cbn; lia). exact H3.
    + cbn [map]. f_equal; [exact (sub_here pre [c] ((d :: sep) ++ rest))|]. rewrite H4, H2. f_equal. f_equal. cbn. lia.
Qed.

Lemma mcdp_is delims c : multiple_char_delimiter_predicate delims c = is_delim delims c.
Proof. apply mcdp_mem. Qed.

Lemma split_n_all (p : ascii -> bool) s : exists toks, split p s 0 = Ok (toks, length toks) /\
  forall n, split_n p s n 0 = Ok (firstn n toks, Nat.min n (length toks)).
Proof.
  destruct (split_n_firstn p s 0%N ltac:(discriminate) 0) as (toks & H & _). exists toks. split; [exact H|]. intros n.
  destruct (split_n_firstn p s 0%N ltac:(discriminate) n) as (toks' & H' & Hn). rewrite H in H'. injection H' as <-. exact Hn.
Qed.

Lemma joined_delims (p : ascii -> bool) sep cs : (exists d, In d sep /\ p d = true) ->
  length cs - 1 <= length (filter p (separated sep (map (fun c => [c]) cs))).
Proof.
  intros (d & Hd & Hp). assert (H1 : 1 <= length (filter p sep)).
  { assert (H : In d (filter p sep)) by (apply filter_In; auto). destruct (filter p sep); [contradiction|cbn; lia]. }
  induction cs as [|c cs IH]; [cbn; lia|]. destruct cs as [|c2 cs]; [cbn; lia|].
  change (separated sep (map (fun c => [c]) (c :: c2 :: cs))) with ([c] ++ sep ++ separated sep (map (fun c => [c]) (c2 :: cs))).
  rewrite !filter_app, !app_length. cbn [length] in *. lia.
Qed.

Lemma separated_nil_sep cs : separated [] (map (fun c : ascii => [c]) cs) = cs.
Proof.
  induction cs as [|c cs IH]; [reflexivity|]. destruct cs as [|c2 cs]; [reflexivity|].
  change (separated [] (map (fun c => [c]) (c :: c2 :: cs))) with ([c] ++ [] ++ separated [] (map (fun c => [c]) (c2 :: cs))).
  now rewrite IH.
Qed.

Section SplitN.
Variables (delimiters data1 data2 : list ascii) (toks : list (nat * nat)).
Hypothesis Hsplit : forall n, split_n (multiple_char_delimiter_predicate delimiters) data2 n 0 = Ok (firstn n toks, Nat.min n (length toks)).

Let body := fun '(i, strlist) =>
       if negb (i <? length data1) then Ok (inr (true, strlist))
       else
         ' (toks, n) <- split_n (multiple_char_delimiter_predicate delimiters) data2 i 0 ;;
         let strlist := strlist ++ map (sub data2) toks in
         if negb (i =? n) then Ok (inr (false, strlist)) else Ok (inl (S i, strlist)).

Lemma split_n_passes : length data1 - 1 <= length toks -> forall m i strlist fuel, length data1 = i + m -> m < fuel ->
  loop fuel body (i, strlist) = Ok (true, strlist ++ concat (map (fun j => firstn j (map (sub data2) toks)) (seq i m))).
Proof.
  intros Hl. induction m as [|m IH]; intros i strlist fuel Hi Hf; (destruct fuel as [|fuel]; [lia|]); cbn [loop]; unfold body at 1.
  - destruct (Nat.ltb_spec i (length data1)); [lia|]. cbn [negb bind seq map concat]. now rewrite app_nil_r.
  - destruct (Nat.ltb_spec i (length data1)); [|lia]. cbn [negb]. rewrite Hsplit. cbn [bind].
    destruct (Nat.eqb_spec i (Nat.min i (length toks))); [|lia]. cbn [negb bind]. rewrite IH by lia.
    cbn [seq map concat]. rewrite <- app_assoc, firstn_map. reflexivity.
Qed.

Lemma split_n_fails : length toks = 1 -> 2 < length data1 -> exists l, loop (S (length data1)) body (0, []) = Ok (false, l).
Proof.
  intros Hl Hd.
  assert (St : forall fuel i l, i <= 1 -> loop (S fuel) body (i, l) = loop fuel body (S i, l ++ map (sub data2) (firstn i toks))).
  { intros fuel i l Hi. cbn [loop]. unfold body at 1. destruct (Nat.ltb_spec i (length data1)); [|lia]. cbn [negb]. rewrite Hsplit. cbn [bind].
    destruct (Nat.eqb_spec i (Nat.min i (length toks))); [reflexivity|lia]. }
  replace (S (length data1)) with (S (S (S (length data1 - 2)))) by lia. rewrite !St by lia.
  cbn [loop]. unfold body at 1. destruct (Nat.ltb_spec 2 (length data1)); [|lia]. cbn [negb]. rewrite Hsplit. cbn [bind].
  destruct (Nat.eqb_spec 2 (Nat.min 2 (length toks))); [lia|]. cbn [negb bind]. eexists. reflexivity.
Qed.
End SplitN.

Lemma test_split_n_ok delimiters data1 : exists b l, test_split_n delimiters data1 = Ok (b, l) /\
  (b = true <-> delimiters <> [] \/ length data1 <= 2) /\
  (delimiters <> [] -> Forall (fun c => ~ In c delimiters) data1 ->
   l = concat (map (fun i => firstn i (spaced (length delimiters) data1)) (seq 0 (length data1)))).
Proof.
  destruct (list_eq_dec ascii_dec data1 []) as [->|Hd1].
  { exists true, []. split; [reflexivity|]. split; [|reflexivity]. split; [intros _; right; cbn; lia|reflexivity]. }
  unfold test_split_n. set (data2 := join (fun c => [c]) delimiters data1). set (p := multiple_char_delimiter_predicate delimiters).
  assert (E2 : data2 = separated delimiters (map (fun c => [c]) data1)) by (unfold data2, join; now rewrite join_onto_ok).
  destruct (split_n_all p data2) as (toks & Hs & Hn).
  destruct (split_default_fields p data2) as (toks' & Hs' & Ht & _ & _ & Hz & Hk). rewrite Hs in Hs'. injection Hs' as <-.
  assert (Hnn : data1 <> [] -> data2 <> []).
  { rewrite E2. destruct data1 as [|c [|c2 cs]]; [congruence|discriminate|discriminate]. }
  specialize (Hnn Hd1). destruct (Hk Hnn) as [Hlen _].
  clearbody data2. destruct (list_eq_dec ascii_dec delimiters []) as [Edl|Hdl].
  - subst delimiters. assert (Hl1 : length toks = 1).
    { rewrite Hlen. f_equal. unfold count_delims. rewrite (filter_ext_in _ (fun _ => false)); [|intros; unfold p; now rewrite mcdp_is].
      clear. induction data2; auto. }
    destruct (Nat.le_gt_cases (length data1) 2) as [Hle|Hgt].
    + exists true. eexists. split; [apply (split_n_passes [] data1 data2 toks Hn) with (m := length data1); lia|]. split; [tauto|congruence].
    + destruct (split_n_fails [] data1 data2 toks Hn Hl1 Hgt) as (l & El). exists false, l. split; [exact El|].
      split; [|congruence]. split; [discriminate|]. intros [Hq|Hq]; [congruence|lia].
  - exists true. eexists. split; [apply (split_n_passes delimiters data1 data2 toks Hn) with (m := length data1); [|lia|lia]|].
    + rewrite Hlen. unfold count_delims. rewrite E2. assert (Hj := joined_delims p delimiters data1). 
      assert (Hex : exists d, In d delimiters /\ p d = true).
      { clear - Hdl. destruct delimiters as [|d0 ds0]; [congruence|]. exists d0. unfold p. rewrite mcdp_is, is_delim_in. split; now left. }
      specialize (Hj Hex). lia.
    + split; [tauto|]. intros _ Hf. cbn [app]. f_equal. apply map_ext. intros i. f_equal.
      destruct (cuts_spaced p delimiters Hdl) with (cs := data1) (pre := @nil ascii) as (toks' & C1 & C2).
      * apply Forall_forall. intros x Hx. unfold p. now rewrite mcdp_is, is_delim_in.
      * exact Hd1.
      * eapply Forall_impl; [|exact Hf]. intros x Hx. unfold p. now rewrite mcdp_is, is_delim_out.
      * cbn [app length] in C1, C2. rewrite <- E2 in C1, C2.
        assert (toks = toks'); [|subst; exact C2].
        destruct Ht as [[Hc _]|[_ Hc]]; [congruence|]. eapply cuts_unique; eassumption.
Qed.
