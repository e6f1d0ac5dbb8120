From Verif Require Import Base Split_Model Split_Spec Split_Proofs Split_Proofs2 Split_Proofs3 Codec_Spec Parse_Model Parse_Spec Parse_Proofs Tkz_Model Tkz_Spec Tkz_Proofs Tkz_Props Grid_Spec Numstats_Spec Numstats_Proofs Match_Model Filter_Model Filter_Spec Filter_Proofs IO_Model IO_Spec IO_Proofs Stl_Model Words_Model Words_Spec.
Local Open Scope nat_scope.

(* ---------- for_each_token ---------- *)
Section Each.
Context {A St : Type}.
Variable f : St -> nat * nat -> outcome St.

Lemma same_sym (a b : itr A) : same a b = same b a.
Proof. unfold same, tok_eq. now rewrite (Nat.eqb_sym (range_first (i_at a))), (Nat.eqb_sym (range_second (i_at a))). Qed.

Lemma each_loop (e : itr A) : forall fuel i out res,
  loop fuel (fun '(i, out) => if same i e then Ok (inr out) else i' <- next i ;; Ok (inl (i', out ++ [deref i]))) (i, out) = Ok res ->
  exists toks, res = out ++ toks /\ forall n x,
  loop fuel (fun '(i, n, x) => if same e i then Ok (inr (n, x))
     else x <- f x (deref i) ;; i <- next i ;; Ok (inl (i, S n, x))) (i, n, x) =
  (x <- call_each f toks x ;; Ok (n + length toks, x)).
Proof.
  induction fuel as [|fuel IH]; intros i out res E; [discriminate|]. cbn [loop] in E |- *. rewrite same_sym in E.
  destruct (same e i) eqn:Q.
  - injection E as <-. exists []. split; [now rewrite app_nil_r|]. intros n x. cbn [call_each bind length]. now rewrite Nat.add_0_r.
  - destruct (next i) as [i'| |] eqn:En; cbn [bind] in E; try discriminate.
    destruct (IH _ _ _ E) as (toks & -> & H). exists (deref i :: toks). split; [now rewrite <- app_assoc|].
    intros n x. cbn [call_each length]. destruct (f x (deref i)) as [x'| |]; cbn [bind]; [|reflexivity|reflexivity].
    rewrite H. now rewrite Nat.add_succ_r.
Qed.

Lemma for_each_token_ok (p : A -> bool) s0 opt z s x : shaped p s0 opt z ->
  has_bit opt 0 && has_bit opt 1 && has_bit opt 2 = false ->
  exists z' toks, shaped p s opt z' /\ split p s opt = Ok (toks, length toks) /\
    for_each_token f z s x = (x <- call_each f toks x ;; Ok (length toks, x, z')).
Proof.
  intros Hz O. destruct (assign_shaped p s0 opt z s Hz) as (z' & E & Hz').
  destruct (Split_Props.C04_tokenizer_is_split A p s opt O) as (toks & T & S). rewrite <- (walk_shaped p s opt z' Hz') in T.
  exists z', toks. split; [exact Hz'|]. split; [exact S|]. unfold for_each_token. rewrite E. cbn [bind].
  unfold walk in T. destruct Hz' as (_ & _ & Es & _). rewrite Es in T. destruct (each_loop _ _ _ _ _ T) as (toks' & -> & H).
  rewrite H. cbn [app]. now destruct (call_each f toks' x).
Qed.
End Each.

(* ---------- the delimiters ---------- *)
Lemma gap_is c : multiple_char_delimiter_predicate delimiters c = gap c.
Proof. rewrite mcdp_mem. destruct c as [[] [] [] [] [] [] [] []]; vm_compute; reflexivity. Qed.
Lemma gaps_is c : is_delim gaps c = gap c.
Proof.
  unfold gaps. match goal with |- context [filter gap ?l] => let t := eval vm_compute in (filter gap l) in change (filter gap l) with t end.
  destruct c as [[] [] [] [] [] [] [] []]; vm_compute; reflexivity.
Qed.
Lemma newline_is_gap : gap (ascii_of_nat 10) = true.
Proof. reflexivity. Qed.
Local Opaque gap gaps delimiters not_of_interest_list.
Lemma newline_gap : is_delim gaps (ascii_of_nat 10) = true.
Proof. rewrite gaps_is. exact newline_is_gap. Qed.

Lemma split_gaps s : exists toks, split (multiple_char_delimiter_predicate delimiters) s 1 = Ok (toks, length toks) /\
  tokens_of (is_delim gaps) s (fun f e => f) (fun f e => e) toks.
Proof.
  destruct (split_tokens (multiple_char_delimiter_predicate delimiters) s 1) as (toks & E & H). exists toks. split; [exact E|].
  eapply tokens_of_ext; [|exact H]. intros c. now rewrite gap_is, gaps_is.
Qed.

(* ---------- the tokens of a line ---------- *)
Section Line.
Variable d : list ascii.
Variable g : ascii -> bool.
Hypothesis Hg : forall c, is_delim d c = g c.

Definition closing (l : list ascii) : list (list ascii) := match l with [] => [[]] | _ => empty_if (ends_with g l) end.
Lemma ends_app a b : b <> [] -> ends_with g (a ++ b) = ends_with g b.
Proof.
  intros H. unfold ends_with. rewrite rev_app_distr. destruct (rev b) as [|c r] eqn:E; [|reflexivity].
  apply (f_equal (@rev _)) in E. rewrite rev_involutive in E. now cbn in E.
Qed.
Lemma closing_app a b : (b = [] -> ends_with g a = true) -> closing (a ++ b) = closing b.
Proof.
  intros H. destruct b as [|c b].
  - rewrite app_nil_r. specialize (H eq_refl). unfold closing. destruct a; [reflexivity|]. now rewrite H.
  - unfold closing at 1. rewrite ends_app by discriminate. now destruct (a ++ c :: b) eqn:E; [destruct a|].
Qed.
Lemma no_gap_end l : Forall (fun c => is_delim d c = false) l -> ends_with g l = false.
Proof.
  intros H. unfold ends_with. apply Forall_rev in H. destruct H as [|c r H _]; [reflexivity|]. cbn. now rewrite <- Hg.
Qed.
Lemma all_gap_end l : l <> [] -> Forall (fun c => is_delim d c = true) l -> ends_with g l = true.
Proof.
  intros Hn H. unfold ends_with. destruct (rev l) as [|c r] eqn:E.
  - apply (f_equal (@rev _)) in E. rewrite rev_involutive in E. now cbn in E.
  - cbn. rewrite <- Hg. rewrite Forall_forall in H. apply H. apply in_rev. rewrite E. now left.
Qed.

Lemma pieces_gaps l s : Forall (fun c => is_delim d c = true) l -> pieces d (l ++ s) = pieces d s.
Proof. induction 1 as [|c l H _ IH]; cbn [app]; [reflexivity|]. now rewrite pieces_skip. Qed.

Lemma rest_cut s a f : a <= f -> skipn a s = sub (s : list ascii) (a, f) ++ skipn f s.
Proof.
  intros H. unfold sub. cbn [fst snd]. rewrite <- (firstn_skipn (f - a) (skipn a s)) at 1. rewrite skipn_skipn. do 2 f_equal. lia.
Qed.

Lemma cuts_texts s : forall toks a, cuts (is_delim d) s (fun f e => f) (fun f e => e) a toks ->
  map (sub s) toks = empty_if (starts_with g (skipn a s)) ++ pieces d (skipn a s) ++ closing (skipn a s).
Proof.
  assert (AN : forall a b, a <= b -> b <= length s -> all_in s (fun x => negb (is_delim d x)) a b -> Forall (fun c => is_delim d c = false) (sub s (a, b))).
  { intros a b H1 H2 H. eapply Forall_impl; [|apply (all_in_forall s (fun x => negb (is_delim d x)) a b); eauto]. intros x Hx. cbn beta in Hx. now destruct (is_delim d x). }
  assert (AG : forall a b, a <= b -> b <= length s -> all_in s (is_delim d) a b -> Forall (fun c => is_delim d c = true) (sub s (a, b))).
  { intros a b H1 H2 H. apply (all_in_forall s (is_delim d) a b); eauto. }
  intros toks a H. induction H as [a Ha Hn|a f e toks Haf Hfe He Hn Hd Hx H IH].
  - cbn [map]. assert (E : sub s (a, length s) = skipn a s) by (unfold sub; cbn [fst snd]; rewrite firstn_all2; [reflexivity|rewrite skipn_length; lia]).
    specialize (AN a (length s) Ha (Nat.le_refl _) Hn). rewrite E in *. clear E. destruct (skipn a s) as [|c t]; [reflexivity|].
    assert (S0 : starts_with g (c :: t) = false) by (cbn; rewrite <- Hg; exact (Forall_inv AN)).
    rewrite S0. cbn [empty_if app closing]. rewrite (no_gap_end _ AN). cbn [empty_if].
    rewrite <- (app_nil_r (c :: t)) at 2. rewrite pieces_run; [reflexivity|discriminate|exact AN|discriminate].
  - specialize (AN a f Haf ltac:(lia) Hn). specialize (AG f e ltac:(lia) He Hd). cbn [map]. rewrite IH.
    assert (NS : starts_with g (skipn e s) = false).
    { destruct (skipn e s) as [|c t] eqn:Et; [reflexivity|]. destruct Hx as [->|(x & Ex & Hx)]; [now rewrite skipn_all in Et|].
      rewrite (skipn_nth_cons _ _ _ Ex) in Et. injection Et as <- <-. cbn. now rewrite <- Hg. }
    rewrite NS. cbn [empty_if app].
    assert (NE : sub s (f, e) <> []) by (intros Z; apply (f_equal (@length _)) in Z; rewrite sub_length in Z by lia; cbn in Z; lia).
    assert (Ef : skipn f s = sub s (f, e) ++ skipn e s) by (apply rest_cut; lia).
    assert (Ec : closing (skipn a s) = closing (skipn e s)).
    { rewrite (rest_cut s a f) by lia. rewrite Ef, app_assoc. apply closing_app. intros _. rewrite ends_app by exact NE. now apply all_gap_end. }
    rewrite Ec. rewrite (rest_cut s a f) by lia.
    assert (Hs : forall c r, skipn f s = c :: r -> is_delim d c = true).
    { intros c r Ecr. rewrite Ef in Ecr. destruct (sub s (f, e)) as [|c' l]; [now elim NE|]. injection Ecr as <- _. exact (Forall_inv AG). }
    assert (Pf : pieces d (skipn f s) = pieces d (skipn e s)) by (rewrite Ef; now apply pieces_gaps).
    destruct (Nat.eq_dec a f) as [->|N].
    + rewrite sub_empty by lia. cbn [app]. rewrite Pf.
      destruct (skipn f s) as [|c r] eqn:Er; [destruct (sub s (f, e)); [now elim NE|discriminate]|].
      assert (S1 : starts_with g (c :: r) = true) by (cbn; rewrite <- Hg; now apply (Hs c r)). now rewrite S1.
    + assert (Nw : sub s (a, f) <> []) by (intros Z; apply (f_equal (@length _)) in Z; rewrite sub_length in Z by lia; cbn in Z; lia).
      rewrite pieces_run by auto. rewrite Pf. destruct (sub s (a, f)) as [|c w]; [now elim Nw|]. cbn [app starts_with].
      rewrite <- Hg, (Forall_inv AN). reflexivity.
Qed.

End Line.

Lemma tokens_framed s toks : tokens_of (is_delim gaps) s (fun f e => f) (fun f e => e) toks -> map (sub s) toks = framed s.
Proof.
  intros [[-> ->]|[Hn H]]; [reflexivity|]. rewrite (cuts_texts gaps gap gaps_is s toks 0 H). cbn [skipn]. unfold framed, text_words. do 2 f_equal.
  destruct s; [congruence|reflexivity].
Qed.

(* ---------- the first program ---------- *)
Lemma insert_strings s toks : forall c,
  insert_ranges conv_string [] (fun c v => c ++ [v]) s toks c = Ok (c ++ map (sub s) toks).
Proof.
  unfold insert_ranges. induction toks as [|r toks IH]; intros c; cbn [fold_left map]; [now rewrite app_nil_r|].
  unfold insert_range at 2. cbn [conv_string bind]. rewrite IH. now rewrite <- app_assoc.
Qed.

Lemma lines1 ls : forall c, fold_left (fun c s => c <- c ;; parse_line1 (multiple_char_delimiter_predicate delimiters) c s) ls (Ok c) =
  Ok (c ++ concat (map framed ls)).
Proof.
  induction ls as [|l ls IH]; intros c; cbn [fold_left map concat]; [now rewrite app_nil_r|].
  cbn [bind]. unfold parse_line1 at 2. destruct (split_gaps l) as (toks & -> & H). cbn [bind]. rewrite insert_strings, (tokens_framed _ _ H), IH.
  now rewrite app_assoc.
Qed.

Lemma words_nonempty l : Forall (fun w => w <> []) (text_words l).
Proof.
  unfold text_words. induction l as [|c l IH]; cbn [pieces]; [constructor|]. destruct (is_delim gaps c); [exact IH|]. cbv zeta.
  destruct l as [|c' l]; [repeat constructor; discriminate|]. destruct (is_delim gaps c'); [constructor; [discriminate|exact IH]|].
  destruct (pieces gaps (c' :: l)); [repeat constructor; discriminate|]. inversion IH. constructor; [discriminate|assumption].
Qed.
Lemma filter_words l : filter nonempty (text_words l) = text_words l.
Proof. induction (words_nonempty l) as [|w ws H _ IH]; cbn [filter]; [reflexivity|]. destruct w; [congruence|]. cbn [nonempty]. now rewrite IH. Qed.
Lemma filter_framed l : filter nonempty (framed l) = text_words l.
Proof.
  unfold framed. rewrite !filter_app, filter_words. destruct (starts_with gap l), (ends_with gap l); cbn [empty_if filter nonempty app]; now rewrite app_nil_r.
Qed.
Lemma lines_words text ls : lines_of text ls -> concat (map text_words ls) = text_words text.
Proof.
  unfold text_words. induction 1 as [|l Hl Hn|l s ls Hn H IH]; cbn [map concat]; [reflexivity|apply app_nil_r|].
  rewrite IH. symmetry. apply pieces_app, newline_gap.
Qed.
Lemma filter_concat {T} (p : T -> bool) ls : filter p (concat ls) = concat (map (filter p) ls).
Proof. induction ls as [|l ls IH]; cbn [concat map]; [reflexivity|]. now rewrite filter_app, IH. Qed.

(* ---------- the second program ---------- *)
Lemma selects_map {R T} (g : R -> T) (P : T -> Prop) l kept : selects (fun r => P (g r)) l kept -> selects P (map g l) (map g kept).
Proof. induction 1; cbn [map]; now constructor. Qed.
Lemma selects_app {R} (P : R -> Prop) a ka b kb : selects P a ka -> selects P b kb -> selects P (a ++ b) (ka ++ kb).
Proof. induction 1; cbn [app]; auto; intros; constructor; auto. Qed.

Definition seven_bit (l : list ascii) : Prop := Forall (fun c => nat_of_ascii c < 128) l.

Lemma listed_ascii : Forall seven_bit not_of_interest_list.
Proof.
  assert (E : forallb (forallb (fun c => nat_of_ascii c <? 128)) not_of_interest_list = true) by (vm_compute; reflexivity).
  rewrite forallb_forall in E. apply Forall_forall. intros l Hl. specialize (E l Hl). rewrite forallb_forall in E.
  apply Forall_forall. intros c Hc. apply Nat.ltb_lt. now apply E.
Qed.

Lemma filter_token_ok s c r : seven_bit (sub s r) -> exists kept,
  selects (fun w => ~ one_of_ignoring_case not_of_interest_list w) [sub s r] kept /\ filter_token s c r = Ok (c ++ kept).
Proof.
  intros Hr.
  destruct (ci_ok not_of_interest_list false s [r] listed_ascii ltac:(constructor; [exact Hr|constructor]) []) as (kept & E & H).
  exists (map (sub s) kept). split; [exact (selects_map (sub s) _ _ _ H)|].
  cbn [for_tokens app] in E. unfold filter_token. destruct (filter_on_match_range _ _ _ _ _ _) as [k| |]; cbn [bind] in E |- *; try discriminate.
  injection E as ->. apply insert_strings.
Qed.

Lemma call_filter s toks : Forall (fun r => seven_bit (sub s r)) toks -> forall c, exists kept,
  selects (fun w => ~ one_of_ignoring_case not_of_interest_list w) (map (sub s) toks) kept /\
  call_each (filter_token s) toks c = Ok (c ++ kept).
Proof.
  induction 1 as [|r toks Hr _ IH]; intros c; cbn [call_each map].
  - exists []. split; [constructor|now rewrite app_nil_r].
  - destruct (filter_token_ok s c r Hr) as (k1 & S1 & ->). cbn [bind]. destruct (IH (c ++ k1)) as (k2 & S2 & ->).
    exists (k1 ++ k2). split; [exact (selects_app _ _ _ _ _ S1 S2)|now rewrite app_assoc].
Qed.

Lemma seven_sub s r : seven_bit s -> seven_bit (sub s r).
Proof.
  intros H. unfold seven_bit in *. rewrite Forall_forall in *. intros c Hc. apply H. unfold sub in Hc.
  assert (I : forall n (l : list ascii), In c (firstn n l) -> In c l) by (intros n l Hi; rewrite <- (firstn_skipn n l); apply in_or_app; now left).
  assert (J : forall n (l : list ascii), In c (skipn n l) -> In c l) by (intros n l Hi; rewrite <- (firstn_skipn n l); apply in_or_app; now right).
  eauto.
Qed.

Lemma selects_fun {R} (P : R -> Prop) l a : selects P l a -> forall b, selects P l b -> a = b.
Proof. induction 1 as [|r l k Hr _ IH|r l k Hr _ IH]; intros b Hb; inversion Hb; subst; try contradiction; [reflexivity|f_equal|]; auto. Qed.

(* an empty token is a listed one, so what else is kept are words that are not listed *)
Lemma blocked_empty : one_of_ignoring_case not_of_interest_list [].
Proof. exists []. split; [vm_compute; tauto|reflexivity]. Qed.
Lemma listed w : w <> [] -> (one_of_ignoring_case not_of_interest_list w <-> one_of_ignoring_case stop_words w).
Proof.
  intros Hw. assert (E : not_of_interest_list = stop_words ++ [[]]) by reflexivity. rewrite E. unfold one_of_ignoring_case.
  split; intros (p & Hi & Hp); exists p; (split; [|exact Hp]).
  - apply in_app_or in Hi. destruct Hi as [Hi|[<-|[]]]; [exact Hi|]. destruct w; [congruence|discriminate].
  - apply in_or_app. now left.
Qed.
Lemma selects_words l kept : Forall (fun w => w <> []) l ->
  selects (fun w => ~ one_of_ignoring_case not_of_interest_list w) l kept ->
  selects (fun w => ~ one_of_ignoring_case stop_words w) l kept.
Proof.
  intros Hl H. induction H as [|r l k Hr _ IH|r l k Hr _ IH]; inversion Hl; subst; constructor; auto; now rewrite <- listed.
Qed.
Lemma selects_framed l kept : selects (fun w => ~ one_of_ignoring_case not_of_interest_list w) (framed l) kept ->
  selects (fun w => ~ one_of_ignoring_case stop_words w) (text_words l) kept.
Proof.
  intros H. unfold framed in H.
  assert (H1 : selects (fun w => ~ one_of_ignoring_case not_of_interest_list w) (text_words l ++ empty_if (ends_with gap l)) kept).
  { destruct (starts_with gap l); cbn [empty_if app] in H; [|exact H]. inversion H as [|? ? ? Hr|]; subst; [elim Hr; apply blocked_empty|assumption]. }
  apply selects_words; [apply words_nonempty|]. clear H. destruct (ends_with gap l); cbn [empty_if] in H1; [|now rewrite app_nil_r in H1].
  revert kept H1. generalize (text_words l) as ws. induction ws as [|w ws IH]; intros kept H; cbn [app] in H.
  - inversion H as [|? ? ? Hr|? ? ? Hr Ht]; subst; [elim Hr; apply blocked_empty|exact Ht].
  - inversion H; subst; constructor; auto.
Qed.

Lemma lines2 ls : Forall seven_bit ls -> forall s0 z c, shaped (multiple_char_delimiter_predicate delimiters) s0 1 z ->
  exists z' kept, selects (fun w => ~ one_of_ignoring_case stop_words w) (concat (map text_words ls)) kept /\
    fold_left (fun st s => st <- st ;; parse_line2 st s) ls (Ok (z, c)) = Ok (z', c ++ kept).
Proof.
  induction 1 as [|l ls Hl _ IH]; intros s0 z c Hz; cbn [fold_left map concat].
  - exists z, []. split; [constructor|now rewrite app_nil_r].
  - cbn [bind]. unfold parse_line2 at 2.
    destruct (for_each_token_ok (filter_token l) _ s0 1 z l c Hz eq_refl) as (z1 & toks & Hz1 & E & ->).
    destruct (split_gaps l) as (toks' & E' & Ht). rewrite E in E'. assert (toks' = toks) by congruence. subst toks'.
    destruct (call_filter l toks ltac:(apply Forall_forall; intros r _; now apply seven_sub) c) as (k1 & S1 & ->). cbn [bind].
    rewrite (tokens_framed _ _ Ht) in S1. apply selects_framed in S1.
    destruct (IH l z1 (c ++ k1) Hz1) as (z2 & k2 & S2 & ->). exists z2, (k1 ++ k2).
    split; [now apply selects_app|now rewrite app_assoc].
Qed.

Lemma lines_seven text ls : lines_of text ls -> seven_bit text -> Forall seven_bit ls.
Proof.
  unfold seven_bit. induction 1 as [|l Hl Hn|l s ls Hn H IH]; intros Ht; [constructor|constructor; [exact Ht|constructor]|].
  apply Forall_app in Ht. destruct Ht as [H1 H2]. constructor; [exact H1|]. apply IH. now inversion H2.
Qed.

Lemma call_each_pure {St} (g : St -> nat * nat -> St) toks : forall x, call_each (fun x r => Ok (g x r)) toks x = Ok (fold_left g toks x).
Proof. induction toks as [|r toks IH]; intros x; cbn [call_each fold_left bind]; auto. Qed.
