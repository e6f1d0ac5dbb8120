From Verif Require Import Base Split_Model Split_Spec Split_Proofs Split_Proofs2 Split_Proofs3 Parse_Spec Parse_Model Parse_Proofs KV_Proofs Grid_Spec Grid_Model Grid_Rep Grid_Proofs.
Local Open Scope nat_scope.

Lemma loop_sim {S1 S2 R1 R2} (b1 : S1 -> outcome (S1 + R1)) (b2 : S2 -> outcome (S2 + R2)) (RS : S1 -> S2 -> Prop) (RR : R1 -> R2 -> Prop) :
  (forall s1 s2, RS s1 s2 -> match b2 s2 with
     | Ok (inl s2') => exists s1', b1 s1 = Ok (inl s1') /\ RS s1' s2'
     | Ok (inr r2) => exists r1, b1 s1 = Ok (inr r1) /\ RR r1 r2
     | _ => True end) ->
  forall fuel s1 s2, RS s1 s2 -> match loop fuel b2 s2 with Ok r2 => exists r1, loop fuel b1 s1 = Ok r1 /\ RR r1 r2 | _ => True end.
Proof.
  intros H. induction fuel as [|fuel IH]; intros s1 s2 Hs; cbn [loop]; [exact I|].
  specialize (H s1 s2 Hs). destruct (b2 s2) as [[s2'|r2]| |]; auto.
  - destruct H as (s1' & -> & Hs'). now apply IH.
  - destruct H as (r1 & -> & Hr). eauto.
Qed.

Section Quotes.
Variables (cd : list ascii) (q0 : bool) (s : list ascii).
Notation mdp := (multiple_char_delimiter_predicate cd).
Notation step := (dq_step mdp).
Notation ms := (marked cd q0 s).

(* the state before position i *)
Definition st_at (i : nat) : bool := xorb q0 (Nat.odd (quotes_in (firstn i s))).
Lemma marked_length q : forall l, length (marked cd q l) = length l.
Proof. intros l. revert q. induction l as [|c l IH]; intros q; cbn [marked]; [reflexivity|]. destruct (Ascii.eqb c quote); cbn [length]; now rewrite IH. Qed.
Lemma quotes_app a b : quotes_in (a ++ b) = quotes_in a + quotes_in b.
Proof. induction a as [|c a IH]; cbn [app quotes_in]; [reflexivity|]. rewrite IH. lia. Qed.

Lemma step_marked q c b q' : step q c = (q', b) ->
  b = (if Ascii.eqb c quote then false else negb q && is_delim cd c) /\ q' = xorb q (Nat.odd (quotes_in [c])).
Proof.
  unfold dq_step. change dquote with quote. rewrite (Ascii.eqb_sym quote c). cbn [quotes_in]. destruct (Ascii.eqb c quote); intros E.
  - injection E as <- <-. split; [reflexivity|]. destruct q; reflexivity.
  - rewrite mcdp_mem in E. change (existsb (fun d => Ascii.eqb d c) cd) with (is_delim cd c) in E. destruct q; injection E as <- <-; split; reflexivity.
Qed.
Lemma marked_nth q l : forall i c, nth_error l i = Some c ->
  nth_error (marked cd q l) i = Some (c, if Ascii.eqb c quote then false else negb (xorb q (Nat.odd (quotes_in (firstn i l)))) && is_delim cd c).
Proof.
  revert q. induction l as [|x l IH]; intros q i c Hi; [destruct i; discriminate|]. destruct i as [|i].
  - injection Hi as ->. cbn [marked firstn quotes_in]. rewrite xorb_false_r. destruct (Ascii.eqb c quote); reflexivity.
  - cbn [nth_error] in Hi. cbn [marked firstn quotes_in].
    destruct (Ascii.eqb x quote) eqn:Ex; cbn [nth_error]; rewrite (IH _ _ _ Hi).
    + do 3 f_equal. rewrite Nat.add_1_l, Nat.odd_succ, <- Nat.negb_odd. destruct q, (Nat.odd (quotes_in (firstn i l))); reflexivity.
    + reflexivity.
Qed.
Lemma st_S i c : nth_error s i = Some c -> st_at (S i) = xorb (st_at i) (Nat.odd (quotes_in [c])).
Proof.
  intros Hi. unfold st_at. rewrite (firstn_S_nth _ _ _ Hi), quotes_app, Nat.odd_add, xorb_assoc. reflexivity.
Qed.
Lemma step_at i c : nth_error s i = Some c -> exists b, step (st_at i) c = (st_at (S i), b) /\ nth_error ms i = Some (c, b).
Proof.
  intros Hi. destruct (step (st_at i) c) as [q' b] eqn:E. exists b. destruct (step_marked _ _ _ _ E) as [-> ->].
  split; [now rewrite (st_S _ _ Hi)|]. apply marked_nth. exact Hi.
Qed.
(* a delimiter outside quotes is one whenever it is looked at again *)
Lemma step_again i c : nth_error ms i = Some (c, true) -> step (st_at (S i)) c = (st_at (S i), true).
Proof.
  intros Hm. assert (Hlt : i < length s) by (rewrite <- (marked_length q0 s); eapply nth_error_some_lt; eauto).
  destruct (nth_error s i) as [c'|] eqn:Hi; [|apply nth_error_None in Hi; lia].
  pose proof (marked_nth q0 s i c' Hi) as E. rewrite Hm in E. injection E as <- E. fold (st_at i) in E.
  destruct (Ascii.eqb c quote) eqn:Eq; [discriminate|]. destruct (st_at i) eqn:Est; [discriminate|]. cbn [negb andb] in E.
  rewrite (st_S _ _ Hi), Est. cbn [quotes_in]. rewrite Eq. cbn [plus Nat.odd Nat.even xorb negb].
  unfold dq_step. change dquote with quote. rewrite Ascii.eqb_sym, Eq, mcdp_mem. change (existsb (fun d => Ascii.eqb d c) cd) with (is_delim cd c). now rewrite <- E.
Qed.

Definition okstate (st : bool * nat * nat * list tok * nat) (st' : nat * nat * list tok * nat) : Prop :=
  let '(q, f, i, out, n) := st in st' = (f, i, out, n) /\ q = st_at i /\ f <= i <= length s /\
    (f = i -> i = 0 \/ exists c, nth_error ms (i - 1) = Some (c, true)).

Lemma last_sim q f i out n toks k : okstate (q, f, i, out, n) (f, i, out, n) -> i = length s ->
  last_token (@snd ascii bool) ms f i out n = Ok (toks, k) -> last_token_s step s q f i out n = Ok (st_at (length s), (toks, k)).
Proof.
  intros (_ & -> & Hf & Hfi) -> . unfold last_token, last_token_s. destruct (Nat.eqb_spec f (length s)) as [->|Hne]; cbn [negb].
  - destruct (length s) as [|j] eqn:El; [discriminate|]. destruct (Hfi eq_refl) as [H0|(c & Hc)]; [discriminate|].
    cbn [Nat.sub] in Hc. rewrite Nat.sub_0_r in Hc. rewrite (rd_nth _ _ _ Hc). cbn [bind snd]. intros E. injection E as <- <-.
    assert (Hs : nth_error s j = Some c).
    { destruct (nth_error s j) as [c'|] eqn:Hj; [|apply nth_error_None in Hj; lia]. pose proof (marked_nth q0 s j c' Hj) as E. rewrite Hc in E. injection E as <- _. reflexivity. }
    rewrite (rd_nth _ _ _ Hs). cbn [bind]. rewrite (step_again _ _ Hc). reflexivity.
  - intros E. injection E as <- <-. reflexivity.
Qed.

Lemma read_sim i : i < length s -> exists c b, rd s i = Ok c /\ rd ms i = Ok (c, b) /\ step (st_at i) c = (st_at (S i), b) /\ nth_error ms i = Some (c, b).
Proof.
  intros Hlt. destruct (nth_error s i) as [c|] eqn:Hi; [|apply nth_error_None in Hi; lia].
  destruct (step_at _ _ Hi) as (b & E1 & E2). exists c, b. split; [now apply rd_nth|]. split; [now apply rd_nth|]. auto.
Qed.

Lemma skip_pre_sim i c : nth_error ms i = Some (c, true) -> match skip_delims_pre (@snd ascii bool) ms i with
  | Ok j => exists q, skip_delims_pre_s step s (st_at (S i)) i = Ok (q, j) /\ i < j <= length s /\ q = st_at (if j =? length s then j else S j) /\
      exists c', nth_error ms (j - 1) = Some (c', true)
  | _ => True end.
Proof.
  intros Hm. unfold skip_delims_pre, skip_delims_pre_s. rewrite marked_length.
  match goal with |- match loop _ ?f2 _ with _ => _ end => set (b2 := f2) end.
  match goal with |- context [loop _ ?f1 (st_at (S i), i)] => set (b1 := f1) end.
  pose proof (loop_sim b1 b2
    (fun s1 s2 => let '(q, k) := s1 in s2 = k /\ q = st_at (S k) /\ i <= k < length s /\ exists c, nth_error ms k = Some (c, true))
    (fun r1 r2 => let '(q, j) := r1 in r2 = j /\ i < j <= length s /\ q = st_at (if j =? length s then j else S j) /\ exists c', nth_error ms (j - 1) = Some (c', true))) as L.
  assert (Hi : i < length s) by (rewrite <- (marked_length q0 s); eapply nth_error_some_lt; eauto).
  specialize (fun H => L H (S (length s)) (st_at (S i), i) i). 
  destruct (loop (S (length s)) b2 i) as [j| |] eqn:E2; auto.
  destruct L as ([q j'] & E1 & -> & Hj & Hq & Hc).
  - intros [q k] k' (-> & -> & Hk & (ck & Hck)). unfold b2, b1. cbv zeta. destruct (Nat.eqb_spec (S k) (length s)) as [He|He].
    + eexists. split; [reflexivity|]. split; [reflexivity|]. split; [lia|]. rewrite (proj2 (Nat.eqb_eq _ _) He). split; [reflexivity|].
      exists ck. replace (S k - 1) with k by lia. exact Hck.
    + destruct (read_sim (S k) ltac:(lia)) as (c' & b & E1 & E3 & E4 & E5). rewrite E1, E3. cbn [bind snd]. rewrite E4. destruct b.
      * eexists. split; [reflexivity|]. split; [reflexivity|]. split; [reflexivity|]. split; [lia|]. eauto.
      * eexists. split; [reflexivity|]. split; [reflexivity|]. split; [lia|]. rewrite (proj2 (Nat.eqb_neq _ _)) by lia. split; [reflexivity|].
        exists ck. replace (S k - 1) with k by lia. exact Hck.
  - split; [reflexivity|]. split; [reflexivity|]. split; [lia|]. eauto.
  - exists q. auto.
Qed.

Lemma split_s_ok opt : (opt = 0 \/ opt = 1 \/ opt = 2)%N ->
  exists toks, split_s step opt q0 s = Ok (st_at (length s), (toks, length toks)) /\
    tokens_of (@snd ascii bool) ms (spec_tok_end opt) (spec_next_start opt) toks.
Proof.
  intros Hopt. destruct (split_tokens (@snd ascii bool) ms opt) as (toks & E & Ht). exists toks. split; [|exact Ht].
  destruct (Nat.eq_dec (length s) 0) as [H0|H0].
  { destruct s; [|discriminate]. cbn in E. injection E as <-. cbn. unfold st_at. cbn. now rewrite xorb_false_r. }
  unfold split_s. unfold split in E. rewrite marked_length in E. rewrite (proj2 (Nat.eqb_neq _ _) H0) in *.
  assert (Hinit : okstate (q0, 0, 0, [], 0) (0, 0, [], 0)).
  { split; [reflexivity|]. split; [unfold st_at; cbn; now rewrite xorb_false_r|]. split; [lia|auto]. }
  assert (Main : forall b1 b2 fuel,
    (forall s1 s2, okstate s1 s2 -> match b2 s2 with
     | Ok (inl s2') => exists s1', b1 s1 = Ok (inl s1') /\ okstate s1' s2'
     | Ok (inr r2) => exists r1, b1 s1 = Ok (inr r1) /\ okstate r1 r2 /\ snd (fst (fst r2)) = length s
     | _ => True end) ->
    ('(f, i, out, n) <- loop fuel b2 (0, 0, [], 0) ;; last_token (@snd ascii bool) ms f i out n) = Ok (toks, length toks) ->
    ('(q, f, i, out, n) <- loop fuel b1 (q0, 0, 0, [], 0) ;; last_token_s step s q f i out n) = Ok (st_at (length s), (toks, length toks))).
  { intros b1 b2 fuel Hsim E'. pose proof (loop_sim b1 b2 okstate (fun r1 r2 => okstate r1 r2 /\ snd (fst (fst r2)) = length s) Hsim fuel _ _ Hinit) as L.
    destruct (loop fuel b2 (0, 0, [], 0)) as [[[[f i] out] n]| |]; try discriminate. destruct L as ([[[[q f'] i'] out'] n'] & -> & Hst & Hi). cbn [bind fst snd] in *.
    pose proof Hst as (Heq & _). injection Heq as -> -> -> ->. apply (last_sim _ _ _ _ _ _ _ Hst Hi E'). }
  destruct Hopt as [->|[->| ->]]; cbn [perform_compress_delimiters perform_include_1st_delimiter perform_include_all_delimiters] in *;
    change (perform_compress_delimiters 0) with false in *; change (perform_include_1st_delimiter 0) with false in *; change (perform_include_all_delimiters 0) with false in *;
    change (perform_compress_delimiters 1) with true in *; change (perform_include_1st_delimiter 1) with false in *; change (perform_include_all_delimiters 1) with false in *;
    change (perform_compress_delimiters 2) with false in *; change (perform_include_1st_delimiter 2) with true in *; change (perform_include_all_delimiters 2) with false in *;
    cbn [negb andb orb] in *.
  - refine (Main _ _ _ _ E). intros [[[[q f] i] out] n] s2 (-> & -> & Hf & Hfi).
    destruct (Nat.eqb_spec i (length s)) as [He|He].
    + eexists. split; [reflexivity|]. split; [split; auto|exact He].
    + destruct (read_sim i ltac:(lia)) as (c & b & E1 & E2 & E3 & E4). rewrite E1, E2. cbn [bind snd]. rewrite E3. destruct b.
      * eexists. split; [reflexivity|]. split; [reflexivity|]. split; [reflexivity|]. split; [lia|]. intros _. right. replace (S i - 1) with i by lia. eauto.
      * eexists. split; [reflexivity|]. split; [reflexivity|]. split; [reflexivity|]. split; [lia|]. lia.
  - unfold split_compress_s. unfold split_compress_delimiters in E. rewrite marked_length in E.
    refine (Main _ _ _ _ E). intros [[[[q f] i] out] n] s2 (-> & -> & Hf & Hfi).
    destruct (Nat.eqb_spec i (length s)) as [He|He].
    + eexists. split; [reflexivity|]. split; [split; auto|exact He].
    + destruct (read_sim i ltac:(lia)) as (c & b & E1 & E2 & E3 & E4). rewrite E1, E2. cbn [bind snd]. rewrite E3. destruct b.
      * pose proof (skip_pre_sim i c E4) as Hsk. destruct (skip_delims_pre (@snd ascii bool) ms i) as [j| |]; cbn [bind]; auto.
        destruct Hsk as (q & E5 & Hj & -> & Hc'). rewrite E5. cbn [bind]. eexists. split; [reflexivity|]. split; [reflexivity|]. split; [reflexivity|].
        destruct (Nat.eqb_spec j (length s)) as [Hjl|Hjl]; (split; [lia|]); [auto|lia].
      * eexists. split; [reflexivity|]. split; [reflexivity|]. split; [reflexivity|]. split; [lia|]. lia.
  - refine (Main _ _ _ _ E). intros [[[[q f] i] out] n] s2 (-> & -> & Hf & Hfi).
    destruct (Nat.eqb_spec i (length s)) as [He|He].
    + eexists. split; [reflexivity|]. split; [split; auto|exact He].
    + destruct (read_sim i ltac:(lia)) as (c & b & E1 & E2 & E3 & E4). rewrite E1, E2. cbn [bind snd]. rewrite E3. destruct b.
      * cbn [bind]. eexists. split; [reflexivity|]. split; [reflexivity|]. split; [reflexivity|]. split; [lia|]. intros _. right. replace (S i - 1) with i by lia. eauto.
      * eexists. split; [reflexivity|]. split; [reflexivity|]. split; [reflexivity|]. split; [lia|]. lia.
Qed.
End Quotes.

(* ------------------------------------------------------------------ *)
(* loading with quotes *)
Definition quote_splitter (cd : list ascii) (opt : N) : bool -> list ascii -> outcome (bool * (list tok * nat)) :=
  fun q s => split_s (dq_step (multiple_char_delimiter_predicate cd)) opt q s.

Lemma quoted_processed cd opt buf pieces : (opt = 0 \/ opt = 1 \/ opt = 2)%N -> Forall (fun r => fst r <= snd r /\ snd r <= length buf) pieces ->
  forall q, exists rs q', processed (quote_splitter cd opt) buf q pieces rs q' /\
    quoted_cells cd opt q (filter nonempty (map (sub buf) pieces)) (map (map (sub buf)) rs) /\ within buf rs.
Proof.
  intros Hopt. induction 1 as [|r pieces [Hr1 Hr2] _ IH]; intros q.
  - exists [], q. split; [|split]; constructor.
  - destruct r as [b e]. cbn [fst snd] in *. destruct (Nat.eq_dec b e) as [->|Hne].
    + destruct (IH q) as (rs & q' & IH1 & IH2 & IH3). exists rs, q'. split; [now apply pr_skip|]. cbn [map filter]. rewrite sub_empty. auto.
    + set (line := sub buf (b, e)). destruct (split_s_ok cd q line opt Hopt) as (toks & E & Ht).
      assert (L : length line = e - b) by (apply sub_length; lia).
      assert (Hn : line <> []) by (intros H0; rewrite H0 in L; cbn in L; lia).
      destruct (IH (st_at q line (length line))) as (rs & q' & IH1 & IH2 & IH3).
      assert (Hc : cuts (@snd ascii bool) (marked cd q line) (spec_tok_end opt) (spec_next_start opt) 0 toks).
      { destruct Ht as [[H0 _]|[_ H0]]; [|exact H0]. apply (f_equal (@length _)) in H0. rewrite marked_length in H0. cbn [length] in H0. rewrite L in H0. lia. }
      pose proof (cuts_in_range _ _ _ _ _ Hc ltac:(lia)) as Hrg. rewrite marked_length, L in Hrg.
      exists (map (shift b) toks :: rs), q'. split; [|split].
      * eapply pr_row; [exact Hne|exact E|exact (cuts_nonempty _ _ _ _ _ _ Hc)|exact IH1].
      * cbn [map filter]. fold line. destruct line as [|c l] eqn:Es; [congruence|]. cbn [nonempty]. rewrite <- Es in *. constructor.
        -- exists toks. split; [exact Ht|]. rewrite map_map. apply map_ext_in. intros t Hin.
           rewrite Forall_forall in Hrg. destruct (Hrg t Hin). unfold line. apply sub_shift; lia.
        -- unfold st_at in IH2. rewrite firstn_all in IH2. exact IH2.
      * constructor; [|exact IH3]. rewrite Forall_map. eapply Forall_impl; [|exact Hrg].
        intros t Ht'. unfold shift. cbn [fst snd]. cbv beta in Ht'. lia.
Qed.

(* removing the quotes around tokens *)
Lemma trim_token_ok buf t : trimmable buf t -> exists t', trim_token buf t = Ok t' /\ sub buf t' = unquoted (sub buf t) /\ fst t' <= snd t' <= length buf.
Proof.
  destruct t as [a b]. intros [(Hlt & Hb & Hnq)|(He & c & Hc & Hcq)]; cbn [fst snd] in *; unfold trim_token; cbn [fst snd].
  - destruct (nth_error buf a) as [c|] eqn:Ec; [|apply nth_error_None in Ec; lia]. rewrite (rd_nth _ _ _ Ec). cbn [bind]. change dquote with quote.
    destruct b as [|e]; [lia|]. destruct (nth_error buf e) as [d|] eqn:Ed; [|apply nth_error_None in Ed; lia].
    destruct (Nat.eq_dec a e) as [->|Hae].
    + rewrite Ec in Ed. injection Ed as ->. assert (Es : sub buf (e, S e) = [d]) by (rewrite (sub_S buf e e d (le_n _) Ec); now rewrite sub_empty).
      rewrite Es in *. destruct (Ascii.eqb_spec d quote) as [->|Hd]; [congruence|]. exists (e, S e). split; [reflexivity|]. split; [exact Es|cbn; lia].
    + assert (Es : sub buf (a, S e) = c :: sub buf (S a, e) ++ [d]).
      { rewrite (sub_S buf a e d ltac:(lia) Ed). rewrite (sub_cons buf a e c Ec) by lia. reflexivity. }
      unfold unquoted. rewrite Es, rev_app_distr. cbn [rev app]. rewrite rev_involutive.
      destruct (Ascii.eqb_spec c quote) as [->|Hcq]; cbn [andb].
      * rewrite (rd_nth _ _ _ Ed). cbn [bind]. destruct (Ascii.eqb_spec d quote) as [->|Hdq].
        -- exists (S a, e). split; [reflexivity|]. split; [reflexivity|cbn; lia].
        -- exists (a, S e). split; [reflexivity|]. split; [exact Es|cbn; lia].
      * exists (a, S e). split; [reflexivity|]. split; [exact Es|cbn; lia].
  - subst b. rewrite (rd_nth _ _ _ Hc). cbn [bind]. change dquote with quote. destruct (Ascii.eqb_spec c quote) as [->|_]; [congruence|].
    exists (a, a). split; [reflexivity|]. rewrite sub_empty. split; [reflexivity|]. cbn. pose proof (nth_error_some_lt _ _ _ Hc). lia.
Qed.
Lemma trim_tokens_ok buf l : Forall (trimmable buf) l -> exists l', trim_tokens buf l = Ok l' /\ map (sub buf) l' = map unquoted (map (sub buf) l) /\
  Forall (fun t => fst t <= snd t /\ snd t <= length buf) l'.
Proof.
  induction 1 as [|t l Ht _ (l' & E & Hs & Hw)].
  - exists []. repeat split; constructor.
  - destruct (trim_token_ok _ _ Ht) as (t' & E' & Hs' & Hw'). exists (t' :: l'). cbn [trim_tokens map]. rewrite E'. cbn [bind]. rewrite E. cbn [bind].
    split; [reflexivity|]. split; [now rewrite Hs, Hs'|]. constructor; [lia|exact Hw].
Qed.

(* cutting a list into pieces of given lengths *)
Fixpoint regroup {A B} (shape : list (list A)) (l : list B) : list (list B) :=
  match shape with [] => [] | r :: shape => firstn (length r) l :: regroup shape (skipn (length r) l) end.
Lemma regroup_ok {A B} (shape : list (list A)) : forall (l : list B), length l = length (concat shape) ->
  concat (regroup shape l) = l /\ map (@length B) (regroup shape l) = map (@length A) shape.
Proof.
  induction shape as [|r shape IH]; intros l Hl; cbn [regroup concat map length] in *.
  - destruct l; [auto|discriminate].
  - rewrite app_length in Hl. destruct (IH (skipn (length r) l)) as [I1 I2]; [rewrite skipn_length; lia|]. rewrite I1, I2. split; [apply firstn_skipn|].
    rewrite firstn_length. f_equal. lia.
Qed.
Lemma same_lengths {A} (a b : list (list A)) : map (@length A) a = map (@length A) b -> concat a = concat b -> a = b.
Proof.
  revert b. induction a as [|x a IH]; intros [|y b] Hl Hc; try discriminate; [reflexivity|]. cbn [map concat] in *. injection Hl as Hx Hl.
  assert (x = y /\ concat a = concat b) as [-> Hc'].
  { split; [|]; [apply (f_equal (firstn (length x))) in Hc; rewrite firstn_app_len in Hc; rewrite Hx in Hc; now rewrite firstn_app_len in Hc|].
    apply (f_equal (skipn (length x))) in Hc. rewrite skipn_app_len in Hc. rewrite Hx in Hc. now rewrite skipn_app_len in Hc. }
  f_equal. now apply IH.
Qed.
Lemma indexed_lengths a b : map (@length tok) a = map (@length tok) b -> forall s, indexed s a = indexed s b.
Proof.
  revert b. induction a as [|x a IH]; intros [|y b] Hl s; try discriminate; [reflexivity|]. cbn [map] in Hl. injection Hl as Hx Hl. cbn [indexed]. rewrite Hx. f_equal. now apply IH.
Qed.

Lemma load_quoted_ok o buf : support_dquotes o = true -> (column_split_option o = 0 \/ column_split_option o = 1 \/ column_split_option o = 2)%N ->
  exists lines cells rs, compressed_tokens (row_delimiters o) buf lines /\
    quoted_cells (column_delimiters o) (column_split_option o) false (filter nonempty lines) cells /\
    map (map (sub buf)) rs = cells /\
    (small (length (concat cells)) -> trim_dquotes o = false ->
     exists g, load o buf = Ok g /\ represents g rs /\ counts_right g rs /\ within buf rs) /\
    (small (length (concat cells)) -> trim_dquotes o = true -> Forall (Forall (trimmable buf)) rs ->
     exists g rs', load o buf = Ok g /\ represents g rs' /\ counts_right g rs' /\ within buf rs' /\
       map (map (sub buf)) rs' = map (map unquoted) cells).
Proof.
  intros Hq Hopt. destruct (compress_pieces (row_delimiters o) buf) as (pieces & E & Hp & Hc).
  destruct (quoted_processed (column_delimiters o) (column_split_option o) buf pieces Hopt Hp false) as (rs & q' & Hpr & Hf & Hw).
  exists (map (sub buf) pieces), (map (map (sub buf)) rs), rs. split; [exact Hc|]. split; [exact Hf|]. split; [reflexivity|]. rewrite map_map_length.
  assert (Ep : small (length (concat rs)) -> process_rows (quote_splitter (column_delimiters o) (column_split_option o)) buf ([], [], false) pieces = Ok (concat rs, indexed 0 rs, q')).
  { intros Hs. pose proof (process_rows_ok _ _ _ _ _ _ Hpr [] Hs) as Ep. exact Ep. }
  unfold quote_splitter in Ep.
  assert (Hrep : forall rs', small (length (concat rs')) -> Forall (fun r => r <> []) rs' -> exists g, update_minmax_columns (Grid (concat rs') (indexed 0 rs') 0 0) = Ok g /\ represents g rs' /\ counts_right g rs').
  { intros rs' Hs Hne. assert (Hrep : represents (Grid (concat rs') (indexed 0 rs') 0 0) rs') by (split; [reflexivity|split; [reflexivity|auto]]).
    destruct (update_minmax_ok _ _ Hrep) as (g' & E' & T1 & T2 & T3). exists g'. split; [exact E'|]. split; [|exact T3].
    split; [now rewrite T1|]. split; [now rewrite T2|]. auto. }
  split; intros Hs Htr.
  - unfold load. rewrite E, Hq. cbn [bind negb]. rewrite (Ep Hs). cbn [bind]. rewrite Htr. cbn [bind].
    destruct (Hrep rs Hs (processed_nonempty _ _ _ _ _ _ Hpr)) as (g & E' & R1 & R2). exists g. auto.
  - intros Htrim. assert (Hall : Forall (trimmable buf) (concat rs)).
    { clear - Htrim. induction Htrim as [|r rs Hr _ IH]; cbn [concat]; [constructor|]. apply Forall_app. auto. }
    destruct (trim_tokens_ok buf _ Hall) as (tl & Et & Hs' & Hw').
    assert (Hlen : length tl = length (concat rs)).
    { apply (f_equal (@length _)) in Hs'. rewrite !map_length in Hs'. exact Hs'. }
    destruct (regroup_ok rs tl Hlen) as [G1 G2]. set (rs' := regroup rs tl) in *.
    unfold load. rewrite E, Hq. cbn [bind negb]. rewrite (Ep Hs). cbn [bind]. rewrite Htr, Et. cbn [bind].
    destruct (Hrep rs') as (g & E' & R1 & R2).
    + rewrite G1, Hlen. exact Hs.
    + assert (Hne := processed_nonempty _ _ _ _ _ _ Hpr). revert G2. generalize rs'. clear - Hne. induction Hne as [|r rs Hr _ IH]; intros [|r' rs'] G2; try discriminate; constructor.
      * injection G2 as G2 _. destruct r; [congruence|]. destruct r'; [discriminate|discriminate].
      * apply IH. now injection G2.
    + rewrite <- G1, <- (indexed_lengths _ _ G2). exists g, rs'. split; [exact E'|]. split; [exact R1|]. split; [exact R2|]. split.
      * unfold within. rewrite <- G1 in Hw'. clear - Hw'. induction rs' as [|r l IH]; [constructor|]. cbn [concat] in Hw'. apply Forall_app in Hw' as [H1 H2]. constructor; [exact H1|now apply IH].
      * apply same_lengths.
        -- rewrite !map_map. apply (f_equal (map (fun n => n))) in G2. rewrite !map_id in G2.
           rewrite (map_ext (fun x => length (map (sub buf) x)) (@length tok)) by (intros; apply map_length).
           rewrite (map_ext (fun x => length (map unquoted (map (sub buf) x))) (@length tok)) by (intros; now rewrite !map_length). exact G2.
        -- rewrite <- (concat_map (sub buf) rs'), <- (concat_map unquoted), <- (concat_map (sub buf) rs). transitivity (map (sub buf) tl); [f_equal; exact G1|exact Hs'].
Qed.
