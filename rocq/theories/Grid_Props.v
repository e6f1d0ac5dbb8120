(* Token grid: C33, C34, C62, C63, C64. *)
From Verif Require Import Base Split_Model Split_Spec Parse_Spec Parse_Proofs Grid_Spec Grid_Model Grid_Rep Grid_Proofs Grid_Proofs2 Grid_Proofs3 Grid_Proofs4 Grid_Proofs5 Split_Props.
Local Open Scope nat_scope.

Lemma forall2_unique {A B} (P : A -> B -> Prop) : (forall a x y, P a x -> P a y -> x = y) ->
  forall l xs, Forall2 P l xs -> forall ys, Forall2 P l ys -> xs = ys.
Proof. intros HP l xs H. induction H; intros ys H'; inversion H'; subst; [reflexivity|]. f_equal; [eapply HP; eauto|auto]. Qed.
Lemma fields_fun d opt line t1 t2 : fields_of d opt line t1 -> fields_of d opt line t2 -> t1 = t2.
Proof. intros (k1 & H1 & ->) (k2 & H2 & ->). now rewrite (tokens_unique _ _ _ _ _ _ H1 H2). Qed.
Lemma cells_fun rd_ cd opt s c1 c2 : cells_of rd_ cd opt s c1 -> cells_of rd_ cd opt s c2 -> c1 = c2.
Proof.
  intros (l1 & H1 & F1) (l2 & H2 & F2). rewrite (compressed_unique _ _ _ _ H2 H1) in F2.
  eapply forall2_unique; [|eassumption|eassumption]. intros. eapply fields_fun; eauto.
Qed.
Lemma quoted_fun cd opt lines c1 q : quoted_cells cd opt q lines c1 -> forall c2, quoted_cells cd opt q lines c2 -> c1 = c2.
Proof.
  induction 1 as [|q line texts lines cells Hf _ IH]; intros c2 H2; inversion H2; subst; [reflexivity|].
  f_equal; [|auto]. destruct Hf as (k1 & H & ->). match goal with H' : quoted_fields_of _ _ _ _ _ |- _ => destruct H' as (k2 & H' & ->); now rewrite (tokens_unique _ _ _ _ _ _ H H') end.
Qed.

Lemma cell_text (text : list ascii) (rs : list (list tok)) i j :
  option_map (sub text) (match nth_error rs i with Some row => nth_error row j | None => None end : option tok) =
  (match nth_error (map (map (sub text)) rs) i with Some row => nth_error row j | None => None end : option (list ascii)).
Proof. revert rs. induction i as [|i IH]; intros [|r rs]; cbn [nth_error map]; try reflexivity; [symmetry; apply nth_error_map|apply IH]. Qed.

Lemma row_text (text : list ascii) (rs : list (list tok)) i rt : nth_error (map (map (sub text)) rs) i = Some rt ->
  exists r, nth_error rs i = Some r /\ rt = map (sub text) r.
Proof. revert rs. induction i as [|i IH]; intros [|r rs]; cbn [nth_error map]; intros H; try discriminate; [injection H as <-; eauto|now apply IH]. Qed.

(* what the examples work with *)
Lemma lines_by_split d s toks n : split (is_delim d) s 1 = Ok (toks, n) -> compressed_tokens d s (map (sub s) toks).
Proof.
  intros E. destruct (C02_split_compress _ (is_delim d) s) as (toks' & E' & H & _). rewrite E in E'. injection E' as -> _.
  exists toks'. auto.
Qed.
Lemma fields_by_split d s toks n : split (is_delim d) s 0 = Ok (toks, n) -> Grid_Spec.fields_of d 0 s (map (sub s) toks).
Proof.
  intros E. destruct (C01_split_default _ (is_delim d) s) as (toks' & E' & H & _). rewrite E in E'. injection E' as -> _.
  exists toks'. auto.
Qed.
Definition nl : list ascii := [ascii_of_nat 10; ascii_of_nat 13].
Definition csv (opt : N) : options := Options opt nl (str ",") false false.
Definition demo_text : list ascii := str "a,b,c" ++ nl ++ nl ++ str "d,,e,f" ++ nl ++ str "gh".
Definition texts_of (g : outcome grid) (buf : list ascii) : list (list (list ascii)) :=
  match g with
  | Ok g => map (fun i => match row g (N.of_nat i) with
                          | Ok rw => match row_tokens g rw with Ok ts => map (sub buf) ts | _ => [] end
                          | _ => [] end) (seq 0 (length (rows g)))
  | _ => [] end.
Definition counts_of (g : outcome grid) : N * N := match g with Ok g => (min_c g, max_c g) | _ => (0, 0)%N end.
Definition after (text : list ascii) (ops : list grid_op) : outcome grid := g <- load (csv 0) text ;; run_ops g ops.
(* a converter that accepts single letters and gives their code *)
Definition letter (s : list ascii) : option nat := match s with [c] => Some (nat_of_ascii c) | _ => None end.
Definition on_row {X} (i : N) (k : grid -> row_type -> outcome X) : outcome X := g <- load (csv 0) demo_text ;; rw <- row g i ;; k g rw.
Definition on_grid {X} (k : grid -> outcome X) : outcome X := g <- load (csv 0) demo_text ;; k g.
Definition runs_text : list ascii := str "h,x" ++ nl ++ str "1,2" ++ nl ++ str "3" ++ nl ++ str "h" ++ nl ++ str "4" ++ nl ++ str "h" ++ nl ++ str "h".
Definition is_head (i : N) (r : list tok) : bool := match r with t :: _ => match sub runs_text t with ["h"%char] => true | _ => false end | [] => false end.
Definition q : list ascii := [quote].
Definition qcsv (opt : N) (trim : bool) : options := Options opt nl (str ",") true trim.
Definition quoted_text : list ascii := q ++ str "a,b" ++ q ++ str ",c" ++ nl ++ str "d" ++ q ++ str ",,"++ q ++ str "e,," ++ q ++ str "f" ++ q.

(* ------------------------------------------------------------------ *)
(* C33 *)

(* Every text has cells, and they are determined by it. *)
Theorem C33_cells : forall rd_ cd opt text, exists! cells, cells_of rd_ cd opt text cells.
Proof.
  intros. destruct (load_ok (Options opt rd_ cd false false) text eq_refl) as (cells & H & _). cbn in H.
  exists cells. split; [exact H|]. intros c' H'. eapply cells_fun; eauto.
Qed.
Print Assumptions C33_cells.

Example C33_cells_example : cells_of nl (str ",") 0 (str "a,,b" ++ nl ++ str "c" ++ nl) [[str "a"; []; str "b"]; [str "c"]].
Proof.
  exists [str "a,,b"; str "c"; []]. split.
  - exact (lines_by_split nl (str "a,,b" ++ nl ++ str "c" ++ nl) [(0,4); (6,7); (9,9)] 3 eq_refl).
  - apply Forall2_cons; [exact (fields_by_split (str ",") (str "a,,b") [(0,1); (2,2); (3,4)] 3 eq_refl)|].
    apply Forall2_cons; [exact (fields_by_split (str ",") (str "c") [(0,1)] 1 eq_refl)|apply Forall2_nil].
Qed.

Theorem C33_load : forall o text cells, support_dquotes o = false ->
  cells_of (row_delimiters o) (column_delimiters o) (column_split_option o) text cells -> small (length (concat cells)) ->
  exists g, load o text = Ok g /\ row_count g = N.of_nat (length cells) /\
    (forall r c, exists t, token g r c = Ok t /\
       option_map (sub text) t = match nth_error cells (N.to_nat r) with Some row => nth_error row (N.to_nat c) | None => None end) /\
    (cells <> [] -> exists mn mx, min_c g = N.of_nat mn /\ max_c g = N.of_nat mx /\ least_length cells mn /\ greatest_length cells mx).
Proof.
  intros o text cells Hd Hc Hs. destruct (load_ok o text Hd) as (cells' & Hc' & H). rewrite <- (cells_fun _ _ _ _ _ _ Hc Hc') in H.
  destruct (H Hs) as (g & rs & E & Hg & Hcr & _ & Em). exists g. split; [exact E|].
  split; [rewrite (row_count_ok _ _ Hg), <- Em, map_length; reflexivity|]. split.
  - intros r c. eexists. split; [apply token_ok; eassumption|]. rewrite <- Em. apply cell_text.
  - intros Hne. unfold counts_right in Hcr. destruct rs as [|r0 rs]; [cbn in Em; congruence|].
    destruct Hcr as (mn & mx & E1 & E2 & [[r [Hr Hl]] Hall] & [[r' [Hr' Hl']] Hall']). exists mn, mx. split; [exact E1|]. split; [exact E2|].
    rewrite <- Em. split; (split; [|intros x Hx; apply in_map_iff in Hx as (y & <- & Hy); rewrite map_length; auto]).
    + exists (map (sub text) r). split; [now apply in_map|]. now rewrite map_length.
    + exists (map (sub text) r'). split; [now apply in_map|]. now rewrite map_length.
Qed.
Print Assumptions C33_load.

Example C33_load_example : counts_of (load (csv 0) demo_text) = (1%N, 4%N) /\
  (g <- load (csv 0) demo_text ;; Ok (row_count g)) = Ok 3%N /\
  (g <- load (csv 0) demo_text ;; token g 0 1) = Ok (Some (2, 3)) /\ sub demo_text (2, 3) = str "b" /\
  (g <- load (csv 0) demo_text ;; token g 2 1) = Ok None.
Proof. vm_compute. auto. Qed.

(* a row object of the grid has the row's length and cells *)
Theorem C33_row : forall o text cells i row_texts, support_dquotes o = false ->
  cells_of (row_delimiters o) (column_delimiters o) (column_split_option o) text cells -> small (length (concat cells)) ->
  nth_error cells i = Some row_texts ->
  exists g rw ts, load o text = Ok g /\ row g (N.of_nat i) = Ok rw /\ r_size rw = N.of_nat (length row_texts) /\
    row_tokens g rw = Ok ts /\ map (sub text) ts = row_texts.
Proof.
  intros o text cells i rt Hd Hc Hs Hi. destruct (load_ok o text Hd) as (cells' & Hc' & H). rewrite <- (cells_fun _ _ _ _ _ _ Hc Hc') in H.
  destruct (H Hs) as (g & rs & E & Hg & _ & _ & Em). rewrite <- Em in Hi.
  destruct (row_text _ _ _ _ Hi) as (r & Er & ->).
  destruct (row_ok _ _ _ _ Hg Er) as (rw & E1 & _ & Hrow). exists g, rw, r.
  split; [exact E|]. split; [exact E1|]. split; [rewrite map_length; exact (proj1 Hrow)|]. split; [eapply row_tokens_ok; exact Hrow|reflexivity].
Qed.
Print Assumptions C33_row.

Example C33_example :
  texts_of (load (csv 0) demo_text) demo_text =
    [[str "a"; str "b"; str "c"]; [str "d"; []; str "e"; str "f"]; [str "gh"]] /\
  counts_of (load (csv 0) demo_text) = (1%N, 4%N) /\
  texts_of (load (csv 1) demo_text) demo_text = [[str "a"; str "b"; str "c"]; [str "d"; str "e"; str "f"]; [str "gh"]] /\
  (g <- load (csv 0) demo_text ;; token g 1 2) = Ok (Some (12, 13)) /\ sub demo_text (12, 13) = str "e" /\
  (g <- load (csv 0) demo_text ;; token g 2 1) = Ok None /\ (g <- load (csv 0) demo_text ;; token g 3 0) = Ok None.
Proof. vm_compute. auto 10. Qed.

(* row(i) does not check its argument *)
Theorem C33_row_unchecked_refuted : forall g rs i, represents g rs -> length rs <= i -> row g (N.of_nat i) = UB.
Proof. intros g rs i Hg Hi. unfold row. rewrite at_nat, rd_ub; [reflexivity|]. destruct Hg as (_ & -> & _). now rewrite indexed_length. Qed.
Print Assumptions C33_row_unchecked_refuted.

Example C33_row_unchecked_refuted_ex : (g <- load (csv 0) (str "a,b") ;; row g 1) = UB.
Proof. vm_compute. reflexivity. Qed.

(* parsing more columns than the row has reads the next row's cells, and past the end in the
   last row *)
Theorem C33_row_overrun_refuted : exists text g rw rw',
  load (csv 0) text = Ok g /\ row g 0 = Ok rw /\ row g 1 = Ok rw' /\ r_size rw = 1%N /\
  parse_row text g rw [Some; Some] = Ok (true, [str "a"; str "b"]) /\
  parse_row text g rw' [Some; Some; Some] = UB.
Proof. exists (str "a" ++ nl ++ str "b,c"). do 3 eexists. vm_compute. auto 10. Qed.
Print Assumptions C33_row_overrun_refuted.

(* a grid without rows has SIZE_MAX as its least column count *)
Theorem C33_empty_minimum_refuted : forall o, support_dquotes o = false -> exists g, load o [] = Ok g /\ row_count g = 0%N /\ min_c g = size_max /\ max_c g = 0%N.
Proof. intros o H. unfold load. rewrite H. cbn. eexists. split; [reflexivity|]. vm_compute. auto. Qed.
Print Assumptions C33_empty_minimum_refuted.

Example C33_empty_minimum_refuted_ex : (g <- load (csv 0) [] ;; Ok (row_count g, max_c g)) = Ok (0, 0)%N.
Proof. vm_compute. reflexivity. Qed.

(* ------------------------------------------------------------------ *)
(* C34 *)

Theorem C34_operations : forall o text cells ops, support_dquotes o = false ->
  cells_of (row_delimiters o) (column_delimiters o) (column_split_option o) text cells -> small (length (concat cells)) ->
  exists rs g g', map (map (sub text)) rs = cells /\ load o text = Ok g /\ run_ops g ops = Ok g' /\
    row_count g' = N.of_nat (length (fold_left list_op ops rs)) /\
    forall r c, token g' r c = Ok (match nth_error (fold_left list_op ops rs) (N.to_nat r) with Some row => nth_error row (N.to_nat c) | None => None end).
Proof.
  intros o text cells ops Hd Hc Hs. destruct (load_ok o text Hd) as (cells' & Hc' & H). rewrite <- (cells_fun _ _ _ _ _ _ Hc Hc') in H.
  destruct (H Hs) as (g & rs & E & Hg & _ & _ & Em). destruct (run_ops_ok ops g rs Hg) as (g' & E' & Hg').
  exists rs, g, g'. split; [exact Em|]. split; [exact E|]. split; [exact E'|]. split; [now apply row_count_ok|]. intros. now apply token_ok.
Qed.
Print Assumptions C34_operations.

Example C34_operations_example :
  texts_of (after demo_text [Remove_row 2; Remove_row_if (fun _ r => length r =? 3) 0 2]) demo_text = [[str "d"; []; str "e"; str "f"]].
Proof. reflexivity. Qed.

Theorem C34_remove_row : forall g rs i, represents g rs -> exists g', remove_row g (N.of_nat i) = Ok g' /\
  represents g' (firstn i rs ++ skipn (S i) rs).
Proof. intros g rs i Hg. destruct (remove_row_ok g rs i Hg) as (g' & E & H & _). eauto. Qed.
Print Assumptions C34_remove_row.

Example C34_remove_row_example : texts_of (after demo_text [Remove_row 1]) demo_text = [[str "a"; str "b"; str "c"]; [str "gh"]] /\
  texts_of (after demo_text [Remove_row 5]) demo_text = texts_of (after demo_text []) demo_text.
Proof. split; reflexivity. Qed.

Theorem C34_remove_row_if : forall p g rs a b, represents g rs ->
  if (a <=? b) && (b <=? length rs)
  then exists g', remove_row_if p g (N.of_nat a, N.of_nat b) = Ok (true, g') /\
         represents g' (firstn a rs ++ survivors p a (slice rs a b) ++ skipn b rs)
  else remove_row_if p g (N.of_nat a, N.of_nat b) = Ok (false, g).
Proof.
  intros p g rs a b Hg. destruct ((a <=? b) && (b <=? length rs)) eqn:E.
  - apply in_rows_true in E as [H1 H2]. destruct (remove_row_if_ok p g rs a b Hg H1 H2) as (g' & E & H & _). eauto.
  - apply in_rows_false in E. now apply remove_row_if_bad with (rs := rs).
Qed.
Print Assumptions C34_remove_row_if.

Example C34_remove_row_if_example :
  texts_of (after demo_text [Remove_row_if (fun i r => N.eqb i 1 || (length r =? 1)) 0 2]) demo_text = [[str "a"; str "b"; str "c"]; [str "gh"]] /\
  (g <- load (csv 0) demo_text ;; ' (ok, _) <- remove_row_if (fun _ _ => true) g (2, 4)%N ;; Ok ok) = Ok false.
Proof. split; reflexivity. Qed.
(* on a predicate that only looks at the cells, the survivors are a filter *)
Theorem C34_survivors : forall (q : list tok -> bool) l k, survivors (fun _ => q) k l = filter (fun r => negb (q r)) l.
Proof. exact survivors_plain. Qed.
Print Assumptions C34_survivors.

Example C34_survivors_example : survivors (fun i _ => N.even i) 3 [[(0,1)]; [(2,3)]; [(4,5)]] = [[(0,1)]; [(4,5)]].
Proof. reflexivity. Qed.

(* removing tokens, and with them the rows that become empty; the column counts stay right *)
Theorem C34_remove_token_if : forall p g rs a b, represents g rs -> counts_right g rs ->
  if (a <=? b) && (b <=? length rs)
  then exists g', remove_token_if p g (N.of_nat a, N.of_nat b) = Ok (N.of_nat (length (filter p (concat (slice rs a b)))), g') /\
         let rs' := firstn a rs ++ filter nonempty (map (filter (fun t => negb (p t))) (slice rs a b)) ++ skipn b rs in
         represents g' rs' /\ counts_right g' rs'
  else remove_token_if p g (N.of_nat a, N.of_nat b) = Ok (0%N, g).
Proof.
  intros p g rs a b Hg Hc. destruct ((a <=? b) && (b <=? length rs)) eqn:E.
  - apply in_rows_true in E as [H1 H2]. destruct (remove_token_if_ok p g rs a b Hg H1 H2) as (g' & E & H & Hc'). cbv zeta. eauto.
  - apply in_rows_false in E. now apply remove_token_if_bad with (rs := rs).
Qed.
Print Assumptions C34_remove_token_if.

Example C34_remove_token_if_example : let letter_in (l : list ascii) t := existsb (fun c => existsb (Ascii.eqb c) l) (sub demo_text t) in
  texts_of (after demo_text [Remove_token_if (letter_in (str "bgd")) 0 3]) demo_text = [[str "a"; str "c"]; [[]; str "e"; str "f"]] /\
  counts_of (after demo_text [Remove_token_if (letter_in (str "bgd")) 0 3]) = (2%N, 3%N).
Proof. split; reflexivity. Qed.

Theorem C34_remove_empty_tokens : forall g rs, represents g rs -> counts_right g rs ->
  exists n g', remove_empty_tokens g (all_rows g) = Ok (n, g') /\
    let rs' := filter nonempty (map (filter (fun t => negb (fst t =? snd t))) rs) in
    represents g' rs' /\ counts_right g' rs'.
Proof.
  intros g rs Hg Hc. unfold remove_empty_tokens. rewrite (all_rows_ok g rs Hg).
  destruct (remove_token_if_ok (fun t => fst t =? snd t) g rs 0 (length rs) Hg ltac:(lia) ltac:(lia)) as (g' & E & H & Hc').
  specialize (Hc' Hc). rewrite slice_all, skipn_all2, app_nil_r in * by lia. cbn [firstn app] in *. cbv zeta. eauto.
Qed.
Print Assumptions C34_remove_empty_tokens.

Example C34_remove_empty_tokens_example :
  (g <- load (csv 0) demo_text ;; ' (n, g) <- remove_empty_tokens g (all_rows g) ;; Ok (n, texts_of (Ok g) demo_text)) =
  Ok (1%N, [[str "a"; str "b"; str "c"]; [str "d"; str "e"; str "f"]; [str "gh"]]).
Proof. reflexivity. Qed.

Theorem C34_enforce_column_count : forall g rs n, represents g rs -> exists g', enforce_column_count g (all_rows g) n = Ok g' /\
  represents g' (filter (fun r => (n =? N.of_nat (length r))%N) rs) /\ min_c g' = n /\ max_c g' = n.
Proof. intros g rs n Hg. rewrite (all_rows_ok g rs Hg). apply (enforce_ok g rs 0 (length rs) n Hg); lia. Qed.
Print Assumptions C34_enforce_column_count.

Example C34_enforce_column_count_example : texts_of (after demo_text [Enforce_column_count 0 3 4]) demo_text = [[str "d"; []; str "e"; str "f"]] /\
  counts_of (after demo_text [Enforce_column_count 0 3 4]) = (4%N, 4%N).
Proof. split; reflexivity. Qed.
Theorem C34_enforce_min_max_column_count : forall g rs mn mx, represents g rs ->
  exists g', enforce_min_max_column_count g (all_rows g) mn mx = Ok g' /\
  represents g' (filter (fun r => (mn <=? N.of_nat (length r)) && (N.of_nat (length r) <=? mx))%N rs) /\ min_c g' = mn /\ max_c g' = mx.
Proof. intros g rs mn mx Hg. rewrite (all_rows_ok g rs Hg). apply (enforce_min_max_ok g rs 0 (length rs) mn mx Hg); lia. Qed.
Print Assumptions C34_enforce_min_max_column_count.

Example C34_example :
  texts_of (after demo_text [Remove_row 0]) demo_text = [[str "d"; []; str "e"; str "f"]; [str "gh"]] /\
  texts_of (after demo_text [Remove_row_if (fun i r => N.even i || (length r =? 9)) 0 3]) demo_text = [[str "d"; []; str "e"; str "f"]] /\
  texts_of (after demo_text [Remove_token_if (fun t => existsb (fun c => Ascii.eqb c "b"%char || Ascii.eqb c "g"%char) (sub demo_text t)) 0 3]) demo_text =
    [[str "a"; str "c"]; [str "d"; []; str "e"; str "f"]] /\
  counts_of (after demo_text [Remove_token_if (fun t => existsb (fun c => Ascii.eqb c "b"%char || Ascii.eqb c "g"%char) (sub demo_text t)) 0 3]) = (2%N, 4%N) /\
  texts_of (after demo_text [Remove_row 1; Enforce_column_count 0 2 3]) demo_text = [[str "a"; str "b"; str "c"]] /\
  texts_of (after demo_text [Remove_row 0; Remove_token_if (fun t => fst t =? snd t) 0 2; Remove_row 1]) demo_text = [[str "d"; str "e"; str "f"]] /\
  texts_of (after demo_text [Enforce_min_max_column_count 0 3 2 3; Remove_row 7]) demo_text = [[str "a"; str "b"; str "c"]] /\
  texts_of (after demo_text [Remove_row 0; Clear; Remove_row 0]) demo_text = [].
Proof. vm_compute. auto 12. Qed.

(* Removing rows leaves the column counts of the old rows in place. *)
Theorem C34_stale_counts_refuted : forall g rs i, represents g rs -> exists g', remove_row g (N.of_nat i) = Ok g' /\
  min_c g' = min_c g /\ max_c g' = max_c g.
Proof. intros g rs i Hg. destruct (remove_row_ok g rs i Hg) as (g' & E & _ & H). eauto. Qed.
Print Assumptions C34_stale_counts_refuted.
Example C34_stale_counts_example :
  texts_of (after demo_text [Remove_row 1]) demo_text = [[str "a"; str "b"; str "c"]; [str "gh"]] /\ counts_of (after demo_text [Remove_row 1]) = (1%N, 4%N) /\
  texts_of (after demo_text [Remove_row_if (fun i _ => N.even i) 0 3]) demo_text = [[str "d"; []; str "e"; str "f"]] /\
  counts_of (after demo_text [Remove_row_if (fun i _ => N.even i) 0 3]) = (1%N, 4%N).
Proof. vm_compute. auto. Qed.

(* enforce_column_count works on all rows whatever range it is given *)
Theorem C34_enforce_ignores_range_refuted : forall g rs a b n, represents g rs -> a <= b -> b <= length rs ->
  exists g', enforce_column_count g (N.of_nat a, N.of_nat b) n = Ok g' /\
    represents g' (filter (fun r => (n =? N.of_nat (length r))%N) rs).
Proof. intros g rs a b n Hg Ha Hb. destruct (enforce_ok g rs a b n Hg Ha Hb) as (g' & E & H & _). eauto. Qed.
Print Assumptions C34_enforce_ignores_range_refuted.
Example C34_enforce_range_example :
  texts_of (after demo_text [Enforce_column_count 0 1 3]) demo_text = [[str "a"; str "b"; str "c"]] /\
  texts_of (after demo_text [Enforce_column_count 3 3 4]) demo_text = [[str "d"; []; str "e"; str "f"]].
Proof. vm_compute. auto. Qed.

(* a cleared grid has no rows, no cells and no columns *)
Theorem C34_clear : forall g, represents (clear g) [] /\ min_c (clear g) = 0%N /\ max_c (clear g) = 0%N /\
  forall r c : N, token (clear g) r c = Ok None.
Proof.
  intros g. split; [repeat split; constructor|]. split; [reflexivity|]. split; [reflexivity|].
  intros r c. unfold token. destruct r; reflexivity.
Qed.
Print Assumptions C34_clear.

Example C34_clear_example : on_grid (fun g => Ok (row_count g, row_count (clear g), counts_of (Ok (clear g)))) = Ok (3%N, 0%N, (0%N, 0%N)).
Proof. reflexivity. Qed.

(* the bounds enforced are reported as the counts even when no row attains them, and with no
   row left *)
Theorem C34_enforced_counts_refuted : exists text g, after text [Enforce_min_max_column_count 0 1 1 9] = Ok g /\
  texts_of (Ok g) text = [[str "a"; str "b"]] /\ min_c g = 1%N /\ max_c g = 9%N.
Proof. exists (str "a,b"). eexists. vm_compute. auto. Qed.
Print Assumptions C34_enforced_counts_refuted.

(* range() with its default upper bound ends at the number of tokens, which is no row *)
Theorem C34_default_range_refuted : forall g rs lower, represents g rs ->
  range g lower (2 ^ 32 - 1) = (lower, N.of_nat (length (concat rs))) /\
  (length rs < length (concat rs) -> row_range_invalid g (range g lower (2 ^ 32 - 1)) = true).
Proof.
  intros g rs lower Hg. pose proof Hg as (E1 & E2 & _ & Hs). unfold range. rewrite N.eqb_refl, E1, u32_small by exact Hs. split; [reflexivity|].
  intros Hl. unfold row_range_invalid, row_count. rewrite E2, indexed_length. cbn [fst snd].
  destruct (N.of_nat (length rs) <? lower)%N; [reflexivity|]. destruct (N.ltb_spec (N.of_nat (length rs)) (N.of_nat (length (concat rs)))); [reflexivity|lia].
Qed.
Print Assumptions C34_default_range_refuted.

Example C34_default_range_refuted_ex : (g <- load (csv 0) (str "a,b") ;; Ok (range g 0 (2 ^ 32 - 1), row_range_invalid g (range g 0 (2 ^ 32 - 1)))) = Ok ((0, 2)%N, true).
Proof. vm_compute. reflexivity. Qed.

(* ------------------------------------------------------------------ *)
(* C62 *)

Theorem C62_row : forall g rs i r, represents g rs -> nth_error rs i = Some r ->
  exists rw, row g (N.of_nat i) = Ok rw /\ r_index rw = N.of_nat i /\ is_row g rw r /\ row_tokens g rw = Ok r.
Proof. intros g rs i r Hg Hi. destruct (row_ok g rs i r Hg Hi) as (rw & E & Ei & H). exists rw. split; [exact E|]. split; [exact Ei|]. split; [exact H|]. now apply row_tokens_ok. Qed.
Print Assumptions C62_row.

Example C62_row_example : on_row 1 (fun g rw => ts <- row_tokens g rw ;; Ok (r_index rw, map (sub demo_text) ts)) = Ok (1%N, [str "d"; []; str "e"; str "f"]).
Proof. reflexivity. Qed.

Theorem C62_text : forall buf g rw r, is_row g rw r -> Forall (fun t => fst t <= snd t /\ snd t <= length buf) r ->
  as_string buf g rw = Ok (concat (map (sub buf) r)) /\ raw_length g rw = Ok (length (concat (map (sub buf) r))) /\
  exists a b, nth_error r 0 = Some a /\ nth_error r (length r - 1) = Some b /\ row_range g rw = Ok (fst a, snd b).
Proof. intros. split; [|split]; [eapply as_string_ok|eapply raw_length_ok|eapply row_range_ok]; eassumption. Qed.
Print Assumptions C62_text.

Example C62_text_example : on_row 1 (fun g rw => as_string demo_text g rw) = Ok (str "def") /\ on_row 1 (fun g rw => raw_length g rw) = Ok 3 /\
  on_row 1 (fun g rw => row_range g rw) = Ok (9, 15) /\ sub demo_text (9, 15) = str "d,,e,f".
Proof. vm_compute. auto. Qed.

Theorem C62_parse_with_index : forall T buf g rw r (convs : list (list ascii -> option T)) cols ts, is_row g rw r ->
  length cols = length convs -> Forall2 (fun c t => nth_error r c = Some t) cols ts ->
  exists ok vs, parse_with_index buf g rw (map N.of_nat cols) convs = Ok (ok, vs) /\
    taken (fun p => fst p (snd p)) (combine convs (map (sub buf) ts)) ok vs.
Proof. intros. eapply parse_with_index_ok; eassumption. Qed.
Print Assumptions C62_parse_with_index.

Example C62_parse_with_index_example :
  on_row 1 (fun g rw => parse_with_index demo_text g rw [3; 0; 2]%N [letter; letter; letter]) = Ok (true, [102; 100; 101]) /\
  on_row 1 (fun g rw => parse_with_index demo_text g rw [3; 1; 2]%N [letter; letter; letter]) = Ok (false, [102]).
Proof. split; reflexivity. Qed.
Theorem C62_parse : forall T buf g rw r (convs : list (list ascii -> option T)), is_row g rw r -> length convs <= length r ->
  exists ok vs, parse_row buf g rw convs = Ok (ok, vs) /\ taken (fun p => fst p (snd p)) (combine convs (map (sub buf) r)) ok vs.
Proof. intros. eapply parse_row_ok; eassumption. Qed.
Print Assumptions C62_parse.

Example C62_parse_example :
  on_row 0 (fun g rw => parse_row demo_text g rw [letter; letter]) = Ok (true, [97; 98]) /\
  on_row 1 (fun g rw => parse_row demo_text g rw [letter; letter; letter]) = Ok (false, [100]).
Proof. split; reflexivity. Qed.

Theorem C62_parse_range : forall T buf g rw r (conv : list ascii -> option T) a b sq, is_row g rw r ->
  if (a <=? b) && (b <=? length r)
  then exists ok vs, parse_range conv buf g rw (N.of_nat a, N.of_nat b) sq = Ok (ok, sq ++ vs) /\ taken conv (map (sub buf) (slice r a b)) ok vs
  else parse_range conv buf g rw (N.of_nat a, N.of_nat b) sq = Ok (false, sq).
Proof.
  intros T buf g rw r conv a b sq H. destruct (Nat.leb_spec a b), (Nat.leb_spec b (length r)); cbn [andb];
    first [now apply parse_range_ok|apply parse_range_bad with (r := r); auto].
Qed.
Print Assumptions C62_parse_range.

Example C62_parse_range_example :
  on_row 1 (fun g rw => parse_range letter demo_text g rw (2, 4)%N [7]) = Ok (true, [7; 101; 102]) /\
  on_row 1 (fun g rw => parse_range letter demo_text g rw (0, 4)%N [7]) = Ok (false, [7; 100]) /\
  on_row 1 (fun g rw => parse_range letter demo_text g rw (2, 5)%N [7]) = Ok (false, [7]).
Proof. repeat split; reflexivity. Qed.
Theorem C62_parse_sequence : forall T buf g rw r (conv : list ascii -> option T) sq, is_row g rw r ->
  exists ok vs, parse_all conv buf g rw sq = Ok (ok, sq ++ vs) /\ taken conv (map (sub buf) r) ok vs.
Proof. intros. now apply parse_all_ok. Qed.
Print Assumptions C62_parse_sequence.

Example C62_parse_sequence_example :
  on_row 0 (fun g rw => parse_all letter demo_text g rw []) = Ok (true, [97; 98; 99]) /\
  on_row 2 (fun g rw => parse_all letter demo_text g rw [7]) = Ok (false, [7]).
Proof. split; reflexivity. Qed.
Theorem C62_parse_n : forall T buf g rw r (conv : list ascii -> option T) n sq, is_row g rw r ->
  exists (ok : bool) vs, parse_n conv buf g rw (N.of_nat n) sq = Ok ((if ok then N.of_nat (Nat.min n (length r)) else 0%N), sq ++ vs) /\
    taken conv (map (sub buf) (firstn n r)) ok vs.
Proof. intros. now apply parse_n_ok. Qed.
Print Assumptions C62_parse_n.

Example C62_parse_n_example :
  on_row 0 (fun g rw => parse_n letter demo_text g rw 2 []) = Ok (2%N, [97; 98]) /\
  on_row 0 (fun g rw => parse_n letter demo_text g rw 9 []) = Ok (3%N, [97; 98; 99]) /\
  on_row 1 (fun g rw => parse_n letter demo_text g rw 2 []) = Ok (0%N, [100]).
Proof. repeat split; reflexivity. Qed.
Theorem C62_parse_checked : forall T buf g rw r (conv : list ascii -> option T) sq, is_row g rw r ->
  exists vs, parse_checked conv buf g rw sq = Ok (sq ++ vs) /\ converted conv (map (sub buf) r) vs.
Proof. intros. now apply parse_checked_ok. Qed.
Print Assumptions C62_parse_checked.

Example C62_parse_checked_example :
  on_row 1 (fun g rw => parse_checked letter demo_text g rw []) = Ok [100; 101; 102].
Proof. reflexivity. Qed.
Theorem C62_for_each_column : forall X g rw r (f : X -> tok -> X) a b x, is_row g rw r ->
  for_each_column f g rw (N.of_nat a, N.of_nat b) x =
    Ok (if (a <=? b) && (b <=? length r) then (N.of_nat (b - a), fold_left f (slice r a b) x) else (0%N, x)).
Proof.
  intros X g rw r f a b x H. destruct (Nat.leb_spec a b), (Nat.leb_spec b (length r)); cbn [andb];
    first [now apply for_each_column_ok|apply for_each_column_bad with (r := r); auto].
Qed.
Print Assumptions C62_for_each_column.

Example C62_for_each_column_example :
  on_row 1 (fun g rw => for_each_column (fun n t => n + (snd t - fst t)) g rw (0, 3)%N 0) = Ok (3%N, 2) /\
  on_row 1 (fun g rw => for_each_column (fun n t => n + (snd t - fst t)) g rw (0, 5)%N 0) = Ok (0%N, 0).
Proof. split; reflexivity. Qed.

(* a cell is null exactly if it has no text *)
Theorem C62_is_null : forall (buf : list ascii) g rw r i t, is_row g rw r -> nth_error r i = Some t -> fst t <= snd t -> snd t <= length buf ->
  is_null g rw (N.of_nat i) = Ok (negb (nonempty (sub buf t))).
Proof.
  intros buf g rw r i [a b] H Hi H1 H2. unfold is_null. rewrite (proj2 (proj2 (proj2 H)) i (a, b) Hi). cbn [bind fst snd] in *. f_equal.
  assert (E := sub_length buf a b H1 H2). destruct (Nat.eqb_spec a b) as [->|N]; destruct (sub buf _); cbn in *; auto; lia.
Qed.
Print Assumptions C62_is_null.

Example C62_is_null_example : on_row 1 (fun g rw => is_null g rw 1) = Ok true /\ on_row 1 (fun g rw => is_null g rw 2) = Ok false.
Proof. split; reflexivity. Qed.

(* ------------------------------------------------------------------ *)
(* C63 *)

Theorem C63_extract_column : forall T buf g rs (conv : list ascii -> option T) a b c out, represents g rs ->
  if (N.of_nat c <=? max_c g)%N && ((a <=? b) && (b <=? length rs))
  then exists ok vs, extract_column conv buf g (N.of_nat a, N.of_nat b) (N.of_nat c) out = Ok (true, (negb ok, out ++ vs)) /\
         taken conv (map (sub buf) (column (slice rs a b) c)) ok vs
  else extract_column conv buf g (N.of_nat a, N.of_nat b) (N.of_nat c) out = Ok (false, (false, out)).
Proof.
  intros T buf g rs conv a b c out Hg. destruct (N.leb_spec (N.of_nat c) (max_c g)), (Nat.leb_spec a b), (Nat.leb_spec b (length rs)); cbn [andb];
    first [now apply extract_column_ok|apply (extract_bad (T := T)) with (rs := rs); auto].
Qed.
Print Assumptions C63_extract_column.

Example C63_extract_column_example :
  on_grid (fun g => extract_column Some demo_text g (all_rows g) 2 []) = Ok (true, (false, [str "c"; str "e"])) /\
  on_grid (fun g => extract_column letter demo_text g (all_rows g) 1 []) = Ok (true, (true, [98])) /\
  on_grid (fun g => extract_column Some demo_text g (all_rows g) 5 []) = Ok (false, (false, [])).
Proof. repeat split; reflexivity. Qed.
Theorem C63_extract_column_checked : forall T buf g rs (conv : list ascii -> option T) a b c out, represents g rs ->
  if (N.of_nat c <=? max_c g)%N && ((a <=? b) && (b <=? length rs))
  then exists vs, extract_column_checked conv buf g (N.of_nat a, N.of_nat b) (N.of_nat c) out = Ok (true, out ++ vs) /\
         converted conv (map (sub buf) (column (slice rs a b) c)) vs
  else extract_column_checked conv buf g (N.of_nat a, N.of_nat b) (N.of_nat c) out = Ok (false, out).
Proof.
  intros T buf g rs conv a b c out Hg. destruct (N.leb_spec (N.of_nat c) (max_c g)), (Nat.leb_spec a b), (Nat.leb_spec b (length rs)); cbn [andb];
    first [now apply extract_column_checked_ok|apply (extract_bad (T := T)) with (rs := rs); auto].
Qed.
Print Assumptions C63_extract_column_checked.

Example C63_extract_column_checked_example :
  on_grid (fun g => extract_column_checked letter demo_text g (all_rows g) 0 [1]) = Ok (true, [1; 97; 100]).
Proof. reflexivity. Qed.
Theorem C63_extract_columns : forall buf g rs a b (cols : list nat) outs, represents g rs -> length outs = length cols ->
  (forall c, In c cols -> (N.of_nat c <= max_c g)%N) -> a <= b -> b <= length rs ->
  extract_columns buf g (N.of_nat a, N.of_nat b) (map N.of_nat cols) outs =
    Ok (true, map (fun p => fst p ++ map (sub buf) (column (filter (fun r => forallb (fun c => c <? length r) cols) (slice rs a b)) (snd p))) (combine outs cols)).
Proof. intros. now apply extract_columns_ok. Qed.
Print Assumptions C63_extract_columns.

Example C63_extract_columns_example :
  on_grid (fun g => extract_columns demo_text g (all_rows g) [2; 0]%N [[]; []]) = Ok (true, [[str "c"; str "e"]; [str "a"; str "d"]]).
Proof. reflexivity. Qed.
Theorem C63_column_widths : forall buf g rs columns, represents g rs -> counts_right g rs -> within buf rs ->
  exists n, max_c g = N.of_nat n /\
  get_column_widths g columns = Ok (columns ++ map (fun c => list_max (map (@length ascii) (map (sub buf) (column rs c)))) (seq 0 n)).
Proof.
  intros buf g rs columns Hg Hc Hw. destruct rs as [|r rs].
  - destruct Hc as [_ E]. exists 0. split; [exact E|]. now apply (get_column_widths_ok buf g [] Hg 0 columns).
  - destruct Hc as (mn & mx & _ & E & _). exists mx. split; [exact E|]. now apply get_column_widths_ok.
Qed.
Print Assumptions C63_column_widths.

Example C63_column_widths_example : on_grid (fun g => get_column_widths g []) = Ok [2; 1; 1; 1].
Proof. reflexivity. Qed.
Theorem C63_join_column : forall buf g rs a b c d result, represents g rs -> (N.of_nat c <= max_c g)%N -> a <= b -> b <= length rs ->
  join_column buf g (N.of_nat c) (N.of_nat a, N.of_nat b) d result =
    Ok (true, result ++ joined d (map (sub buf) (column (slice rs a b) c))).
Proof. intros. now apply join_column_ok. Qed.
Print Assumptions C63_join_column.

Example C63_join_column_example :
  on_grid (fun g => join_column demo_text g 0 (all_rows g) (str "-") []) = Ok (true, str "a-d-gh") /\
  on_grid (fun g => join_column demo_text g 1 (all_rows g) (str "-") (str ">")) = Ok (true, str ">b-").
Proof. split; reflexivity. Qed.
Theorem C63_join_row : forall buf g rs i r d result, represents g rs -> nth_error rs i = Some r -> S i < length rs ->
  join_row buf g (N.of_nat i) d result = Ok (true, result ++ joined d (map (sub buf) r)).
Proof. intros buf g rs i r d result Hg Hi Hl. rewrite (join_row_ok buf g rs Hg i r d result Hi). apply Nat.ltb_lt in Hl. now rewrite Hl. Qed.
Print Assumptions C63_join_row.

Example C63_join_row_example :
  on_grid (fun g => join_row demo_text g 0 (str "-") []) = Ok (true, str "a-b-c") /\
  on_grid (fun g => join_row demo_text g 1 (str "-") []) = Ok (true, str "d-e-f").
Proof. split; reflexivity. Qed.
Theorem C63_accumulate_row : forall T (add : T -> T -> T) buf g rs (conv : list ascii -> option T) i r result, represents g rs -> nth_error rs i = Some r ->
  exists (ok : bool) vs, accumulate_row add conv buf g (N.of_nat i) result = Ok ((if ok then N.of_nat (length r) else 0%N), fold_left add vs result) /\
    taken conv (map (sub buf) r) ok vs.
Proof. intros. eapply accumulate_row_ok; eassumption. Qed.
Print Assumptions C63_accumulate_row.

Example C63_accumulate_row_example :
  on_grid (fun g => accumulate_row Nat.add letter demo_text g 0 0) = Ok (3%N, 97 + 98 + 99) /\
  on_grid (fun g => accumulate_row Nat.add letter demo_text g 1 0) = Ok (0%N, 100).
Proof. split; reflexivity. Qed.
(* the sum is over the rows that have the column; the count is of all rows of the range *)
Theorem C63_accumulate_column : forall T (add : T -> T -> T) buf g rs (conv : list ascii -> option T) a b c result, represents g rs ->
  (N.of_nat c <= max_c g)%N -> a <= b -> b <= length rs ->
  exists (ok : bool) vs, accumulate_column add conv buf g (N.of_nat c) (N.of_nat a, N.of_nat b) result =
      Ok ((if ok then N.of_nat (b - a) else 0%N), fold_left add vs result) /\
    taken conv (map (sub buf) (column (slice rs a b) c)) ok vs.
Proof. intros. eapply accumulate_column_ok; eassumption. Qed.
Print Assumptions C63_accumulate_column.

Example C63_accumulate_column_example :
  on_grid (fun g => accumulate_column Nat.add letter demo_text g 0 (0, 2)%N 5) = Ok (2%N, 5 + 97 + 100).
Proof. reflexivity. Qed.
Theorem C63_accumulate_column_if : forall T (add : T -> T -> T) p buf g rs (conv : list ascii -> option T) a b c result, represents g rs ->
  (N.of_nat c <= max_c g)%N -> a <= b -> b <= length rs ->
  exists (ok : bool) vs, accumulate_column_if add conv p buf g (N.of_nat c) (N.of_nat a, N.of_nat b) result =
      Ok ((if ok then N.of_nat (length vs) else 0%N), fold_left add vs result) /\
    taken conv (map (sub buf) (chosen p c a (slice rs a b))) ok vs.
Proof. intros. eapply accumulate_column_if_ok; eassumption. Qed.
Print Assumptions C63_accumulate_column_if.

Example C63_accumulate_column_if_example :
  on_grid (fun g => accumulate_column_if Nat.add letter (fun _ r => length r <? 4) demo_text g 2 (all_rows g) 0) = Ok (1%N, 99).
Proof. reflexivity. Qed.
Theorem C63_for_each_row : forall X (f : X -> N -> list tok -> X) g rs a b x, represents g rs -> a <= b -> b <= length rs ->
  for_each_row f g (N.of_nat a, N.of_nat b) x =
    Ok (N.of_nat (b - a), fold_left (fun x p => f x (N.of_nat (fst p)) (snd p)) (combine (seq a (b - a)) (slice rs a b)) x).
Proof. intros. now apply for_each_row_ok. Qed.
Print Assumptions C63_for_each_row.

Example C63_for_each_row_example :
  on_grid (fun g => for_each_row (fun x i r => x ++ [(i, length r)]) g (1, 3)%N []) = Ok (2%N, [(1%N, 4); (2%N, 1)]).
Proof. reflexivity. Qed.
Theorem C63_sequential_partition : forall X p (f : X -> N * N -> X * bool) g rs a b x, represents g rs -> a <= b -> b <= length rs ->
  exists ranges ok x', sequential_partition p f g (N.of_nat a, N.of_nat b) x = Ok (ok, x') /\
    groups (at_row p rs) b a ranges /\ called (on_nat f) ranges x ok x'.
Proof. intros. now apply sequential_partition_ok. Qed.
Print Assumptions C63_sequential_partition.

Example C63_sequential_partition_example :
  (g <- load (csv 0) runs_text ;; sequential_partition is_head (fun x q => (x ++ [q], true)) g (all_rows g) []) = Ok (true, [(0, 3); (3, 5); (5, 7)]%N) /\
  (g <- load (csv 0) runs_text ;; sequential_partition is_head (fun x q => (x ++ [q], N.eqb (fst q) 0)) g (all_rows g) []) = Ok (false, [(0, 3); (3, 5)]%N).
Proof. split; reflexivity. Qed.
Theorem C63_groups_unique : forall p b s l l', groups p b s l -> groups p b s l' -> l = l'.
Proof. exact groups_unique. Qed.
Print Assumptions C63_groups_unique.

Example C63_groups_example : groups (fun i => i =? 2) 4 0 [(0, 2); (2, 4)].
Proof.
  apply groups_cut; [lia|intros; lia|reflexivity|exists 1; split; [lia|reflexivity]|].
  apply groups_last; [lia|]. intros i Hi E. apply Nat.eqb_eq in E. lia.
Qed.

(* join_row leaves out the last cell of the last row *)
Theorem C63_join_last_row_refuted : forall buf g rs i r d result, represents g rs -> nth_error rs i = Some r -> S i = length rs ->
  join_row buf g (N.of_nat i) d result = Ok (true, result ++ joined d (map (sub buf) (removelast r))).
Proof. intros buf g rs i r d result Hg Hi Hl. rewrite (join_row_ok buf g rs Hg i r d result Hi). destruct (Nat.ltb_spec (S i) (length rs)); [lia|reflexivity]. Qed.
Print Assumptions C63_join_last_row_refuted.
Example C63_join_last_row_example : let t := str "a,b" in (g <- load (csv 0) t ;; join_row t g 0 (str "-") []) = Ok (true, str "a").
Proof. reflexivity. Qed.

(* accumulate_column reports more values than it added *)
Theorem C63_accumulate_count_refuted : on_grid (fun g => accumulate_column Nat.add letter demo_text g 2 (all_rows g) 0) = Ok (3%N, 99 + 101).
Proof. vm_compute. reflexivity. Qed.
Print Assumptions C63_accumulate_count_refuted.

(* a column index one past the greatest column count is accepted *)
Theorem C63_past_last_column_refuted : on_grid (fun g => Ok (max_c g)) = Ok 4%N /\
  on_grid (fun g => extract_column Some demo_text g (all_rows g) 4 []) = Ok (true, (false, [])).
Proof. vm_compute. auto. Qed.
Print Assumptions C63_past_last_column_refuted.

(* through a pointer the checked extraction puts every value in the first place *)
Theorem C63_checked_pointer_refuted :
  on_grid (fun g => extract_column_checked_ptr letter demo_text g (all_rows g) 0 [0; 0; 0]) = Ok (true, [100; 0; 0]).
Proof. vm_compute. reflexivity. Qed.
Print Assumptions C63_checked_pointer_refuted.

(* groups of one row are not told apart from the next group: the last two rows satisfy the
   predicate and still come as one range *)
Theorem C63_single_row_groups_refuted : forall X p (f : X -> N * N -> X * bool) g rs a b x, represents g rs -> a < b -> b <= length rs ->
  (forall i, a < i < b -> at_row p rs i = true) ->
  exists ok x', sequential_partition p f g (N.of_nat a, N.of_nat b) x = Ok (ok, x') /\ called (on_nat f) [(a, b)] x ok x'.
Proof.
  intros X p f g rs a b x Hg Hab Hb Hp. destruct (sequential_partition_ok g rs Hg p f a b x ltac:(lia) Hb) as (ranges & ok & x' & E & H & Hc).
  exists ok, x'. split; [exact E|]. replace [(a, b)] with ranges; [exact Hc|]. eapply groups_unique; [exact H|]. apply groups_last; [exact Hab|].
  intros i Hi _ j Hj. apply Hp. lia.
Qed.
Print Assumptions C63_single_row_groups_refuted.

Example C63_single_row_groups_refuted_ex : (g <- load (csv 0) (str "a" ++ [ascii_of_nat 10] ++ str "b" ++ [ascii_of_nat 10] ++ str "c") ;; sequential_partition (fun _ _ => true) (fun x q => (x ++ [q], true)) g (all_rows g) []) = Ok (true, [(0, 3)%N]).
Proof. vm_compute. reflexivity. Qed.

(* ------------------------------------------------------------------ *)
(* C64 *)

Theorem C64_quoted_load : forall o text lines cells, support_dquotes o = true -> trim_dquotes o = false ->
  (column_split_option o = 0 \/ column_split_option o = 1 \/ column_split_option o = 2)%N ->
  compressed_tokens (row_delimiters o) text lines ->
  quoted_cells (column_delimiters o) (column_split_option o) false (filter nonempty lines) cells -> small (length (concat cells)) ->
  exists g rs, load o text = Ok g /\ represents g rs /\ counts_right g rs /\ map (map (sub text)) rs = cells.
Proof.
  intros o text lines cells Hd Ht Ho Hl Hc Hs. destruct (load_quoted_ok o text Hd Ho) as (lines' & cells' & rs & Hl' & Hc' & Em & H & _).
  rewrite (compressed_unique _ _ _ _ Hl' Hl) in Hc'. rewrite (quoted_fun _ _ _ _ _ Hc' _ Hc) in *.
  destruct (H Hs Ht) as (g & E & Hg & Hcr & _). exists g, rs. auto.
Qed.
Print Assumptions C64_quoted_load.

Example C64_quoted_load_example :
  texts_of (load (qcsv 0 false) quoted_text) quoted_text =
    [[q ++ str "a,b" ++ q; str "c"]; [str "d" ++ q ++ str ",," ++ q ++ str "e"; []; q ++ str "f" ++ q]].
Proof. reflexivity. Qed.
(* the cells exist and are determined *)
Theorem C64_quoted_cells : forall rd_ cd opt text, (opt = 0 \/ opt = 1 \/ opt = 2)%N ->
  exists lines, compressed_tokens rd_ text lines /\ exists! cells, quoted_cells cd opt false (filter nonempty lines) cells.
Proof.
  intros rd_ cd opt text Ho. destruct (load_quoted_ok (Options opt rd_ cd true false) text eq_refl Ho) as (lines & cells & _ & Hl & Hc & _).
  exists lines. split; [exact Hl|]. exists cells. split; [exact Hc|]. intros c' H'. eapply quoted_fun; eauto.
Qed.
Print Assumptions C64_quoted_cells.

Example C64_quoted_cells_example : marked (str ",") false (q ++ str "a,b" ++ q ++ str ",c") =
  combine (q ++ str "a,b" ++ q ++ str ",c") [false; false; false; false; false; true; false].
Proof. reflexivity. Qed.
Theorem C64_trimmed_load : forall o text, support_dquotes o = true -> trim_dquotes o = true ->
  (column_split_option o = 0 \/ column_split_option o = 1 \/ column_split_option o = 2)%N ->
  exists lines cells toks, compressed_tokens (row_delimiters o) text lines /\
    quoted_cells (column_delimiters o) (column_split_option o) false (filter nonempty lines) cells /\
    map (map (sub text)) toks = cells /\
    (small (length (concat cells)) -> Forall (Forall (trimmable text)) toks ->
     exists g rs, load o text = Ok g /\ represents g rs /\ counts_right g rs /\ map (map (sub text)) rs = map (map unquoted) cells).
Proof.
  intros o text Hd Ht Ho. destruct (load_quoted_ok o text Hd Ho) as (lines & cells & rs & Hl & Hc & Em & _ & H).
  exists lines, cells, rs. split; [exact Hl|]. split; [exact Hc|]. split; [exact Em|]. intros Hs Htr.
  destruct (H Hs Ht Htr) as (g & rs' & E & Hg & Hcr & _ & Em'). exists g, rs'. auto.
Qed.
Print Assumptions C64_trimmed_load.

Example C64_example :
  texts_of (load (qcsv 0 false) quoted_text) quoted_text =
    [[q ++ str "a,b" ++ q; str "c"]; [str "d" ++ q ++ str ",," ++ q ++ str "e"; []; q ++ str "f" ++ q]] /\
  texts_of (load (qcsv 0 true) quoted_text) quoted_text =
    [[str "a,b"; str "c"]; [str "d" ++ q ++ str ",," ++ q ++ str "e"; []; str "f"]] /\
  texts_of (load (qcsv 1 true) quoted_text) quoted_text =
    [[str "a,b"; str "c"]; [str "d" ++ q ++ str ",," ++ q ++ str "e"; str "f"]].
Proof. vm_compute. auto. Qed.

(* a quote left open in one line turns the meaning of quotes round in all later lines *)
Theorem C64_quote_state_refuted : exists text, texts_of (load (qcsv 0 false) text) text = [[str "a" ++ q]; [str "b,c"]; [str "d,e"]].
Proof. exists (str "a" ++ q ++ nl ++ str "b,c" ++ nl ++ str "d,e"). vm_compute. reflexivity. Qed.
Print Assumptions C64_quote_state_refuted.

(* with include_all_delimiters, a quote right after a delimiter is seen twice, and protects
   nothing *)
Theorem C64_include_all_refuted : exists text, texts_of (load (qcsv 4 false) text) text = [[str "a,"; q ++ str "b,"; str "c" ++ q]].
Proof. exists (str "a," ++ q ++ str "b,c" ++ q). vm_compute. reflexivity. Qed.
Print Assumptions C64_include_all_refuted.

(* trimming reads past the text when it ends in an empty cell *)
Theorem C64_trim_trailing_refuted : load (qcsv 0 true) (str "a,") = UB.
Proof. reflexivity. Qed.
Print Assumptions C64_trim_trailing_refuted.

(* a cell that is a lone quote becomes a range that ends before it begins *)
Theorem C64_trim_lone_quote_refuted : trim_token (str "a," ++ q) (2, 3) = Ok (3, 2).
Proof. reflexivity. Qed.
Print Assumptions C64_trim_lone_quote_refuted.
