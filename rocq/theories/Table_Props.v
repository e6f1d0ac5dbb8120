From Verif Require Import Base Split_Model Num_Model Num_Spec Text_Model Parse_Spec
  Grid_Spec Grid_Model Grid_Rep Grid_Proofs Grid_Proofs2 Grid_Props Table_Model Table_Spec Table_Proofs Table_Proofs2.
Local Open Scope nat_scope.

(* ---- C132 ---- *)
(* g has exactly these rows, as token_grid hands them out over the text *)
Definition has_rows (text : list ascii) (g : grid) (rows : list (list (list ascii))) : Prop :=
  row_count g = N.of_nat (length rows) /\
  forall i r, nth_error rows i = Some r ->
    exists rw ts, row g (N.of_nat i) = Ok rw /\ row_tokens g rw = Ok ts /\ map (sub text) ts = r.
Lemma has_rows_of text g rs rows : represents g rs -> map (map (sub text)) rs = rows -> has_rows text g rows.
Proof.
  intros Hg <-. split; [rewrite map_length; now apply row_count_ok|]. intros i r Hi. rewrite nth_error_map in Hi. unfold tok in *.
  destruct (nth_error rs i) as [ts|] eqn:E; [|discriminate]. injection Hi as <-. destruct (row_ok _ _ _ _ Hg E) as (rw & Er & _ & Hrow).
  exists rw, ts. split; [exact Er|]. split; [now apply row_tokens_ok|reflexivity].
Qed.
Theorem C132_cells : forall d rows, d <> ascii_of_nat 10 -> d <> ascii_of_nat 13 -> (N.of_nat (length (concat rows)) < 2 ^ 32)%N ->
  (table d rows -> exists g, load (compressed [d]) (table_text d rows) = Ok g /\ has_rows (table_text d rows) g rows) /\
  (loose_table d rows -> exists g, load (separate [d]) (table_text d rows) = Ok g /\ has_rows (table_text d rows) g rows).
Proof.
  intros d rows H10 H13 Hs. assert (Hd : ~ In d row_ends) by (intros [H|[H|[]]]; congruence). split; intros Ht.
  - destruct (load_cells (compressed [d]) (table_text d rows) rows eq_refl (cells_compressed d rows Hd Ht) Hs) as (g & rs & E & Hg & _ & _ & Hm).
    exists g. split; [exact E|]. eapply has_rows_of; eassumption.
  - destruct (load_cells (separate [d]) (table_text d rows) rows eq_refl (cells_separate d rows Hd Ht) Hs) as (g & rs & E & Hg & _ & _ & Hm).
    exists g. split; [exact E|]. eapply has_rows_of; eassumption.
Qed.
Print Assumptions C132_cells.
Definition small_table : list (list (list ascii)) := [[str "a"; str ""; str "bc"]; [str "d"]].
Example C132_cells_ex : table_text ";" small_table = str "a;;bc" ++ [newline] ++ str "d" ++ [newline] /\ loose_table ";" small_table /\ ~ table ";" small_table /\
  (g <- load (separate (str ";")) (table_text ";" small_table) ;; rw <- row g 0 ;; row_tokens g rw) = Ok [(0, 1); (2, 2); (3, 5)] /\
  (g <- load (compressed (str ";")) (table_text ";" small_table) ;; rw <- row g 0 ;; row_tokens g rw) = Ok [(0, 1); (3, 5)].
Proof.
  split; [reflexivity|]. split.
  - repeat constructor; try discriminate; cbn; intuition discriminate.
  - split; [|split; reflexivity]. intros H. inversion H as [|? ? [_ H1] _]; subst. inversion H1 as [|? ? _ H2]; subst. inversion H2 as [|? ? [H3 _] _]; subst. now apply H3.
Qed.

(* day_count is the number of rows of the symbol, total_volume the sum of their volumes *)
Theorem C132_totals : forall rows symbol vs, table "," rows -> (N.of_nat (length (concat rows)) < 2 ^ 32)%N ->
  Forall2 (number_at 6 18446744073709551615) (filter (concerns symbol) rows) vs ->
  stock_info (table_text "," rows) symbol = Ok (N.of_nat (length vs), (sum_of vs mod 2 ^ 64)%Z).
Proof.
  intros rows symbol vs Ht Hs Hv. apply (stock_taken rows symbol true vs Ht Hs).
  exists (map (fun r => nth 6 r []) (filter (concerns symbol) rows)), []. split; [now rewrite app_nil_r|]. split; [now apply number_cell|reflexivity].
Qed.
Print Assumptions C132_totals.
Definition trades : list (list (list ascii)) :=
  [ map str ["1"; "AA"; "5"; "6"; "4"; "5"; "100"; "5"]; map str ["2"; "BB"; "1"; "1"; "1"; "1"; "7"; "1"];
    map str ["3"; "AA"; "5"]; map str ["4"; "AA"; "5"; "6"; "4"; "5"; "+0023"] ]%string.
Example C132_totals_ex : map (concerns (str "AA")) trades = [true; false; false; true] /\
  stock_info (table_text "," trades) (str "AA") = Ok (2%N, 123%Z) /\ stock_info (table_text "," trades) (str "CC") = Ok (0%N, 0%Z).
Proof. repeat split; vm_compute; reflexivity. Qed.

(* a volume that is no number makes the count 0; the sum stays at the rows before it *)
Theorem C132_bad_volume : forall rows symbol good bad rest vs, table "," rows -> (N.of_nat (length (concat rows)) < 2 ^ 32)%N ->
  filter (concerns symbol) rows = good ++ bad :: rest -> Forall2 (number_at 6 18446744073709551615) good vs ->
  (forall v, ~ number_at 6 18446744073709551615 bad v) ->
  stock_info (table_text "," rows) symbol = Ok (0%N, (sum_of vs mod 2 ^ 64)%Z).
Proof.
  intros rows symbol good bad rest vs Ht Hs Hf Hv Hb. apply (stock_taken rows symbol false vs Ht Hs). rewrite Hf, map_app.
  exists (map (fun r => nth 6 r []) good), (map (fun r => nth 6 r []) (bad :: rest)). split; [reflexivity|]. split; [now apply number_cell|].
  cbn [map]. exists (nth 6 bad []), (map (fun r => nth 6 r []) rest). split; [reflexivity|].
  destruct (to_ullong (nth 6 bad [])) as [v|] eqn:E; [|reflexivity]. exfalso. apply (Hb v).
  assert (Hi : In bad (filter (concerns symbol) rows)) by (rewrite Hf; apply in_elt). apply filter_In in Hi as [_ Hc]. unfold concerns in Hc.
  destruct (nth_error bad 1); [|discriminate]. destruct (nth_error bad 6) as [t|] eqn:E6; [|discriminate].
  exists t. split; [exact E6|]. rewrite (nth_error_nth _ _ _ E6) in E. now apply to_ullong_iff.
Qed.
Print Assumptions C132_bad_volume.
Example C132_bad_volume_ex :
  stock_info (table_text "," (trades ++ [map str ["5"; "AA"; "5"; "6"; "4"; "5"; "n/a"]%string] ++ trades)) (str "AA") = Ok (0%N, 123%Z).
Proof. vm_compute. reflexivity. Qed.

(* with empty cells in the table the volume is taken from the wrong column *)
Theorem C132_empty_cell_refuted : forall a symbol x y z volume after v w, let r := [a; symbol; []; x; y; z; volume; after] in
  Forall (fun c => c <> [] /\ plain "," c) [a; symbol; x; y; z; volume; after] -> unsigned_text volume v -> unsigned_text after w -> (w <= 18446744073709551615)%Z ->
  loose_table "," [r] /\ concerns symbol r = true /\ stock_info (table_text "," [r]) symbol = Ok (1%N, w).
Proof.
  intros a symbol x y z volume after v w r Hf Hv Hw Hb. assert (Hl : loose_table "," [r]).
  { constructor; [|constructor]. split; [discriminate|]. split; [discriminate|].
    repeat match goal with H : Forall _ (_ :: _) |- _ => inversion H as [|? ? [? ?]]; subst; clear H end. repeat (apply Forall_cons; [first [assumption|repeat split; intros []]|]). apply Forall_nil. }
  split; [exact Hl|]. split; [unfold concerns; cbn; now destruct (list_eq_dec ascii_dec symbol symbol)|].
  (* the two commas count as one *)
  destruct (table_lines "," [r] comma_in Hl) as (lines & Hln & Hfl).
  assert (Hc : cells_of row_ends [","%char] 1 (table_text "," [r]) [[a; symbol; x; y; z; volume; after]]).
  { exists lines. split; [exact Hln|]. rewrite Hfl. cbn [map]. constructor; [|constructor].
    replace (separated [","%char] r) with (concat (map (fun q => fst q ++ snd q)
      [(a, [","%char]); (symbol, [","%char; ","%char]); (x, [","%char]); (y, [","%char]); (z, [","%char]); (volume, [","%char])]) ++ after)
      by (unfold r; cbn; now rewrite <- !app_assoc).
    repeat match goal with H : Forall _ (_ :: _) |- _ => inversion H as [|? ? [? ?]]; subst; clear H end.
    refine (fields_pairs "," [(a, [","%char]); (symbol, [","%char; ","%char]); (x, [","%char]); (y, [","%char]); (z, [","%char]); (volume, [","%char])] after _ _); [auto|].
    repeat (apply Forall_cons; [cbn [fst snd]; split; [now split|split; [discriminate|repeat (apply Forall_cons; [reflexivity|]); apply Forall_nil]]|]). apply Forall_nil. }
  destruct (load_cells (compressed (str ",")) (table_text "," [r]) _ eq_refl Hc eq_refl) as (g & rs & E & Hg & Hcr & _ & Hm).
  unfold stock_info. rewrite E. cbn [bind]. rewrite (all_rows_ok g rs Hg). change 6%N with (N.of_nat 6).
  assert (Hlen : exists r', rs = [r'] /\ length r' = 7).
  { destruct rs as [|r' [|? ?]]; try discriminate. exists r'. split; [reflexivity|]. cbn in Hm. injection Hm as Hm. apply (f_equal (@length _)) in Hm. now rewrite map_length in Hm. }
  destruct Hlen as (r' & -> & Hr').
  assert (H6 : (N.of_nat 6 <= max_c g)%N) by (apply (column_at_most g [r'] r' 6 Hcr (or_introl eq_refl)); lia).
  destruct (C63_accumulate_column_if Z (fun a b => (a + b) mod 2 ^ 64)%Z (symbol_predicate (table_text "," [r]) symbol) (table_text "," [r]) g [r'] to_ullong 0 1 6 0%Z Hg H6 ltac:(lia) ltac:(cbn; lia)) as (ok' & vs' & E' & Ht').
  change (N.of_nat (length [r'])) with (N.of_nat 1). rewrite E'. change 1 with (length [r']) in Ht' at 1. rewrite slice_all, chosen_concerns, Hm in Ht'.
  cbn [filter] in Ht'. unfold concerns in Ht'. cbn [nth_error] in Ht'. destruct (list_eq_dec ascii_dec symbol symbol) as [_|N]; [|congruence]. cbn [map nth] in Ht'.
  assert (T : taken to_ullong [after] true [w]).
  { exists [after], []. split; [reflexivity|]. split; [|reflexivity]. cbn [map]. now rewrite (proj2 (to_ullong_iff after w) (conj Hw Hb)). }
  destruct (taken_fun _ _ _ _ _ _ T Ht') as [<- <-]. cbn [fold_left length]. do 2 f_equal. apply Z.mod_small.
  destruct Hw as (sg & ds & _ & _ & Hd & ->). pose proof (Num_Proofs.dec_bounds ds (proj2 Hd)). lia.
Qed.
Print Assumptions C132_empty_cell_refuted.
Example C132_empty_cell_ex :
  stock_info (table_text "," [map str ["1"; "AA"; ""; "6"; "4"; "5"; "100"; "42"]%string]) (str "AA") = Ok (1%N, 42%Z).
Proof. vm_compute. reflexivity. Qed.

(* ---- C133 ---- *)
Lemma forall2_length {A B} (R : A -> B -> Prop) l l' : Forall2 R l l' -> length l = length l'.
Proof. induction 1; cbn; auto. Qed.
(* one sum for each group of rows; a group ends where a new period starts, if the group has rows after its
   first that do not start one.  The times fit std::size_t as parsed, the values are what the
   conversion makes of the second cells. *)
Theorem C133_sums : forall T (conv : list ascii -> option T) add nought rows times values,
  table "," rows -> (N.of_nat (length (concat rows)) < 2 ^ 32)%N ->
  Forall2 (number_at 0 4294967295) rows times ->
  Forall2 (fun r v => exists t, nth_error r 1 = Some t /\ conv t = Some v) rows values ->
  exists ranges, groups (fun i => nth i (period_starts 0 times) false) (length rows) 0 ranges /\
    bucket_sums conv add nought (table_text "," rows) =
      Ok (true, map (fun q => fold_left add (slice values (fst q) (snd q)) nought) ranges).
Proof. intros T conv add nought rows times values Ht Hs Hm Hv. now apply bucket_sums_ok. Qed.
Print Assumptions C133_sums.
Definition ticks (l : list (String.string * String.string)) : list (list (list ascii)) := map (fun p => [str (fst p); str (snd p)]) l.
Definition sums_of (l : list (String.string * String.string)) := bucket_sums to_ullong Z.add 0%Z (table_text "," (ticks l)).
Example C133_sums_ex : period_starts 0 [5; 6; 9; 10; 13; 14]%Z = [true; false; true; false; true; false] /\
  sums_of [("5", "1"); ("6", "2"); ("9", "4"); ("10", "8"); ("13", "16"); ("14", "32")]%string = Ok (true, [3; 12; 48]%Z).
Proof. split; vm_compute; reflexivity. Qed.

(* rows one unit of time apart: the sums of three rows each *)
Theorem C133_threes : forall T (conv : list ascii -> option T) add nought rows t values,
  table "," rows -> (N.of_nat (length (concat rows)) < 2 ^ 32)%N ->
  Forall2 (number_at 0 4294967295) rows (counted t (length rows)) ->
  Forall2 (fun r v => exists t, nth_error r 1 = Some t /\ conv t = Some v) rows values ->
  exists parts, threes values parts /\
    bucket_sums conv add nought (table_text "," rows) = Ok (true, map (fun part => fold_left add part nought) parts).
Proof.
  intros T conv add nought rows t values Ht Hs Hm Hv. destruct (bucket_sums_ok conv add nought rows _ values Ht Hs Hm Hv) as (ranges & Hg & ->).
  assert (Hlen : length values = 0 + length rows) by (symmetry; eapply forall2_length; exact Hv).
  assert (Ht0 : rows <> [] -> (0 <= t)%Z).
  { intros Hr. destruct rows as [|r rows']; [congruence|]. cbn [length counted] in Hm. inversion Hm as [|? ? ? ? (c & _ & (sg & ds & _ & _ & Hd & ->) & _)]; subst.
    apply (Num_Proofs.dec_bounds ds). apply Hd. }
  destruct (groups_threes (fun i => nth i (period_starts 0 (counted t (length rows))) false) values (S (length rows)) (length rows) 0 ltac:(lia) Hlen) as (ranges' & Hg' & H3).
  - intros k Hk. cbn [plus]. apply (counted_starts (S (length rows))); [lia| |exact Hk]. apply Ht0. intros ->. cbn in Hk. lia.
  - cbn [plus skipn] in *. rewrite (C63_groups_unique _ _ _ _ _ Hg Hg'). exists (map (fun q => slice values (fst q) (snd q)) ranges'). split; [exact H3|].
    do 2 f_equal. now rewrite map_map.
Qed.
Print Assumptions C133_threes.
Example C133_threes_ex : threes [1; 2; 4; 8; 16] [[1; 2; 4]; [8; 16]] /\
  sums_of [("7", "1"); ("8", "2"); ("9", "4"); ("10", "8"); ("11", "16")]%string = Ok (true, [7; 24]%Z).
Proof. split; [|vm_compute; reflexivity]. apply threes_more; [discriminate|]. apply threes_last. cbn. lia. Qed.

(* rows three or more units apart each start a period, yet all of them end up in one sum *)
Theorem C133_gaps_refuted : forall T (conv : list ascii -> option T) add nought rows times values,
  table "," rows -> rows <> [] -> (N.of_nat (length (concat rows)) < 2 ^ 32)%N ->
  Forall2 (number_at 0 4294967295) rows times -> spaced times ->
  Forall2 (fun r v => exists t, nth_error r 1 = Some t /\ conv t = Some v) rows values ->
  Forall (eq true) (period_starts 0 times) /\
  bucket_sums conv add nought (table_text "," rows) = Ok (true, [fold_left add values nought]).
Proof.
  intros T conv add nought rows times values Ht Hne Hs Hm Hsp Hv. destruct (bucket_sums_ok conv add nought rows _ values Ht Hs Hm Hv) as (ranges & Hg & ->).
  assert (Hlen : length times = length rows) by (symmetry; eapply forall2_length; exact Hm).
  assert (Hst : forall k, k < length times -> nth k (period_starts 0 times) false = true).
  { intros k Hk. apply spaced_starts; [exact Hsp| |exact Hk]. intros t Hh. destruct times as [|t' times]; [discriminate|]. injection Hh as ->.
    inversion Hm as [|? ? ? ? (c & _ & (sg & ds & _ & _ & Hd & ->) & _)]; subst. apply (Num_Proofs.dec_bounds ds). apply Hd. }
  assert (Hl : length (period_starts 0 times) = length times).
  { generalize 0%Z. clear. induction times as [|t times IH]; intros n; cbn [period_starts]; [reflexivity|]. destruct (n <=? t)%Z; cbn [length]; now rewrite IH. }
  split.
  - apply Forall_forall. intros b Hb. apply In_nth with (d := false) in Hb as (k & Hk & <-). symmetry. apply Hst. now rewrite <- Hl.
  - assert (H1 : groups (fun i => nth i (period_starts 0 times) false) (length rows) 0 [(0, length rows)]).
    { apply groups_last; [destruct rows; [congruence|cbn; lia]|]. intros i Hi _ j Hj. apply Hst. lia. }
    rewrite (C63_groups_unique _ _ _ _ _ Hg H1). cbn [map fst snd]. assert (Hlv : length values = length rows) by (symmetry; eapply forall2_length; exact Hv).
    rewrite <- Hlv, slice_all. reflexivity.
Qed.
Print Assumptions C133_gaps_refuted.
Example C133_gaps_ex : sums_of [("10", "1"); ("20", "2"); ("30", "4"); ("33", "8")]%string = Ok (true, [15]%Z).
Proof. vm_compute. reflexivity. Qed.

(* ---- C134 ---- *)
Theorem C134_print : forall rows, loose_table "," rows -> (N.of_nat (length (concat rows)) < 2 ^ 32)%N ->
  Forall (Forall (fun c => ~ In zero c)) rows ->
  exists shown, print_table (table_text "," rows) = Ok (bracketed shown) /\ map (@length _) shown = map (@length _) rows /\
    forall i j c, cell rows i j = Some c -> exists s a b, cell shown i j = Some s /\ padded a b c s /\ length s = width_of rows j /\
      (j <= 1 \/ i = 0 -> a <= b <= a + 1) /\ (1 < j -> 0 < i -> b = 0).
Proof.
  intros rows Ht Hs Hz. eexists. split; [apply print_table_ok; assumption|]. split.
  - rewrite map_mapi. assert (G : forall l k, mapi (fun i (x : list (list ascii)) => length (mapi (fun j c => show_cell (width_of rows j) i j c) 0 x)) k l = map (@length _) l).
    { induction l as [|r l IH]; intros k; cbn [mapi map]; [reflexivity|]. now rewrite IH, mapi_length. }
    apply G.
  - intros i j c Hc. unfold cell in Hc. destruct (nth_error rows i) as [r|] eqn:Ei; [|discriminate].
    destruct (show_cell_ok (width_of rows j) i j c (width_bound _ _ _ _ _ Ei Hc)) as (a & b & Hp & Hl & Hab).
    exists (show_cell (width_of rows j) i j c), a, b. split; [|split; [exact Hp|split; [exact Hl|]]].
    + unfold cell. rewrite mapi_nth, Ei. cbn [option_map]. rewrite mapi_nth, Hc. reflexivity.
    + destruct (Nat.leb_spec j 1), (Nat.eqb_spec i 0); cbn [orb] in Hab; split; intros; try exact Hab; lia.
Qed.
Print Assumptions C134_print.
Example C134_print_ex : print_table (table_text "," [map str ["id"; "name"; "qty"]; map str ["1"; "bolt"; "12"]; map str ["2"; ""; "1200"]; map str ["10"; "nut"]]%string) =
  Ok (str "[id] [name] [qty ] " ++ [newline] ++ str "[1 ] [bolt] [  12] " ++ [newline] ++ str "[2 ] [    ] [1200] " ++ [newline] ++ str "[10] [nut ] " ++ [newline]).
Proof. vm_compute. reflexivity. Qed.
