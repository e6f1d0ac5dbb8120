From Verif Require Import Base Split_Model Num_Model Num_Spec Num_Proofs2 Text_Model Filter_Model Parse_Spec
  Grid_Spec Grid_Model Grid_Rep Grid_Proofs Grid_Proofs2 Grid_Props Table_Model Table_Spec Table_Proofs Table_Proofs2 Cells_Model Cells_Spec Cells_Proofs Cells_Proofs2 Cells_Proofs3.
Local Open Scope nat_scope.

(* ---- C145 ---- *)
(* for any text with at least one row: a complaint if the rows differ in length, then one line for
   each of the columns that all rows have *)
Theorem C145_columns : forall fuel text cells mn mx,
  cells_of row_ends (str " ") 1 text cells -> (N.of_nat (length (concat cells)) < 2 ^ 32)%N ->
  least_length cells mn -> greatest_length cells mx -> mn < fuel ->
  exists w, complaint mn mx w /\ print_columns fuel text = Ok (w ++ table_text " "%char (transposed cells mn)).
Proof. exact print_columns_ok. Qed.
Print Assumptions C145_columns.
Definition nl : list ascii := [newline].
Example C145_columns_ex : print_columns 9 (str "a b c" ++ nl ++ str "d  e") =
  Ok (str "token_grid_test07 - ERROR!" ++ nl ++ str "min column count: 2" ++ nl ++ str "max column count: 3" ++ nl ++ str "a d" ++ nl ++ str "b e" ++ nl) /\
  transposed [[1; 2; 3]; [4; 5]] 2 = [[1; 4]; [2; 5]].
Proof. vm_compute. auto. Qed.

(* words in rows of one length, any blanks between them and any newlines between the rows: the columns
   as rows, one blank between the words *)
Definition words (rows : list (list (list ascii))) : Prop := Forall (Forall (fun c => c <> [] /\ plain " "%char c)) rows.
Theorem C145_turned : forall fuel rows m text, words rows -> rectangle m rows -> rows <> [] -> 0 < m < fuel ->
  (N.of_nat (length rows * m) < 2 ^ 32)%N -> spread_text rows text ->
  print_columns fuel text = Ok (table_text " "%char (transposed rows m)).
Proof.
  intros fuel rows m text Hw Hr Hne Hm Hs Ht. destruct (rectangle_lengths rows m Hr Hne) as [H1 H2].
  destruct (print_columns_ok fuel text rows m m (spread_cells rows text Ht Hw)) as (w & Hc & E); try assumption; try lia.
  - unfold small. now rewrite (rectangle_size _ _ Hr).
  - destruct Hc as [[_ ->]|[H _]]; [exact E|congruence].
Qed.
Print Assumptions C145_turned.
Example C145_turned_ex : spread_text [[str "a"; str "b"]; [str "cc"; str "d"]] (str "a   b" ++ nl ++ nl ++ str "cc d" ++ nl) /\
  print_columns 3 (str "a   b" ++ nl ++ nl ++ str "cc d" ++ nl) = Ok (str "a cc" ++ nl ++ str "b d" ++ nl).
Proof.
  split; [|reflexivity]. apply (spread_line _ (str "a   b") 1 _ (str "cc d" ++ nl)).
  - apply (spread_more (str "a") (str "   ") [str "b"] (str "b")); [discriminate|repeat constructor|constructor].
  - apply (spread_line _ (str "cc d") 0 _ []); [|constructor]. apply (spread_more (str "cc") (str " ") [str "d"] (str "d")); [discriminate|repeat constructor|constructor].
Qed.

Lemma spread_separated r : r <> [] -> spread r (separated (str " ") r).
Proof.
  induction r as [|w r IH]; [congruence|]. intros _. destruct r as [|w' r]; [constructor|].
  change (separated (str " ") (w :: w' :: r)) with (w ++ str " " ++ separated (str " ") (w' :: r)). constructor; [discriminate|repeat constructor|]. apply IH. discriminate.
Qed.
Lemma spread_table rows : Forall (fun r => r <> []) rows -> spread_text rows (table_text " "%char rows).
Proof.
  induction 1 as [|r rows Hr _ IH]; [constructor|]. unfold table_text. cbn [map concat]. rewrite <- app_assoc.
  exact (spread_line r (separated (str " ") r) 0 rows _ (spread_separated r Hr) IH).
Qed.
(* turned twice, the words come back in their rows *)
Theorem C145_twice : forall fuel fuel' rows m text, words rows -> rectangle m rows -> rows <> [] -> 0 < m < fuel -> length rows < fuel' ->
  (N.of_nat (length rows * m) < 2 ^ 32)%N -> spread_text rows text ->
  (once <- print_columns fuel text ;; print_columns fuel' once) = Ok (table_text " "%char rows).
Proof.
  intros fuel fuel' rows m text Hw Hr Hne Hm Hl Hs Ht. rewrite (C145_turned fuel rows m text) by assumption. cbn [bind].
  assert (Hl0 : 0 < length rows) by (destruct rows; [congruence|cbn; lia]).
  rewrite (C145_turned fuel' (transposed rows m) (length rows)).
  - now rewrite transposed_twice by (assumption || lia).
  - unfold words, transposed. rewrite Forall_map, Forall_forall. intros j _. now apply column_all.
  - now apply transposed_rectangle.
  - intros H. pose proof (transposed_length rows m) as L. rewrite H in L. cbn in L. lia.
  - lia.
  - rewrite transposed_length. lia.
  - apply spread_table. pose proof (transposed_rectangle rows m Hr) as G. eapply Forall_impl; [|exact G]. cbn. intros r Hlen ->. cbn in Hlen. lia.
Qed.
Print Assumptions C145_twice.
Example C145_twice_ex : (once <- print_columns 4 (str "a  b c" ++ nl ++ str "d e   f" ++ nl) ;; print_columns 3 once) = Ok (str "a b c" ++ nl ++ str "d e f" ++ nl).
Proof. reflexivity. Qed.

(* a text without rows has 2^64-1 as its smallest number of columns: one empty line is written for
   each of them *)
Lemma no_rows_loop (body : N * list ascii -> outcome ((N * list ascii) + list ascii)) :
  (forall i out, (i < size_max)%N -> body (i, out) = Ok (inl ((i + 1)%N, out ++ endl))) ->
  forall fuel i out, (i + N.of_nat fuel <= size_max)%N -> loop fuel body (i, out) = OutOfFuel.
Proof.
  intros H. induction fuel as [|fuel IH]; intros i out Hi; cbn [loop]; [reflexivity|]. rewrite H by lia. cbn [bind]. apply IH. lia.
Qed.
Theorem C145_no_rows_refuted : forall fuel, (N.of_nat fuel < 2 ^ 64)%N -> print_columns fuel [] = OutOfFuel.
Proof.
  intros fuel Hf. unfold print_columns. change (load (compressed blank) []) with (Ok (Grid [] [] size_max 0)). cbn [bind min_c max_c].
  change (negb (size_max =? 0)%N) with true. cbv iota.
  assert (E1 : exists s, show_size size_max = Ok s).
  { unfold show_size. pose proof (format_unsigned_ok (Z.of_N size_max) ltac:(vm_compute; split; [discriminate|reflexivity])) as F.
    destruct (format_unsigned (Z.of_N size_max)) as [s| |]; [eauto|destruct F|destruct F]. }
  destruct E1 as (s & ->). change (show_size 0) with (Ok (str "0")). cbn [bind]. apply no_rows_loop.
  - intros i out Hi. rewrite (proj2 (N.ltb_lt _ _) Hi). cbn [negb]. unfold extract_column. cbn [max_c]. destruct (0 <? i)%N; reflexivity.
  - assert (size_max = 2 ^ 64 - 1)%N by reflexivity. lia.
Qed.
Print Assumptions C145_no_rows_refuted.

(* ---- C146 ---- *)
(* all empty cells go, and with them the rows that had nothing else *)
Theorem C146_all : forall rows, loose_table ","%char rows -> (N.of_nat (length (concat rows)) < 2 ^ 32)%N ->
  test14_all (table_text ","%char rows) =
    Ok (str "Before Empty Token Removal" ++ [newline] ++ bracketed rows ++
        str "After Empty Token Removal" ++ [newline] ++ bracketed (filter nonempty (map (filter nonempty) rows)) ++ [newline]).
Proof.
  intros rows Ht Hs. unfold test14_all. rewrite (removal_ok (fun t => fst t =? snd t) rows 0 (length rows) _ Ht Hs).
  - rewrite (proj2 (Nat.leb_le _ _) (Nat.le_0_l _)), Nat.leb_refl. cbn [andb]. rewrite thinned_all. unfold before_line, after_line, endl. rewrite <- !app_assoc. reflexivity.
  - auto.
  - intros g Hg. unfold remove_empty_tokens, all_rows. rewrite Hg. rewrite u32_small; [reflexivity|].
    assert (length rows <= length (concat rows)).
    { clear -Ht. induction Ht as [|r rows (H & _) _ IH]; [reflexivity|]. cbn [concat length]. rewrite app_length. destruct r; [congruence|]. cbn [length]. lia. }
    lia.
Qed.
Print Assumptions C146_all.
Definition gaps : list (list (list ascii)) := [[str "1"; []; str "2"]; [[]; []]; [str "3"; []]; [[]; str "4"]].
Example C146_all_ex : loose_table ","%char gaps /\ test14_all (table_text ","%char gaps) =
  Ok (str "Before Empty Token Removal" ++ nl ++ str "[1] [] [2] " ++ nl ++ str "[] [] " ++ nl ++ str "[3] [] " ++ nl ++ str "[] [4] " ++ nl ++
      str "After Empty Token Removal" ++ nl ++ str "[1] [2] " ++ nl ++ str "[3] " ++ nl ++ str "[4] " ++ nl ++ nl).
Proof.
  split; [|reflexivity]. unfold gaps, loose_table, plain. repeat (apply Forall_cons || apply Forall_nil || split); try discriminate; cbn; intuition discriminate.
Qed.

(* only in rows a to b-1; a range that is none leaves the table as it is *)
Theorem C146_range : forall rows a b, loose_table ","%char rows -> (N.of_nat (length (concat rows)) < 2 ^ 32)%N ->
  test14_range (N.of_nat a, N.of_nat b) (table_text ","%char rows) =
    Ok (str "Before Empty Token Removal" ++ [newline] ++ bracketed rows ++
        str "After Empty Token Removal" ++ [newline] ++ bracketed (if (a <=? b) && (b <=? length rows) then thinned rows a b else rows) ++ [newline]).
Proof.
  intros rows a b Ht Hs. unfold test14_range. rewrite (removal_ok (fun t => fst t =? snd t) rows a b _ Ht Hs).
  - unfold before_line, after_line, endl. rewrite <- !app_assoc. reflexivity.
  - auto.
  - auto.
Qed.
Print Assumptions C146_range.
Example C146_range_ex : thinned gaps 1 3 = [[str "1"; []; str "2"]; [str "3"]; [[]; str "4"]] /\
  test14_range (1, 3)%N (table_text ","%char gaps) =
  Ok (str "Before Empty Token Removal" ++ nl ++ str "[1] [] [2] " ++ nl ++ str "[] [] " ++ nl ++ str "[3] [] " ++ nl ++ str "[] [4] " ++ nl ++
      str "After Empty Token Removal" ++ nl ++ str "[1] [] [2] " ++ nl ++ str "[3] " ++ nl ++ str "[] [4] " ++ nl ++ nl).
Proof. split; reflexivity. Qed.

(* removing the cells of size 0 is removing the empty ones *)
Theorem C146_same : forall rows a b, loose_table ","%char rows -> (N.of_nat (length (concat rows)) < 2 ^ 32)%N ->
  (N.of_nat (length (table_text ","%char rows)) < 2 ^ 64)%N ->
  test14_if (N.of_nat a, N.of_nat b) (table_text ","%char rows) = test14_range (N.of_nat a, N.of_nat b) (table_text ","%char rows).
Proof.
  intros rows a b Ht Hs Hl. rewrite C146_range by assumption. unfold test14_if.
  rewrite (removal_ok (fun t => size_equal_to_range 0 (Z.of_nat (snd t) - Z.of_nat (fst t))) rows a b _ Ht Hs).
  - unfold before_line, after_line, endl. rewrite <- !app_assoc. reflexivity.
  - intros [x y] [H1 H2]. cbn [fst snd] in *. unfold size_equal_to_range, to_size_t. rewrite Z.mod_small by lia.
    destruct (Z.eqb_spec 0 (Z.of_nat y - Z.of_nat x)), (Nat.eqb_spec x y); auto; lia.
  - auto.
Qed.
Print Assumptions C146_same.
Example C146_same_ex : test14_if (0, 4)%N (table_text ","%char gaps) = test14_all (table_text ","%char gaps).
Proof. reflexivity. Qed.

(* rows a to b-1 in which some cell shows a 6 go; every row is printed with its position, its cells
   put together *)
Theorem C146_rows : forall rows a b, table ","%char rows -> (N.of_nat (length (concat rows)) < 2 ^ 32)%N ->
  exists before after, numbered 0 rows before /\
    numbered 0 (if (a <=? b) && (b <=? length rows) then weeded has_six rows a b else rows) after /\
    test13 (N.of_nat a, N.of_nat b) (table_text ","%char rows) = Ok (str "Before Removal" ++ [newline] ++ before ++ str "After Removal" ++ [newline] ++ after).
Proof. exact test13_ok. Qed.
Print Assumptions C146_rows.
Definition sixes : list (list (list ascii)) := [[str "6"; str "1"]; [str "2"; str "36"]; [str "3"]; [str "6"]].
Example C146_rows_ex : weeded has_six sixes 1 3 = [[str "6"; str "1"]; [str "3"]; [str "6"]] /\
  test13 (1, 3)%N (table_text ","%char sixes) =
  Ok (str "Before Removal" ++ nl ++ str "0[61]" ++ nl ++ str "1[236]" ++ nl ++ str "2[3]" ++ nl ++ str "3[6]" ++ nl ++
      str "After Removal" ++ nl ++ str "0[61]" ++ nl ++ str "1[3]" ++ nl ++ str "2[6]" ++ nl).
Proof. split; reflexivity. Qed.

(* exactly the rows with n cells stay *)
Theorem C146_counted : forall n rows, table ","%char rows -> (N.of_nat (length (concat rows)) < 2 ^ 32)%N ->
  test04 (N.of_nat n) (table_text ","%char rows) = Ok (tabbed (filter (fun r => n =? length r) rows)).
Proof. exact test04_ok. Qed.
Print Assumptions C146_counted.
Example C146_counted_ex : test04 2 (table_text ","%char sixes) = Ok (str "6" ++ [ascii_of_nat 9] ++ str "1" ++ [ascii_of_nat 9] ++ nl ++ str "2" ++ [ascii_of_nat 9] ++ str "36" ++ [ascii_of_nat 9] ++ nl).
Proof. reflexivity. Qed.

(* two such removals of rows, in one table, are the removal of both; what stays has no such row *)
Theorem C146_clean : forall (A : Type) (p : A -> bool) rows a b,
  a <= b -> b <= length rows ->
  let kept := weeded p rows a b in
  firstn a kept = firstn a rows /\ skipn (length kept - (length rows - b)) kept = skipn b rows /\
  weeded p kept a (length kept - (length rows - b)) = kept /\
  Forall (fun r => p r = false) (slice kept a (length kept - (length rows - b))).
Proof.
  intros A p rows a b Hab Hb. cbv zeta. unfold weeded at 1 2 3 5 6. set (mid := filter (fun r => negb (p r)) (slice rows a b)).
  assert (La : length (firstn a rows) = a) by (rewrite firstn_length; lia).
  assert (Lb : length (skipn b rows) = length rows - b) by apply skipn_length.
  assert (Le : length (firstn a rows ++ mid ++ skipn b rows) - (length rows - b) = a + length mid) by (rewrite !app_length, La, Lb; lia).
  assert (F1 : firstn a (firstn a rows ++ mid ++ skipn b rows) = firstn a rows) by (rewrite firstn_app, La, Nat.sub_diag; cbn [firstn]; rewrite app_nil_r, firstn_firstn, Nat.min_id; reflexivity).
  assert (S1 : skipn (a + length mid) (firstn a rows ++ mid ++ skipn b rows) = skipn b rows).
  { rewrite app_assoc, skipn_app, app_length, La, Nat.sub_diag, skipn_all2 by (rewrite app_length; lia). reflexivity. }
  assert (M1 : slice (firstn a rows ++ mid ++ skipn b rows) a (a + length mid) = mid).
  { unfold slice. replace (a + length mid - a) with (length mid) by lia. rewrite skipn_app, La, Nat.sub_diag, skipn_all2 by lia. cbn [skipn app].
    rewrite firstn_app, Nat.sub_diag, firstn_all. cbn [firstn]. apply app_nil_r. }
  assert (Fm : filter (fun r => negb (p r)) mid = mid).
  { unfold mid. clear. induction (slice rows a b) as [|x l IH]; [reflexivity|]. cbn. destruct (p x) eqn:E; cbn; [exact IH|]. rewrite E. cbn. now rewrite IH. }
  split; [exact F1|]. fold (weeded p rows a b). change (weeded p rows a b) with (firstn a rows ++ mid ++ skipn b rows). rewrite Le. split; [exact S1|].
  unfold weeded. rewrite M1, F1, S1, Fm. split; [reflexivity|]. unfold mid. apply Forall_forall. intros x Hx. apply filter_In in Hx as [_ Hx]. now destruct (p x).
Qed.
Print Assumptions C146_clean.
Example C146_clean_ex : weeded Nat.even [2; 4; 5; 6; 7; 8] 1 4 = [2; 5; 7; 8].
Proof. reflexivity. Qed.

(* ---- C147 ---- *)
Theorem C147_averages : forall T (conv : list ascii -> option T) mean rows vs, table ","%char rows -> (N.of_nat (length (concat rows)) < 2 ^ 32)%N ->
  Forall2 (Forall2 (fun c v => conv c = Some v)) rows vs -> narrow vs ->
  test11 conv mean (table_text ","%char rows) = Ok (map (averaged mean vs) (seq 0 (length rows))).
Proof. intros. now apply test11_ok. Qed.
Print Assumptions C147_averages.
Definition one_digit (s : list ascii) : option nat := match s with [c] => Some (nat_of_ascii c - 48) | _ => None end.
Definition sum3 (a b c : nat) : nat := 100 * a + 10 * b + c.
Definition digits9 : list (list (list ascii)) := [[str "1"; str "2"]; [str "3"; str "4"]; [str "5"; str "6"]].
Example C147_averages_ex : test11 one_digit sum3 (table_text ","%char digits9) = Ok [None; Some [351; 462]; None] /\
  map (averaged sum3 [[1; 2]; [3; 4]; [5; 6]]) (seq 0 3) = [None; Some [351; 462]; None].
Proof. split; reflexivity. Qed.

(* a cell that is no number, wherever it stands, ends the program with an exception *)
Theorem C147_no_number : forall T (conv : list ascii -> option T) mean rows m i j x, table ","%char rows -> (N.of_nat (length (concat rows)) < 2 ^ 32)%N ->
  rectangle m rows -> 3 <= length rows -> nth_error rows i = Some x -> (exists c, nth_error x j = Some c /\ conv c = None) ->
  test11 conv mean (table_text ","%char rows) = UB.
Proof. intros T conv mean rows m i j x. exact (test11_ub conv mean rows m i j x). Qed.
Print Assumptions C147_no_number.
Example C147_no_number_ex : test11 one_digit sum3 (table_text ","%char [[str "1"; str "2"]; [str "3"; str "4"]; [str "5"; str "x6"]]) = UB /\
  test11 one_digit sum3 (table_text ","%char [[str "1"; str "2"]; [str "5"; str "x6"]]) = Ok [None; None].
Proof. split; reflexivity. Qed.

(* a row longer than the next one is averaged with cells of the row after that one, and with cells
   that do not exist where there is none *)
Theorem C147_ragged_refuted : exists rows rows', table ","%char rows /\ table ","%char rows' /\
  test11 one_digit sum3 (table_text ","%char rows) = Ok [None; Some [351; 472]; Some [573]; None] /\
  cell rows 2 1 = None /\ cell rows 3 0 = Some (str "7") /\
  test11 one_digit sum3 (table_text ","%char rows') = UB /\ length rows' = 3.
Proof.
  exists [[str "1"; str "2"]; [str "3"; str "4"]; [str "5"]; [str "7"]], [[str "1"; str "2"]; [str "3"; str "4"]; [str "5"]].
  split; [|split; [|vm_compute; auto 10]]; unfold table, plain; repeat (apply Forall_cons || apply Forall_nil || split); try discriminate; cbn; intuition discriminate.
Qed.
Print Assumptions C147_ragged_refuted.
(* the values of row i of a table in which all rows have one length *)
Theorem C147_row : forall T (mean : T -> T -> T -> T) vs m i, rectangle m vs -> S i < length vs -> 0 < i -> narrow vs /\
  exists line, averaged mean vs i = Some line /\ length line = m /\
    forall j x y z, column vs j = x -> nth_error x i = Some y -> nth_error line j = Some z ->
      exists below above, nth_error x (S i) = Some below /\ nth_error x (i - 1) = Some above /\ z = mean y below above.
Proof.
  intros T mean vs m i Hr Hi H0. assert (Hlen : forall k r, nth_error vs k = Some r -> length r = m).
  { intros k r Hk. unfold rectangle in Hr. rewrite Forall_forall in Hr. apply Hr. eapply nth_error_In; eassumption. }
  split. { intros k a b c Ha Hb Hc. rewrite (Hlen _ _ Ha), (Hlen _ _ Hb), (Hlen _ _ Hc). lia. }
  destruct i as [|k]; [lia|]. unfold averaged. destruct (nth_error vs (S k)) as [a|] eqn:Ea; [|apply nth_error_None in Ea; lia].
  destruct (nth_error vs (S (S k))) as [b|] eqn:Eb; [|apply nth_error_None in Eb; lia]. destruct (nth_error vs k) as [c|] eqn:Ec; [|apply nth_error_None in Ec; lia].
  pose proof (Hlen _ _ Ea) as La. pose proof (Hlen _ _ Eb) as Lb. pose proof (Hlen _ _ Ec) as Lc.
  eexists. split; [reflexivity|]. rewrite means_length by lia. split; [exact La|]. intros j x y z <- Hy Hz.
  pose proof (nth_error_some_lt _ _ _ Hz) as Hj. rewrite means_length in Hj by lia. rewrite La in Hj.
  rewrite (column_nth vs m j Hr Hj), Ea in Hy. destruct (means_nth mean a b c j y Hy ltac:(lia) ltac:(lia)) as (u & v & Hu & Hv & Hm).
  exists u, v. rewrite !(column_nth vs m j Hr Hj), Eb. replace (S k - 1) with k by lia. rewrite Ec. split; [exact Hu|]. split; [exact Hv|]. congruence.
Qed.
Print Assumptions C147_row.
Example C147_row_ex : averaged sum3 [[1; 2]; [3; 4]; [5; 6]] 1 = Some [351; 462] /\ column [[1; 2]; [3; 4]; [5; 6]] 1 = [2; 4; 6].
Proof. split; reflexivity. Qed.
