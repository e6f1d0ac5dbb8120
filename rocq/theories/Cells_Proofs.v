From Verif Require Import Base Split_Spec Split_Model Split_Proofs Num_Model Num_Spec Num_Proofs Num_Proofs2 Text_Model Filter_Model Parse_Spec Parse_Proofs2
  Grid_Spec Grid_Model Grid_Rep Grid_Proofs Grid_Proofs2 Grid_Proofs4 Grid_Props Table_Model Table_Spec Table_Proofs Table_Proofs2 Cells_Model Cells_Spec.
Local Open Scope nat_scope.

Lemma show_size_ok n : (Z.of_nat n < 10 ^ 20)%Z -> exists s, show_size (N.of_nat n) = Ok s /\ canonical s (Z.of_nat n).
Proof.
  intros H. unfold show_size. rewrite nat_N_Z. pose proof (format_unsigned_ok (Z.of_nat n) ltac:(lia)) as F.
  destruct (format_unsigned (Z.of_nat n)) as [s| |]; [|destruct F|destruct F]. exists s. split; [reflexivity|apply F].
Qed.
Lemma join_words_ok d : forall ws out, join_words out d ws = out ++ separated d ws.
Proof.
  induction ws as [|w ws IH]; intros out; [cbn; now rewrite app_nil_r|]. destruct ws as [|w' ws]; [reflexivity|].
  change (join_words out d (w :: w' :: ws)) with (join_words (out ++ w ++ d) d (w' :: ws)). rewrite IH.
  change (separated d (w :: w' :: ws)) with (w ++ d ++ separated d (w' :: ws)). now rewrite <- !app_assoc.
Qed.

(* ---- columns as lines ---- *)
Lemma print_columns_ok fuel text cells mn mx : cells_of row_ends blank 1 text cells -> small (length (concat cells)) -> 
  least_length cells mn -> greatest_length cells mx -> mn < fuel ->
  exists w, complaint mn mx w /\ print_columns fuel text = Ok (w ++ table_text " "%char (transposed cells mn)).
Proof.
  intros Hc Hs Hmn Hmx Hf. destruct (load_cells (compressed blank) text cells eq_refl Hc Hs) as (g & rs & E & Hg & Hcr & Hw & Hm).
  assert (L : forall n, least_length rs n -> n = mn).
  { intros n [(r & Hr & <-) Hle]. destruct Hmn as [(c & Hci & <-) Hmle]. subst cells. apply in_map_iff in Hci as (q & <- & Hq). rewrite map_length.
    pose proof (Hle q Hq). pose proof (Hmle (map (sub text) r) (in_map _ _ _ Hr)) as G. rewrite !map_length in G. unfold tok in *. lia. }
  assert (M : forall n, greatest_length rs n -> n = mx).
  { intros n [(r & Hr & <-) Hle]. destruct Hmx as [(c & Hci & <-) Hmle]. subst cells. apply in_map_iff in Hci as (q & <- & Hq). rewrite map_length.
    pose proof (Hle q Hq). pose proof (Hmle (map (sub text) r) (in_map _ _ _ Hr)) as G. rewrite !map_length in G. unfold tok in *. lia. }
  destruct rs as [|r0 rs']; [subst cells; destruct Hmn as [(r & [] & _) _]|]. remember (r0 :: rs') as rs eqn:Ers.
  assert (Hcc : exists mn mx, min_c g = N.of_nat mn /\ max_c g = N.of_nat mx /\ least_length rs mn /\ greatest_length rs mx) by (subst rs; exact Hcr).
  destruct Hcc as (n1 & n2 & E1 & E2 & H1 & H2). apply L in H1 as L1. apply M in H2 as M1. subst n1 n2.
  assert (Hle : mn <= mx).
  { destruct Hmn as [(c & Hci & <-) _]. destruct Hmx as [_ Hmle]. now apply Hmle. }
  assert (Hmx32 : (Z.of_nat mx < 10 ^ 20)%Z).
  { destruct Hmx as [(c & Hci & <-) _]. apply in_split in Hci as (l1 & l2 & ->). rewrite concat_app, app_length in Hs. cbn [concat] in Hs. rewrite app_length in Hs.
    unfold small in Hs. lia. }
  unfold print_columns. rewrite E. cbn [bind]. rewrite E1, E2.
  assert (W : exists w, complaint mn mx w /\
    (if negb (N.of_nat mn =? N.of_nat mx)%N then
                m1 <- show_size (N.of_nat mn) ;; m2 <- show_size (N.of_nat mx) ;;
                Ok (str "token_grid_test07 - ERROR!" ++ endl ++ str "min column count: " ++ m1 ++ endl ++
                    str "max column count: " ++ m2 ++ endl)
              else Ok []) = Ok w).
  { destruct (N.eqb_spec (N.of_nat mn) (N.of_nat mx)) as [Heq|Hne]; cbn [negb].
    - exists []. split; [left; split; [lia|reflexivity]|reflexivity].
    - destruct (show_size_ok mn ltac:(lia)) as (a & -> & Ha). destruct (show_size_ok mx Hmx32) as (b & -> & Hb). cbn [bind]. eexists. split; [|reflexivity].
      right. split; [congruence|]. exists a, b. split; [exact Ha|]. split; [exact Hb|reflexivity]. }
  destruct W as (w & Hw1 & ->). exists w. split; [exact Hw1|]. cbn [bind].
  match goal with |- loop _ ?bd _ = _ => set (body := bd) end.
  assert (K : forall k i out fuel, i + k = mn -> k < fuel ->
    loop fuel body (N.of_nat i, out) = Ok (out ++ concat (map (fun r => separated blank r ++ [newline]) (map (column cells) (seq i k))))).
  { clear fuel Hf. induction k as [|k IH]; intros i out fuel Hi Hf.
    - destruct fuel as [|fuel]; [lia|]. cbn [loop]. unfold body at 1. rewrite (proj2 (N.ltb_ge _ _)) by lia. cbn [negb bind seq map concat]. now rewrite app_nil_r.
    - destruct fuel as [|fuel]; [lia|]. cbn [loop]. unfold body at 1. rewrite (proj2 (N.ltb_lt _ _)) by lia. cbn [negb].
      rewrite (all_rows_ok g rs Hg).
      destruct (extract_column_ok text g rs Hg Some 0 (length rs) i [] ltac:(rewrite E2; lia) ltac:(lia) ltac:(lia)) as (ok & vs & -> & Ht). cbn [bind app].
      assert (Tk : ok = true /\ vs = map (sub text) (column (slice rs 0 (length rs)) i)).
      { eapply taken_fun; [exact Ht|]. exists (map (sub text) (column (slice rs 0 (length rs)) i)), []. split; [now rewrite app_nil_r|]. split; [|reflexivity]. reflexivity. }
      destruct Tk as [_ ->]. rewrite slice_all, <- column_map, Hm. replace (N.of_nat i + 1)%N with (N.of_nat (S i)) by lia.
      rewrite IH by lia. cbn [seq map concat]. rewrite join_words_ok. cbn [app]. unfold endl. fold newline. now rewrite <- !app_assoc. }
  change (0%N, w) with (N.of_nat 0, w). rewrite (K mn 0 w fuel) by lia. reflexivity.
Qed.

(* a table of words, with any blanks between the words and any newlines after the lines *)
Lemma spread_pairs ws line : spread ws line -> Forall (fun c => c <> [] /\ plain " "%char c) ws ->
  exists pairs last, ws = map fst pairs ++ [last] /\ line = concat (map (fun q => fst q ++ snd q) pairs) ++ last /\
    (last <> [] /\ plain " "%char last) /\
    Forall (fun q => (fst q <> [] /\ plain " "%char (fst q)) /\ (snd q <> [] /\ Forall (eq " "%char) (snd q))) pairs.
Proof.
  induction 1 as [w|w gap ws line Hg1 Hg2 Hs IH]; intros Hf.
  - exists [], w. inversion Hf; subst. cbn. auto.
  - inversion Hf as [|? ? Hw Hws]; subst. destruct (IH Hws) as (pairs & last & -> & -> & Hl & Hp). exists ((w, gap) :: pairs), last.
    split; [reflexivity|]. split; [cbn [map concat fst snd]; now rewrite <- !app_assoc|]. split; [exact Hl|]. constructor; [cbn; auto|exact Hp].
Qed.
Lemma spread_clean ws line : spread ws line -> Forall (fun c => c <> [] /\ plain " "%char c) ws -> line <> [] /\ forall c, In c line -> ~ In c row_ends.
Proof.
  induction 1 as [w|w gap ws line Hg1 Hg2 Hs IH]; intros Hf; inversion Hf as [|? ? [Hw1 Hw2] Hws]; subst.
  - split; [exact Hw1|]. intros c Hc. now apply (plain_out _ _ Hw2 c Hc).
  - destruct (IH Hws) as [H1 H2]. split; [destruct w; [congruence|discriminate]|]. intros c Hc. apply in_app_iff in Hc as [Hc|Hc]; [now apply (plain_out _ _ Hw2 c Hc)|].
    apply in_app_iff in Hc as [Hc|Hc]; [|auto]. rewrite Forall_forall in Hg2. rewrite <- (Hg2 c Hc). intros [H|[H|[]]]; discriminate.
Qed.
(* lines that are followed by runs of newlines *)
Lemma cuts_lines (p : ascii -> bool) e : p e = true ->
  forall (items : list (list ascii * nat)) pre, Forall (fun q => fst q <> [] /\ Forall (fun c => p c = false) (fst q)) items ->
  exists toks, cuts p (pre ++ concat (map (fun q => fst q ++ e :: repeat e (snd q)) items)) (fun f e => f) (fun f e => e) (length pre) toks /\
    map (sub (pre ++ concat (map (fun q => fst q ++ e :: repeat e (snd q)) items))) toks = map fst items ++ [[]].
Proof.
  intros He. induction items as [|[t n] items IH]; intros pre Hf.
  - cbn [map concat]. rewrite app_nil_r. exists [(length pre, length pre)]. split.
    + apply cut_last; [lia|]. intros i Hi. lia.
    + cbn [map]. now rewrite sub_empty.
  - inversion Hf as [|? ? [Ht1 Ht2] Hf']; subst. cbn [fst] in *. cbn [map concat fst snd].
    destruct (IH (pre ++ t ++ e :: repeat e n) Hf') as (toks & Hc & Hm). set (rest := concat (map (fun q => fst q ++ e :: repeat e (snd q)) items)) in *.
    replace ((pre ++ t ++ e :: repeat e n) ++ rest) with (pre ++ (t ++ e :: repeat e n) ++ rest) in * by (now rewrite !app_assoc).
    rewrite !app_length in Hc. cbn [length] in Hc. rewrite repeat_length in Hc.
    exists ((length pre, length pre + length t) :: toks). split.
    + apply (cut_more p _ (fun f e => f) (fun f e => e) (length pre) (length pre + length t) (length pre + length t + S n)).
      * lia.
      * lia.
      * rewrite !app_length. cbn [length]. rewrite repeat_length. lia.
      * rewrite <- app_assoc. now apply all_in_free.
      * pose proof (all_in_all p (pre ++ t) (repeat e (S n)) rest) as H. rewrite <- !app_assoc, app_length, repeat_length in H. rewrite <- app_assoc. apply H.
        apply Forall_forall. intros c Hx. apply repeat_spec in Hx. now subst.
      * destruct items as [|[t' n'] items'].
        -- left. rewrite !app_length. cbn [length]. rewrite repeat_length. unfold rest. cbn. lia.
        -- right. inversion Hf' as [|? ? [Hu1 Hu2] _]; subst. cbn [fst] in *. destruct t' as [|c t']; [congruence|]. exists c. inversion Hu2; subst. split; [|assumption].
           rewrite nth_error_app2 by lia. rewrite nth_error_app2 by (rewrite app_length; cbn [length]; rewrite repeat_length; lia).
           rewrite app_length. cbn [length]. rewrite repeat_length. replace (length pre + length t + S n - length pre - (length t + S n)) with 0 by lia. reflexivity.
      * cbv beta. replace (length pre + length t + S n) with (length pre + (length t + S n)) by lia. exact Hc.
    + cbn [map app]. rewrite Hm. f_equal. rewrite <- app_assoc. now rewrite sub_here.
Qed.

Definition item_text (items : list (list ascii * nat)) : list ascii := concat (map (fun q => fst q ++ newline :: repeat newline (snd q)) items).
Lemma spread_items rows text : spread_text rows text -> Forall (Forall (fun c => c <> [] /\ plain " "%char c)) rows ->
  exists items, text = item_text items /\ Forall2 spread rows (map fst items) /\ Forall (fun t => t <> [] /\ forall c, In c t -> ~ In c row_ends) (map fst items).
Proof.
  induction 1 as [|ws line n rows text Hs Ht IH]; intros Hf.
  - exists []. repeat split; constructor.
  - inversion Hf as [|? ? Hw Hr]; subst. destruct (IH Hr) as (items & -> & H1 & H2). exists ((line, n) :: items). split; [|split].
    + unfold item_text. cbn [map concat fst snd]. rewrite <- app_assoc. reflexivity.
    + constructor; auto.
    + constructor; [|exact H2]. now apply spread_clean with (ws := ws).
Qed.
Lemma spread_cells rows text : spread_text rows text -> Forall (Forall (fun c => c <> [] /\ plain " "%char c)) rows ->
  cells_of row_ends blank 1 text rows.
Proof.
  intros Hs Hf. destruct (spread_items rows text Hs Hf) as (items & -> & H1 & H2).
  assert (Hk : filter nonempty (map fst items) = map fst items).
  { clear -H2. induction (map fst items) as [|t l IH]; [reflexivity|]. inversion H2 as [|? ? [Ht _] Hl]; subst. cbn. destruct t; [congruence|]. cbn. now rewrite IH. }
  assert (Hl : exists lines, compressed_tokens row_ends (item_text items) lines /\ filter nonempty lines = map fst items).
  { destruct items as [|[t n] items].
    - exists []. split; [|reflexivity]. exists []. split; [now left|reflexivity].
    - destruct (cuts_lines (is_delim row_ends) newline) with (items := (t, n) :: items) (pre := @nil ascii) as (toks & Hc & Hm).
      + apply is_delim_in. now left.
      + rewrite Forall_map in H2. eapply Forall_impl; [|exact H2]. intros x [G1 G2]. split; [auto|]. apply Forall_forall. intros c Hc.
        apply is_delim_out. now apply G2.
      + cbn [app length] in Hc, Hm. exists (map fst ((t, n) :: items) ++ [[]]). split.
        * exists toks. split; [|symmetry; exact Hm]. right. split; [|exact Hc]. unfold item_text. cbn [map concat fst]. destruct t; discriminate.
        * rewrite filter_app, Hk. cbn [filter nonempty]. now rewrite app_nil_r. }
  destruct Hl as (lines & L1 & L2). exists lines. split; [exact L1|]. rewrite L2. clear -H1 Hf.
  revert Hf. induction H1 as [|ws line rows lines Hs _ IH]; intros Hf; [constructor|]. inversion Hf as [|? ? Hw Hr]; subst. constructor; [|auto].
  destruct (spread_pairs ws line Hs Hw) as (pairs & last & -> & -> & Hl & Hp). now apply fields_pairs.
Qed.

(* ---- turning a table ---- *)
Section Turn.
Context {A : Type}.
Lemma column_length (rows : list (list A)) m j : rectangle m rows -> j < m -> length (column rows j) = length rows.
Proof.
  induction 1 as [|r rows Hr _ IH]; intros Hj; [reflexivity|]. cbn [column]. destruct (nth_error r j) eqn:E; [cbn; now rewrite IH|].
  apply nth_error_None in E. lia.
Qed.
Lemma column_nth (rows : list (list A)) m j : rectangle m rows -> j < m -> forall i, nth_error (column rows j) i = match nth_error rows i with Some r => nth_error r j | None => None end.
Proof.
  induction 1 as [|r rows Hr _ IH]; intros Hj i; [now destruct i|]. cbn [column]. destruct (nth_error r j) eqn:E; [|apply nth_error_None in E; lia].
  destruct i; cbn [nth_error]; [now rewrite E|now apply IH].
Qed.
Lemma transposed_rectangle (rows : list (list A)) m : rectangle m rows -> rectangle (length rows) (transposed rows m).
Proof.
  intros H. unfold rectangle, transposed. rewrite Forall_map, Forall_forall. intros j Hj. apply in_seq in Hj. apply (column_length rows m j H). lia.
Qed.
Lemma transposed_length (rows : list (list A)) m : length (transposed rows m) = m.
Proof. unfold transposed. now rewrite map_length, seq_length. Qed.
Lemma transposed_nth (rows : list (list A)) m j : j < m -> nth_error (transposed rows m) j = Some (column rows j).
Proof.
  intros H. unfold transposed. rewrite nth_error_map. rewrite (nth_error_nth' _ 0) by (rewrite seq_length; lia). now rewrite seq_nth by lia.
Qed.
Lemma transposed_twice (rows : list (list A)) m : rectangle m rows -> 0 < m -> transposed (transposed rows m) (length rows) = rows.
Proof.
  intros H Hm. apply nth_error_ext. intros i. destruct (Nat.lt_ge_cases i (length rows)) as [Hi|Hi].
  - rewrite transposed_nth by exact Hi. destruct (nth_error rows i) as [r|] eqn:Er; [|apply nth_error_None in Er; lia]. f_equal.
    assert (Hr : length r = m). { unfold rectangle in H. rewrite Forall_forall in H. apply H. eapply nth_error_In; eassumption. }
    apply nth_error_ext. intros j. rewrite (column_nth _ _ i (transposed_rectangle rows m H) Hi). destruct (Nat.lt_ge_cases j m) as [Hj|Hj].
    + rewrite transposed_nth by exact Hj. rewrite (column_nth rows m j H Hj), Er. reflexivity.
    + rewrite (proj2 (nth_error_None (transposed rows m) j)) by (rewrite transposed_length; lia). symmetry. apply nth_error_None. lia.
  - rewrite (proj2 (nth_error_None rows i)) by lia. apply nth_error_None. now rewrite transposed_length.
Qed.
Lemma column_all (P : A -> Prop) rows j : Forall (Forall P) rows -> Forall P (column rows j).
Proof.
  induction 1 as [|r rows Hr _ IH]; [constructor|]. cbn [column]. destruct (nth_error r j) eqn:E; [|exact IH]. constructor; [|exact IH].
  rewrite Forall_forall in Hr. apply Hr. eapply nth_error_In; eassumption.
Qed.
Lemma rectangle_lengths (rows : list (list A)) m : rectangle m rows -> rows <> [] -> least_length rows m /\ greatest_length rows m.
Proof.
  intros H Hne. unfold rectangle in H. rewrite Forall_forall in H. destruct rows as [|r rows]; [congruence|].
  split; (split; [exists r; split; [now left|apply H; now left]|intros q Hq; rewrite (H q Hq); lia]).
Qed.
Lemma rectangle_size (rows : list (list A)) m : rectangle m rows -> length (concat rows) = length rows * m.
Proof. induction 1 as [|r rows Hr _ IH]; [reflexivity|]. cbn [concat length]. rewrite app_length, IH. lia. Qed.
End Turn.
