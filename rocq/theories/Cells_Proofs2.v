From Verif Require Import Base Split_Spec Split_Model Split_Proofs Num_Model Num_Spec Num_Proofs Num_Proofs2 Text_Model Filter_Model Parse_Spec Parse_Proofs Parse_Proofs2
  Grid_Spec Grid_Model Grid_Rep Grid_Proofs Grid_Proofs2 Grid_Proofs4 Grid_Props Table_Model Table_Spec Table_Proofs Table_Proofs2 Cells_Model Cells_Spec Cells_Proofs.
Local Open Scope nat_scope.

(* ---- cells in brackets ---- *)
Lemma foldi_concat {A B} (f : A -> list B) l : forall k st, foldi (fun _ st x => st ++ f x) k l st = st ++ concat (map f l).
Proof. induction l as [|x l IH]; intros k st; cbn [foldi map concat]; [now rewrite app_nil_r|]. now rewrite IH, app_assoc. Qed.
Lemma row_cells {S} g rw r (body : N -> S -> outcome S) (f : S -> tok -> S) st : is_row g rw r ->
  (forall j t st, nth_error r j = Some t -> body (N.of_nat j) st = Ok (f st t)) ->
  for_range 0 (r_size rw) body st = Ok (foldi (fun _ => f) 0 r st).
Proof.
  intros (Hsz & _) H. rewrite Hsz. unfold for_range. change (N.to_nat 0) with 0. rewrite Nat.sub_0_r, Nat2N.id. apply for_up_foldi. intros j t st' Hj. now apply H.
Qed.
Lemma all_cells {S} g rs (body : N -> S -> outcome S) (f : nat -> S -> list tok -> S) st : represents g rs ->
  (forall i r st, nth_error rs i = Some r -> body (N.of_nat i) st = Ok (f i st r)) ->
  for_range 0 (row_count g) body st = Ok (foldi f 0 rs st).
Proof.
  intros Hg H. rewrite (row_count_ok _ _ Hg). change 0%N with (N.of_nat 0). rewrite (rows_loop rs body f 0 (length rs) st) by (lia || exact H). now rewrite slice_all.
Qed.
Lemma print_cells_ok text g rs out : represents g rs -> print_cells text g out = Ok (out ++ bracketed (map (map (sub text)) rs)).
Proof.
  intros Hg. unfold print_cells.
  rewrite (all_cells g rs _ (fun _ out r => out ++ (concat (map (fun t => "["%char :: sub text t ++ [("]")%char; " "%char]) r) ++ [newline])) out Hg).
  - rewrite foldi_concat. unfold bracketed. rewrite map_map. do 3 f_equal. apply map_ext. intros r. now rewrite map_map.
  - intros i r st Hi. destruct (row_ok _ _ _ _ Hg Hi) as (rw & -> & _ & Hrow). cbn [bind].
    rewrite (row_cells g rw r _ (fun out t => out ++ ("["%char :: sub text t ++ [("]")%char; " "%char])) st Hrow).
    + cbn [bind]. rewrite foldi_concat, <- app_assoc. reflexivity.
    + intros j t st' Hj. destruct Hrow as (_ & _ & _ & Ht). rewrite (Ht j t Hj). reflexivity.
Qed.

Lemma sub_nonempty (text : list ascii) (t : tok) : fst t <= snd t -> snd t <= length text -> nonempty (sub text t) = negb (fst t =? snd t).
Proof.
  intros H1 H2. destruct t as [a b]. cbn [fst snd] in *. assert (E := sub_length text a b H1 H2).
  destruct (Nat.eqb_spec a b); destruct (sub text (a, b)); cbn in *; auto; lia.
Qed.
Lemma map_filter {A B} (h : A -> B) p q l : Forall (fun x => q x = p (h x)) l -> map h (filter q l) = filter p (map h l).
Proof. induction 1 as [|x l Hx _ IH]; [reflexivity|]. cbn. rewrite <- Hx. destruct (q x); cbn; now rewrite IH. Qed.
Lemma filter_nonempty_map {A B} (h : A -> B) l : map (map h) (filter nonempty l) = filter nonempty (map (map h) l).
Proof. apply map_filter. apply Forall_forall. intros [|]; reflexivity. Qed.
Lemma firstn_incl_forall {A} (P : A -> Prop) l a : Forall P l -> Forall P (firstn a l).
Proof. intros H. rewrite <- (firstn_skipn a l) in H. now apply Forall_app in H as [H _]. Qed.
Lemma skipn_incl_forall {A} (P : A -> Prop) l a : Forall P l -> Forall P (skipn a l).
Proof. intros H. rewrite <- (firstn_skipn a l) in H. now apply Forall_app in H as [_ H]. Qed.
Lemma slice_map {A B} (h : A -> B) l a b : map h (slice l a b) = slice (map h l) a b.
Proof. unfold slice. now rewrite skipn_map, firstn_map. Qed.
Lemma thinned_texts text (q : tok -> bool) rs a b : within text rs ->
  (forall t, fst t <= snd t /\ snd t <= length text -> q t = (fst t =? snd t)) ->
  map (map (sub text)) (firstn a rs ++ filter nonempty (map (filter (fun t => negb (q t))) (slice rs a b)) ++ skipn b rs) = thinned (map (map (sub text)) rs) a b.
Proof.
  intros Hw Hq. unfold thinned. rewrite !map_app, firstn_map, skipn_map, filter_nonempty_map, <- slice_map. do 3 f_equal. rewrite !map_map. apply map_ext_in. intros r Hr.
  apply map_filter. assert (Hr' : In r rs). { unfold slice in Hr. rewrite <- (firstn_skipn a rs). apply in_app_iff. right. rewrite <- (firstn_skipn (b - a)). apply in_app_iff. now left. }
  unfold within in Hw. rewrite Forall_forall in Hw. specialize (Hw r Hr'). eapply Forall_impl; [|exact Hw]. intros t [H1 H2]. rewrite sub_nonempty by assumption. now rewrite Hq.
Qed.

Lemma removal_ok (q : tok -> bool) rows a b remove : loose_table ","%char rows -> small (length (concat rows)) ->
  (forall t, fst t <= snd t /\ snd t <= length (table_text ","%char rows) -> q t = (fst t =? snd t)) ->
  (forall g, row_count g = N.of_nat (length rows) -> remove g = remove_token_if q g (N.of_nat a, N.of_nat b)) ->
  print_removal remove (table_text ","%char rows) =
    Ok (before_line ++ bracketed rows ++ after_line ++ bracketed (if (a <=? b) && (b <=? length rows) then thinned rows a b else rows) ++ [newline]).
Proof.
  intros Ht Hs Hq Hrem. destruct (load_cells (separate (str ",")) (table_text ","%char rows) rows eq_refl (cells_separate ","%char rows comma_in Ht) Hs) as (g & rs & E & Hg & Hc & Hw & Hm).
  assert (Hl : length rs = length rows) by (rewrite <- Hm; now rewrite map_length).
  unfold print_removal. rewrite E. cbn [bind]. rewrite (print_cells_ok _ g rs _ Hg), Hm. cbn [bind].
  rewrite Hrem by (rewrite (row_count_ok _ _ Hg); now rewrite Hl).
  pose proof (C34_remove_token_if q g rs a b Hg Hc) as R. rewrite Hl in R. destruct ((a <=? b) && (b <=? length rows)).
  - destruct R as (g' & -> & Hg' & _). cbn [bind]. rewrite (print_cells_ok _ g' _ _ Hg'). cbn [bind]. rewrite (thinned_texts _ q rs a b Hw Hq), Hm.
    rewrite <- !app_assoc. reflexivity.
  - rewrite R. cbn [bind]. rewrite (print_cells_ok _ g _ _ Hg), Hm. cbn [bind]. rewrite <- !app_assoc. reflexivity.
Qed.
Lemma thinned_all rows : thinned rows 0 (length rows) = filter nonempty (map (filter nonempty) rows).
Proof. unfold thinned. cbn [firstn app]. rewrite skipn_all, app_nil_r. unfold slice. cbn [skipn]. now rewrite Nat.sub_0_r, firstn_all. Qed.

(* ---- the raw text of the rows ---- *)
Lemma cuts_ends {A} (p : A -> bool) s te nx a toks : cuts p s te nx a toks -> exists b rest, toks = (a, b) :: rest /\ snd (last toks (0, 0)) = length s.
Proof.
  induction 1 as [a H1 H2|a f e toks H1 H2 H3 H4 H5 H6 H7 (b & rest & E & IH)]; [exists (length s), []; auto|].
  exists (te f e), toks. split; [reflexivity|]. rewrite E in *. exact IH.
Qed.
Definition raw (text : list ascii) (r : list tok) : list ascii := match r with [] => [] | t :: _ => sub text (fst t, snd (last r t)) end.
Lemma last_map {A B} (h : A -> B) l d : last (map h l) (h d) = h (last l d).
Proof. induction l as [|x l IH]; [reflexivity|]. destruct l; [reflexivity|exact IH]. Qed.
Lemma last_indep {A} (l : list A) d d' : l <> [] -> last l d = last l d'.
Proof. induction l as [|x l IH]; [congruence|]. intros _. destruct l; [reflexivity|]. apply IH. discriminate. Qed.
Lemma processed_raw cd opt buf q pieces rs q' : processed (plain_splitter cd opt) buf q pieces rs q' ->
  Forall (fun r => fst r <= snd r /\ snd r <= length buf) pieces -> map (raw buf) rs = filter nonempty (map (sub buf) pieces).
Proof.
  induction 1 as [q|q r pieces rows q' Hr _ IH|q r pieces toks q1 rows q' Hr Es Hne _ IH]; intros Hf; [reflexivity| |]; inversion Hf as [|? ? [H1 H2] Hf']; subst.
  - cbn [map filter]. destruct r as [b e]. cbn [fst snd] in *. subst. rewrite sub_empty. cbn [nonempty]. auto.
  - destruct r as [b e]. cbn [fst snd] in *. cbn [map filter]. rewrite IH by exact Hf'. assert (L : length (sub buf (b, e)) = e - b) by (rewrite sub_length; lia).
    unfold plain_splitter in Es. destruct (split_tokens (multiple_char_delimiter_predicate cd) (sub buf (b, e)) opt) as (toks' & E & Ht). rewrite E in Es. cbn [bind] in Es. injection Es as _ -> .
    destruct Ht as [[Ht _]|[_ Ht]]; [rewrite Ht in L; cbn in L; lia|]. destruct (cuts_ends _ _ _ _ _ _ Ht) as (b1 & rest & Et & El).
    assert (Hn : nonempty (sub buf (b, e)) = true) by (destruct (sub buf (b, e)); [cbn in L; lia|reflexivity]). rewrite Hn. f_equal.
    rewrite L in El. subst toks. change (map (shift b) ((0, b1) :: rest)) with (shift b (0, b1) :: map (shift b) rest). unfold raw.
    change (shift b (0, b1) :: map (shift b) rest) with (map (shift b) ((0, b1) :: rest)). rewrite last_map.
    rewrite (last_indep _ _ (0, 0)) by discriminate. unfold shift at 2. cbn [fst snd]. rewrite El. unfold shift. cbn [fst]. f_equal. f_equal; lia.
Qed.
Lemma load_raw o buf cells lines : support_dquotes o = false ->
  compressed_tokens (row_delimiters o) buf lines -> Forall2 (fields_of (column_delimiters o) (column_split_option o)) (filter nonempty lines) cells ->
  small (length (concat cells)) ->
  exists g rs, load o buf = Ok g /\ represents g rs /\ within buf rs /\ map (map (sub buf)) rs = cells /\ map (raw buf) rs = filter nonempty lines.
Proof.
  intros Hq Hl Hc Hs. destruct (compress_pieces (row_delimiters o) buf) as (pieces & E & Hp & Hcp).
  destruct (plain_processed (column_delimiters o) (column_split_option o) buf pieces Hp) as (rs & Hpr & Hf & Hw).
  assert (El : lines = map (sub buf) pieces) by (eapply Parse_Proofs.compressed_unique; eassumption). subst lines.
  assert (Ec : cells = map (map (sub buf)) rs).
  { assert (C1 : cells_of (row_delimiters o) (column_delimiters o) (column_split_option o) buf cells) by (eexists; split; eassumption).
    assert (C2 : cells_of (row_delimiters o) (column_delimiters o) (column_split_option o) buf (map (map (sub buf)) rs)) by (eexists; split; eassumption).
    exact (cells_fun _ _ _ _ _ _ C1 C2). }
  subst cells. rewrite map_map_length in Hs. unfold load. rewrite E, Hq. cbn [bind negb].
  pose proof (process_rows_ok _ _ _ _ _ _ Hpr [] Hs) as Ep. cbn [concat indexed app] in Ep. unfold plain_splitter in Ep. rewrite Ep. cbn [bind].
  assert (Hrep : represents (Grid (concat rs) (indexed 0 rs) 0 0) rs).
  { split; [reflexivity|]. split; [reflexivity|]. split; [eapply processed_nonempty; eauto|exact Hs]. }
  destruct (update_minmax_ok _ _ Hrep) as (g' & E' & T1 & T2 & T3). exists g', rs. split; [exact E'|].
  split; [|split; [exact Hw|split; [reflexivity|exact (processed_raw _ _ _ _ _ _ _ Hpr Hp)]]]. destruct Hrep as (R1 & R2 & R3 & R4).
  split; [now rewrite T1|]. split; [now rewrite T2|]. auto.
Qed.

(* ---- rows with their numbers ---- *)
Definition num (k : nat) : list ascii := match show_size (N.of_nat k) with Ok s => s | _ => [] end.
Lemma numbered_mapi rows : forall k, (Z.of_nat (k + length rows) < 10 ^ 20)%Z ->
  numbered k rows (concat (mapi (fun i r => num i ++ "["%char :: concat r ++ ["]"%char; newline]) k rows)).
Proof.
  induction rows as [|r rows IH]; intros k Hk; cbn [mapi concat]; [constructor|]. cbn [length] in Hk.
  rewrite <- app_assoc. cbn [app]. rewrite <- app_assoc. cbn [app]. constructor; [|apply IH; lia].
  unfold num. destruct (show_size_ok k ltac:(lia)) as (s & -> & Hs). exact Hs.
Qed.
Lemma print_rows_ok text g rs out : represents g rs -> within text rs ->
  exists s, numbered 0 (map (map (sub text)) rs) s /\ print_rows text g out = Ok (out ++ s).
Proof.
  intros Hg Hw. assert (Hsm : (Z.of_nat (length rs) < 10 ^ 19)%Z).
  { pose proof (small_rows g rs Hg) as H. unfold small in H. lia. }
  eexists. split; [apply numbered_mapi; rewrite map_length; cbn [plus]; unfold tok in *; lia|]. unfold print_rows.
  rewrite (all_cells g rs _ (fun i out r => out ++ (num i ++ "["%char :: concat (map (sub text) r) ++ ["]"%char; newline])) out Hg).
  - rewrite foldi_app, mapi_map. reflexivity.
  - intros i r st Hi. pose proof (nth_error_some_lt _ _ _ Hi) as Hl. unfold num. destruct (show_size_ok i ltac:(unfold tok in *; lia)) as (s & -> & _). cbn [bind].
    destruct (row_ok _ _ _ _ Hg Hi) as (rw & -> & _ & Hrow). cbn [bind].
    unfold within in Hw. rewrite Forall_forall in Hw. pose proof (Hw r (nth_error_In _ _ Hi)) as Hwr.
    destruct (C62_text text g rw r Hrow Hwr) as (-> & _). cbn [bind]. reflexivity.
Qed.
Lemma existsb_app_ {A} (p : A -> bool) l m : existsb p (l ++ m) = existsb p l || existsb p m.
Proof. apply existsb_app. Qed.
Lemma six_separated r : existsb (Ascii.eqb "6"%char) (separated (str ",") r) = has_six r.
Proof.
  unfold has_six. induction r as [|c r IH]; [reflexivity|]. destruct r as [|c' r]; [cbn [separated existsb]; now rewrite orb_false_r|].
  change (separated (str ",") (c :: c' :: r)) with (c ++ str "," ++ separated (str ",") (c' :: r)).
  rewrite !existsb_app_. rewrite IH. reflexivity.
Qed.
Lemma match_raw text ts : match_predicate text ts = existsb (Ascii.eqb "6"%char) (raw text ts).
Proof. destruct ts; reflexivity. Qed.
Lemma weeded_map {A B} (h : A -> B) (p : B -> bool) q l a b : Forall (fun x => q x = p (h x)) l ->
  map h (weeded q l a b) = weeded p (map h l) a b.
Proof.
  intros H. unfold weeded. rewrite !map_app, firstn_map, skipn_map, <- slice_map. do 3 f_equal. apply map_filter.
  unfold slice. eapply Forall_impl; [|exact (firstn_incl_forall _ _ (b - a) (skipn_incl_forall _ _ a H))]. intros x ->. reflexivity.
Qed.
Lemma weeded_forall {A} (P : A -> Prop) q l a b : Forall P l -> Forall P (weeded q l a b).
Proof.
  intros H. unfold weeded. apply Forall_app. split; [now apply firstn_incl_forall|]. apply Forall_app. split; [|now apply skipn_incl_forall].
  apply Forall_forall. intros x Hx. apply filter_In in Hx as [Hx _]. unfold slice in Hx.
  pose proof (firstn_incl_forall _ _ (b - a) (skipn_incl_forall _ _ a H)) as G. rewrite Forall_forall in G. now apply G.
Qed.
Lemma table_fields d rows : table d rows -> Forall2 (fields_of [d] 1) (map (separated [d]) rows) rows.
Proof. intros H. induction H as [|r rows [_ Hr] _ IH]; cbn [map]; constructor; [now apply fields_compressed|exact IH]. Qed.
Lemma test13_ok rows a b : table ","%char rows -> small (length (concat rows)) ->
  exists before after, numbered 0 rows before /\
    numbered 0 (if (a <=? b) && (b <=? length rows) then weeded has_six rows a b else rows) after /\
    test13 (N.of_nat a, N.of_nat b) (table_text ","%char rows) = Ok (str "Before Removal" ++ [newline] ++ before ++ str "After Removal" ++ [newline] ++ after).
Proof.
  intros Ht Hs. destruct (table_lines ","%char rows comma_in (table_loose _ _ Ht)) as (lines & L1 & L2).
  destruct (load_raw (compressed (str ",")) (table_text ","%char rows) rows lines eq_refl L1) as (g & rs & E & Hg & Hw & Hm & Hr).
  { rewrite L2. now apply table_fields. }
  { exact Hs. }
  rewrite L2 in Hr. set (text := table_text ","%char rows) in *.
  assert (Hl : length rs = length rows) by (rewrite <- Hm; now rewrite map_length).
  assert (Hp : Forall (fun r => match_predicate text r = has_six (map (sub text) r)) rs).
  { apply Forall_forall. intros r Hin. apply In_nth_error in Hin as (i & Hi). rewrite match_raw.
    assert (E1 : nth_error (map (raw text) rs) i = Some (raw text r)) by (now apply map_nth_error). rewrite Hr, nth_error_map in E1.
    assert (E2 : nth_error (map (map (sub text)) rs) i = Some (map (sub text) r)) by (now apply map_nth_error). rewrite Hm in E2. rewrite E2 in E1. cbn [option_map] in E1. injection E1 as <-.
    apply six_separated. }
  unfold test13. rewrite E. cbn [bind]. destruct (print_rows_ok text g rs (str "Before Removal" ++ endl) Hg Hw) as (s1 & N1 & ->). cbn [bind]. rewrite Hm in N1.
  pose proof (C34_remove_row_if (fun _ => match_predicate text) g rs a b Hg) as R. rewrite Hl in R. destruct ((a <=? b) && (b <=? length rows)).
  - destruct R as (g' & -> & Hg'). cbn [bind]. rewrite survivors_plain in Hg'. change (represents g' (weeded (match_predicate text) rs a b)) in Hg'.
    destruct (print_rows_ok text g' _ ((str "Before Removal" ++ endl) ++ s1 ++ str "After Removal" ++ endl) Hg' (weeded_forall _ _ _ _ _ Hw)) as (s2 & N2 & E2).
    rewrite (weeded_map (map (sub text)) has_six _ _ _ _ Hp), Hm in N2. exists s1, s2. split; [exact N1|]. split; [exact N2|].
    rewrite <- !app_assoc in E2. rewrite <- !app_assoc. exact E2.
  - rewrite R. cbn [bind]. destruct (print_rows_ok text g rs ((str "Before Removal" ++ endl) ++ s1 ++ str "After Removal" ++ endl) Hg Hw) as (s2 & N2 & E2).
    rewrite Hm in N2. exists s1, s2. split; [exact N1|]. split; [exact N2|]. rewrite <- !app_assoc in E2. rewrite <- !app_assoc. exact E2.
Qed.

(* ---- rows of one length ---- *)
Lemma test04_ok n rows : table ","%char rows -> small (length (concat rows)) ->
  test04 (N.of_nat n) (table_text ","%char rows) = Ok (tabbed (filter (fun r => n =? length r) rows)).
Proof.
  intros Ht Hs. destruct (load_cells (compressed (str ",")) (table_text ","%char rows) rows eq_refl (cells_compressed ","%char rows comma_in Ht) Hs) as (g & rs & E & Hg & Hc & Hw & Hm).
  unfold test04. rewrite E. cbn [bind]. set (text := table_text ","%char rows) in *. destruct (C34_enforce_column_count g rs (N.of_nat n) Hg) as (g' & -> & Hg' & _). cbn [bind].
  rewrite (all_cells g' _ _ (fun _ out r => out ++ (concat (map (fun t => sub text t ++ [ascii_of_nat 9]) r) ++ [newline])) [] Hg').
  - rewrite foldi_concat. cbn [app]. f_equal. unfold tabbed. rewrite <- Hm. f_equal.
    assert (Em : filter (fun r => n =? length r) (map (map (sub text)) rs) = map (map (sub text)) (filter (fun r => (N.of_nat n =? N.of_nat (length r))%N) rs)).
    { symmetry. apply map_filter. apply Forall_forall. intros r _. rewrite map_length. unfold tok in *. destruct (Nat.eqb_spec n (length r)), (N.eqb_spec (N.of_nat n) (N.of_nat (length r))); auto; lia. }
    rewrite Em, map_map. apply map_ext. intros r. now rewrite map_map.
  - intros i r st Hi. destruct (row_ok _ _ _ _ Hg' Hi) as (rw & -> & _ & Hrow). cbn [bind].
    rewrite (row_cells g' rw r _ (fun out t => out ++ (sub text t ++ [ascii_of_nat 9])) st Hrow).
    + cbn [bind]. rewrite foldi_concat, <- app_assoc. reflexivity.
    + intros j t st' Hj. destruct Hrow as (_ & _ & _ & Htk). rewrite (Htk j t Hj). reflexivity.
Qed.

(* ---- averages ---- *)
Lemma forall2_len {A B} (R : A -> B -> Prop) l m : Forall2 R l m -> length l = length m.
Proof. induction 1; cbn; auto. Qed.
Section Averages.
Context {T : Type}.
Variables (conv : list ascii -> option T) (mean : T -> T -> T -> T).
Lemma means_nth a : forall b c j x, nth_error a j = Some x -> length a <= length b -> length a <= length c ->
  exists y z, nth_error b j = Some y /\ nth_error c j = Some z /\ nth_error (means mean a b c) j = Some (mean x y z).
Proof.
  induction a as [|x0 a IH]; intros b c j x Hj Hb Hc; [now destruct j|]. destruct b as [|y b]; [cbn in Hb; lia|]. destruct c as [|z c]; [cbn in Hc; lia|].
  destruct j; cbn [nth_error means] in *; [injection Hj as <-; eauto|]. apply IH; [exact Hj|cbn in Hb; lia|cbn in Hc; lia].
Qed.
Lemma means_length a : forall b c, length a <= length b -> length a <= length c -> length (means mean a b c) = length a.
Proof. induction a as [|x a IH]; intros [|y b] [|z c] Hb Hc; cbn in *; try lia. rewrite IH; lia. Qed.
Lemma foldi_collect {A B} (h : nat -> A -> B) l : forall k st, foldi (fun i st x => st ++ [h i x]) k l st = st ++ mapi h k l.
Proof. induction l as [|x l IH]; intros k st; cbn [foldi mapi]; [now rewrite app_nil_r|]. rewrite IH, <- app_assoc. reflexivity. Qed.
Lemma get_ok text g rw r j t v : is_row g rw r -> nth_error r j = Some t -> conv (sub text t) = Some v -> get conv text g rw (N.of_nat j) = Ok v.
Proof. intros (_ & _ & _ & H) Hj Hv. unfold get. rewrite (H j t Hj). cbn [bind]. now rewrite Hv. Qed.
Lemma conv_cell text rs (vs : list (list T)) i r : Forall2 (Forall2 (fun c v => conv c = Some v)) (map (map (sub text)) rs) vs -> nth_error rs i = Some r ->
  exists v, nth_error vs i = Some v /\ length v = length r /\ forall j t, nth_error r j = Some t -> exists x, nth_error v j = Some x /\ conv (sub text t) = Some x.
Proof.
  intros H Hi. assert (E : nth_error (map (map (sub text)) rs) i = Some (map (sub text) r)) by (now apply map_nth_error).
  destruct (forall2_at _ _ _ H _ _ E) as (v & Hv & Hf). exists v. split; [exact Hv|]. pose proof (forall2_len _ _ _ Hf) as Hl. rewrite map_length in Hl. split; [congruence|].
  intros j t Hj. assert (Ej : nth_error (map (sub text) r) j = Some (sub text t)) by (now apply map_nth_error). destruct (forall2_at _ _ _ Hf _ _ Ej) as (x & Hx & Hc). eauto.
Qed.
Lemma test11_ok rows (vs : list (list T)) : table ","%char rows -> small (length (concat rows)) -> Forall2 (Forall2 (fun c v => conv c = Some v)) rows vs -> narrow vs ->
  test11 conv mean (table_text ","%char rows) = Ok (map (averaged mean vs) (seq 0 (length rows))).
Proof.
  intros Ht Hs Hv Hn. destruct (load_cells (compressed (str ",")) (table_text ","%char rows) rows eq_refl (cells_compressed ","%char rows comma_in Ht) Hs) as (g & rs & E & Hg & Hc & Hw & Hm).
  unfold test11. rewrite E. cbn [bind]. set (text := table_text ","%char rows) in *. assert (Hl : length rs = length rows) by (rewrite <- Hm; now rewrite map_length).
  assert (Hsm : (N.of_nat (length rs) < 2 ^ 32)%N) by exact (small_rows g rs Hg). rewrite <- Hm in Hv.
  assert (Hlv : length vs = length rs) by (pose proof (forall2_len _ _ _ Hv) as H; rewrite map_length in H; unfold tok in *; congruence).
  rewrite (all_cells g rs _ (fun i out (_ : list tok) => out ++ [averaged mean vs i]) [] Hg).
  - rewrite (foldi_collect (fun i (_ : list tok) => averaged mean vs i)). cbn [app]. f_equal. rewrite <- Hl. generalize 0 as k. clear. induction rs as [|r rs IH]; intros k; cbn; [reflexivity|]. now rewrite IH.
  - intros i r st Hi. rewrite (row_count_ok _ _ Hg). pose proof (nth_error_some_lt _ _ _ Hi) as Hlt.
    assert (Esub : sub64 (N.of_nat (length rs)) 1 = N.of_nat (length rs - 1)).
    { unfold sub64. replace ((N.of_nat (length rs) + 2 ^ 64 - 1))%N with (N.of_nat (length rs - 1) + 1 * 2 ^ 64)%N by lia. rewrite N.mod_add by discriminate. apply N.mod_small. lia. }
    rewrite Esub. destruct i as [|k].
    { reflexivity. }
    rewrite (proj2 (N.ltb_lt 0 _)) by lia. cbn [andb]. destruct (N.ltb_spec (N.of_nat (S k)) (N.of_nat (length rs - 1))) as [Hin|Hout].
    + destruct (nth_error rs (S (S k))) as [r2|] eqn:E2; [|apply nth_error_None in E2; lia]. destruct (nth_error rs k) as [r1|] eqn:E1; [|apply nth_error_None in E1; lia].
      destruct (row_ok _ _ _ _ Hg Hi) as (rw & -> & _ & Hrow). cbn [bind].
      replace (N.of_nat (S k) + 1)%N with (N.of_nat (S (S k))) by lia. destruct (row_ok _ _ _ _ Hg E2) as (rw2 & -> & _ & Hrow2). cbn [bind].
      replace (N.of_nat (S k) - 1)%N with (N.of_nat k) by lia. destruct (row_ok _ _ _ _ Hg E1) as (rw1 & -> & _ & Hrow1). cbn [bind].
      destruct (conv_cell _ _ _ _ _ Hv Hi) as (va & Va & La & Ca). destruct (conv_cell _ _ _ _ _ Hv E2) as (vb & Vb & Lb & Cb). destruct (conv_cell _ _ _ _ _ Hv E1) as (vc & Vc & Lc & Cc).
      destruct (Hn k va vb vc Va Vb Vc) as [H1 H2].
      assert (Av : averaged mean vs (S k) = Some (means mean va vb vc)) by (unfold averaged; now rewrite Va, Vb, Vc). rewrite Av.
      destruct Hrow as (Hsz & Hrest). pose proof (conj Hsz Hrest : is_row g rw r) as Hrow. rewrite Hsz. unfold for_range. change (N.to_nat 0) with 0. rewrite Nat.sub_0_r, Nat2N.id.
      unfold tok in *. rewrite <- La, <- (means_length va vb vc H1 H2).
      rewrite (for_up_foldi _ (fun _ out x => out ++ [x]) (means mean va vb vc) 0 []).
      * rewrite (foldi_collect (fun _ x => x)). cbn [bind app]. do 4 f_equal. generalize (means mean va vb vc) as l. clear. intros l. generalize 0 as q. induction l as [|x l IH]; intros q; cbn; [reflexivity|]. now rewrite IH.
      * intros j x st' Hj. cbn [plus]. pose proof (nth_error_some_lt _ _ _ Hj) as Hjl. rewrite means_length in Hjl by assumption.
        destruct (nth_error r j) as [t|] eqn:Et; [|apply nth_error_None in Et; unfold tok in *; lia].
        destruct (nth_error r2 j) as [t2|] eqn:Et2; [|apply nth_error_None in Et2; unfold tok in *; lia].
        destruct (nth_error r1 j) as [t1|] eqn:Et1; [|apply nth_error_None in Et1; unfold tok in *; lia].
        destruct (Ca j t Et) as (xa & Xa & Ya). destruct (Cb j t2 Et2) as (xb & Xb & Yb). destruct (Cc j t1 Et1) as (xc & Xc & Yc).
        rewrite (get_ok text g rw r j t xa Hrow Et Ya), (get_ok text g rw2 r2 j t2 xb Hrow2 Et2 Yb), (get_ok text g rw1 r1 j t1 xc Hrow1 Et1 Yc). cbn [bind].
        destruct (means_nth va vb vc j xa Xa H1 H2) as (y & z & Y & Z & M). rewrite M in Hj. injection Hj as <-. rewrite Xb in Y. rewrite Xc in Z. injection Y as <-. injection Z as <-. reflexivity.
    + unfold averaged. rewrite (proj2 (nth_error_None vs (S (S k)))) by (unfold tok in *; lia). destruct (nth_error vs (S k)); reflexivity.
Qed.
End Averages.
