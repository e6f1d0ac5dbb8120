From Verif Require Import Base Split_Model Split_Spec Split_Proofs Split_Props Parse_Model Parse_Spec Parse_Proofs Parse_Proofs2 Num_Model Num_Spec Num_Proofs Num_Props Text_Model Text_Spec Text_Props
  Grid_Spec Grid_Model Grid_Rep Grid_Proofs Grid_Proofs2 Grid_Props Table_Model Table_Spec.
Local Open Scope nat_scope.

(* ---- the text of a table ---- *)
Lemma cuts_ended (p : ascii -> bool) e : p e = true ->
  forall texts pre, Forall (fun t => t <> [] /\ Forall (fun c => p c = false) t) texts ->
  exists toks, cuts p (pre ++ concat (map (fun t => t ++ [e]) texts)) (fun f e => f) (fun f e => e) (length pre) toks /\
    map (sub (pre ++ concat (map (fun t => t ++ [e]) texts))) toks = texts ++ [[]].
Proof.
  intros He. induction texts as [|t texts IH]; intros pre Hf; cbn [map concat].
  - rewrite app_nil_r. exists [(length pre, length pre)]. split.
    + apply cut_last; [lia|]. intros i x Hi. lia.
    + cbn [map app]. f_equal. unfold sub. cbn [fst snd]. rewrite Nat.sub_diag. reflexivity.
  - inversion Hf as [|? ? [Ht1 Ht2] Hf']; subst. destruct (IH (pre ++ t ++ [e]) Hf') as (toks & Hc & Hm).
    rewrite <- !app_assoc in Hc, Hm. cbn [app] in Hc, Hm. rewrite <- !app_assoc. cbn [app].
    exists ((length pre, length pre + length t) :: toks). split.
    + apply (cut_more p _ (fun f e => f) (fun f e => e) (length pre) (length pre + length t) (length pre + length t + 1)).
      * lia.
      * lia.
      * rewrite !app_length. cbn [length]. lia.
      * now apply all_in_free.
      * pose proof (all_in_all p (pre ++ t) [e] (concat (map (fun t => t ++ [e]) texts)) (Forall_cons _ He (Forall_nil _))) as H.
        rewrite <- app_assoc, app_length in H. exact H.
      * destruct texts as [|u texts].
        -- left. cbn [map concat]. rewrite !app_length. cbn. lia.
        -- right. inversion Hf' as [|? ? [Hu1 Hu2] _]; subst. destruct u as [|c u]; [congruence|].
           exists c. split; [|now inversion Hu2]. cbn [map concat app].
           rewrite nth_error_app2 by lia. replace (length pre + length t + 1 - length pre) with (length t + 1) by lia.
           rewrite nth_error_app2 by lia. replace (length t + 1 - length t) with 1 by lia. reflexivity.
      * cbv beta. rewrite !app_length in Hc. cbn [length] in Hc. replace (length pre + length t + 1) with (length pre + (length t + 1)) by lia. exact Hc.
    + cbn [map app]. rewrite sub_here, Hm. reflexivity.
Qed.

Lemma lines_of_table delims e texts : In e delims ->
  Forall (fun t => t <> [] /\ forall c, In c t -> ~ In c delims) texts ->
  exists lines, compressed_tokens delims (concat (map (fun t => t ++ [e]) texts)) lines /\ filter nonempty lines = texts.
Proof.
  intros He Hf. assert (Hk : filter nonempty texts = texts).
  { induction Hf as [|t texts [Ht _] _ IH]; [reflexivity|]. cbn. destruct t; [congruence|]. cbn. now rewrite IH. }
  destruct texts as [|t texts].
  - exists []. split; [|reflexivity]. exists []. split; [now left|reflexivity].
  - destruct (cuts_ended (is_delim delims) e) with (texts := t :: texts) (pre := @nil ascii) as (toks & Hc & Hm).
    + now apply is_delim_in.
    + eapply Forall_impl; [|exact Hf]. cbn. intros x [H1 H2]. split; [auto|]. apply Forall_forall. intros c Hc.
      apply is_delim_out. now apply H2.
    + cbn [app length] in Hc, Hm. exists ((t :: texts) ++ [[]]). split.
      * exists toks. split; [|symmetry; exact Hm]. right. split; [|exact Hc]. cbn [map concat]. destruct t; discriminate.
      * rewrite filter_app, Hk. cbn [filter nonempty]. now rewrite app_nil_r.
Qed.

Lemma plain_out d c : plain d c -> forall x, In x c -> ~ In x [d] /\ ~ In x row_ends.
Proof.
  intros (H1 & H2 & H3) x Hx. unfold newline in H2. unfold row_ends. cbn [map In]. split; intros H; repeat (destruct H as [<-|H]); auto.
Qed.
Lemma separated_in d : forall r x, In x (separated [d] r) -> x = d \/ exists c, In c r /\ In x c.
Proof.
  induction r as [|c r IH]; intros x H; [destruct H|]. destruct r as [|c' r].
  - right. exists c. split; [now left|exact H].
  - change (separated [d] (c :: c' :: r)) with (c ++ [d] ++ separated [d] (c' :: r)) in H.
    apply in_app_or in H as [H|H]; [right; exists c; split; [now left|exact H]|]. destruct H as [<-|H]; [now left|].
    destruct (IH _ H) as [->|(k & K1 & K2)]; [now left|]. right. exists k. split; [now right|exact K2].
Qed.
Lemma separated_nonempty d r : r <> [] -> r <> [[]] -> separated [d] r <> [].
Proof.
  intros H1 H2. destruct r as [|c [|c' r]]; [congruence| |].
  - cbn. intros ->. congruence.
  - change (separated [d] (c :: c' :: r)) with (c ++ [d] ++ separated [d] (c' :: r)). destruct c; discriminate.
Qed.
Lemma table_lines d rows : ~ In d row_ends -> loose_table d rows ->
  exists lines, compressed_tokens row_ends (table_text d rows) lines /\ filter nonempty lines = map (separated [d]) rows.
Proof.
  intros Hd Ht. unfold table_text. rewrite <- (map_map (separated [d]) (fun t => t ++ [newline])).
  apply lines_of_table; [now left|]. apply Forall_map. eapply Forall_impl; [|exact Ht]. intros r (H1 & H2 & H3). split.
  - now apply separated_nonempty.
  - intros x Hx. apply separated_in in Hx as [->|(c & Hc & Hx)]; [exact Hd|].
    rewrite Forall_forall in H3. apply (plain_out d c (H3 _ Hc) x Hx).
Qed.
Lemma fields_compressed d r : Forall (fun c => c <> [] /\ plain d c) r -> fields_of [d] 1 (separated [d] r) r.
Proof.
  intros H. assert (C : compressed_tokens [d] (separated [d] r) r).
  { apply compressed_separated; [discriminate|apply incl_refl|]. eapply Forall_impl; [|exact H]. intros c [H1 H2].
    split; [exact H1|]. intros x Hx. apply (plain_out d c H2 x Hx). }
  exact C.
Qed.
Lemma fields_separate d r : r <> [] -> r <> [[]] -> Forall (plain d) r -> fields_of [d] 0 (separated [d] r) r.
Proof.
  intros H1 H2 H3. destruct (split_join d r H1 H2) as (toks & E & M).
  - eapply Forall_impl; [|exact H3]. intros c (H & _). exact H.
  - rewrite C01_split_string_delimiters in E. pose proof (fields_by_split [d] _ _ _ E) as F. now rewrite M in F.
Qed.
Lemma table_loose d rows : table d rows -> loose_table d rows.
Proof.
  intros H. eapply Forall_impl; [|exact H]. intros r [H1 H2]. split; [exact H1|]. split.
  - intros ->. inversion H2 as [|? ? [H3 _] _]; subst. congruence.
  - eapply Forall_impl; [|exact H2]. intros c [_ Hc]. exact Hc.
Qed.
Lemma cells_compressed d rows : ~ In d row_ends -> table d rows -> cells_of row_ends [d] 1 (table_text d rows) rows.
Proof.
  intros Hd H. destruct (table_lines d rows Hd (table_loose _ _ H)) as (lines & H1 & H2). exists lines. split; [exact H1|].
  rewrite H2. clear -H. induction H as [|r rows [_ Hr] _ IH]; cbn [map]; constructor; [now apply fields_compressed|exact IH].
Qed.
Lemma cells_separate d rows : ~ In d row_ends -> loose_table d rows -> cells_of row_ends [d] 0 (table_text d rows) rows.
Proof.
  intros Hd H. destruct (table_lines d rows Hd H) as (lines & H1 & H2). exists lines. split; [exact H1|].
  rewrite H2. clear -H. induction H as [|r rows (Hr1 & Hr2 & Hr3) _ IH]; cbn [map]; constructor; [now apply fields_separate|exact IH].
Qed.

Lemma load_cells o text cells : support_dquotes o = false ->
  cells_of (row_delimiters o) (column_delimiters o) (column_split_option o) text cells -> small (length (concat cells)) ->
  exists g rs, load o text = Ok g /\ represents g rs /\ counts_right g rs /\ within text rs /\ map (map (sub text)) rs = cells.
Proof.
  intros Hq Hc Hs. destruct (load_ok o text Hq) as (cells' & Hc' & H).
  rewrite (cells_fun _ _ _ _ _ _ Hc' Hc) in *. now apply H.
Qed.
Lemma comma_in : ~ In ","%char row_ends.
Proof. intros [H|[H|[]]]; discriminate. Qed.

(* ---- totals of a symbol ---- *)
Lemma to_ullong_iff s v : to_ullong s = Some v <-> unsigned_text s v /\ (v <= 18446744073709551615)%Z.
Proof.
  destruct (C18_unsigned_exact s) as (_ & _ & (o & E) & H). specialize (H v). unfold to_ullong. rewrite E in *. rewrite <- H. split; congruence.
Qed.
Lemma to_size_iff s v : to_size s = Some v <-> unsigned_text s v /\ (v <= 4294967295)%Z.
Proof.
  destruct (C18_unsigned_long s) as ((o & E) & H). specialize (H v). unfold to_size. rewrite E in *. rewrite <- H. split; congruence.
Qed.
Lemma chosen_concerns text symbol rs : forall k,
  map (sub text) (chosen (symbol_predicate text symbol) 6 k rs) =
  map (fun r => nth 6 r []) (filter (concerns symbol) (map (map (sub text)) rs)).
Proof.
  induction rs as [|r rs IH]; intros k; cbn [chosen map filter]; [reflexivity|].
  unfold concerns at 1. rewrite !nth_error_map. unfold symbol_predicate at 1. unfold tok in *.
  destruct (nth_error r 6) as [t6|] eqn:E6; cbn [option_map].
  - destruct (nth_error r 1) as [t1|] eqn:E1; cbn [option_map]; [|apply IH].
    destruct (list_eq_dec ascii_dec symbol (sub text t1)) as [->|N], (list_eq_dec ascii_dec (sub text t1) _) as [E|N']; try congruence; try apply IH.
    cbn [map]. f_equal; [|apply IH]. symmetry. apply nth_error_nth with (n := 6) (d := []). rewrite nth_error_map, E6. reflexivity.
  - destruct (option_map (sub text) (nth_error r 1)); apply IH.
Qed.
Lemma wrapped_sum vs : forall a, fold_left (fun a b => (a + b) mod 2 ^ 64)%Z vs (a mod 2 ^ 64)%Z = ((a + sum_of vs) mod 2 ^ 64)%Z.
Proof.
  induction vs as [|v vs IH]; intros a; cbn [fold_left sum_of fold_right].
  - now rewrite Z.add_0_r.
  - rewrite Zplus_mod_idemp_l, IH. unfold sum_of. now rewrite Z.add_assoc.
Qed.
Lemma number_cell rows vs : Forall2 (number_at 6 18446744073709551615) rows vs -> map to_ullong (map (fun r => nth 6 r []) rows) = map Some vs.
Proof.
  induction 1 as [|r v rows vs (t & H1 & H2) _ IH]; [reflexivity|]. cbn [map]. f_equal; [|exact IH].
  apply to_ullong_iff. now rewrite (nth_error_nth _ _ _ H1).
Qed.
Lemma column_at_most (g : grid) rs r c : counts_right g rs -> In r rs -> c <= length r -> (N.of_nat c <= max_c g)%N.
Proof.
  intros H Hi Hc. destruct rs as [|r0 rs]; [destruct Hi|]. destruct H as (mn & mx & _ & -> & _ & [_ Hm]). apply Hm in Hi. lia.
Qed.
Lemma stock_taken rows symbol ok vs : table ","%char rows -> small (length (concat rows)) ->
  taken to_ullong (map (fun r => nth 6 r []) (filter (concerns symbol) rows)) ok vs ->
  stock_info (table_text ","%char rows) symbol = Ok ((if ok then N.of_nat (length vs) else 0%N), (sum_of vs mod 2 ^ 64)%Z).
Proof.
  intros Ht Hs Hv. destruct (load_cells (compressed (str ",")) (table_text ","%char rows) rows eq_refl) as (g & rs & E & Hg & Hc & Hw & Hm).
  - exact (cells_compressed ","%char rows comma_in Ht).
  - exact Hs.
  - unfold stock_info. rewrite E. cbn [bind]. rewrite (all_rows_ok g rs Hg). change 6%N with (N.of_nat 6).
    destruct (N.leb_spec (N.of_nat 6) (max_c g)) as [H6|H6].
    + destruct (C63_accumulate_column_if Z (fun a b => (a + b) mod 2 ^ 64)%Z (symbol_predicate (table_text ","%char rows) symbol) (table_text ","%char rows) g rs to_ullong 0 (length rs) 6 0%Z Hg H6 ltac:(lia) ltac:(lia)) as (ok' & vs' & E' & Ht').
      rewrite E'. rewrite slice_all, chosen_concerns, Hm in Ht'. destruct (taken_fun _ _ _ _ _ _ Hv Ht') as [-> ->].
      do 2 f_equal. exact (wrapped_sum vs' 0%Z).
    + unfold accumulate_column_if. rewrite (proj2 (N.ltb_lt _ _) H6).
      assert (F : filter (concerns symbol) rows = []).
      { destruct (filter (concerns symbol) rows) as [|r l] eqn:Ef; [reflexivity|]. exfalso.
        assert (Hi : In r (filter (concerns symbol) (map (map (sub (table_text ","%char rows))) rs))) by (rewrite Hm, Ef; now left).
        apply filter_In in Hi as [Hi Hcn]. apply in_map_iff in Hi as (r' & <- & Hi). unfold concerns in Hcn. rewrite !nth_error_map in Hcn.
        unfold tok in *. destruct (option_map _ (nth_error r' 1)); [|discriminate]. destruct (nth_error r' 6) as [t6|] eqn:E6; [|discriminate].
        apply nth_error_some_lt in E6. pose proof (column_at_most g rs r' 6 Hc Hi (Nat.lt_le_incl _ _ E6)). lia. }
      rewrite F in Hv. cbn [map] in Hv. destruct (taken_fun _ _ _ _ _ _ Hv (ex_intro _ [] (ex_intro _ [] (conj eq_refl (conj eq_refl eq_refl))) : taken to_ullong [] true [])) as [-> ->].
      reflexivity.
Qed.

(* ---- sums per period ---- *)
Section Stateful.
Context {S X : Type}.
Variables (p : S -> list tok -> outcome (S * bool)) (f : X -> N * N -> outcome (X * bool)) (h : X -> N * N -> X * bool)
  (g : grid) (rs : list (list tok)) (state : nat -> S) (mark : nat -> bool).
Hypothesis Hg : represents g rs.
Hypothesis Hp : forall i r, nth_error rs i = Some r -> p (state i) r = Ok (state (Datatypes.S i), mark i).
Hypothesis Hf : forall x a b, a < b <= length rs -> f x (N.of_nat a, N.of_nat b) = Ok (h x (N.of_nat a, N.of_nat b)).

Lemma stateful x : sequential_partition_s p f g (N.of_nat 0, N.of_nat (length rs)) (state 0) x =
  sequential_partition (fun i _ => mark (N.to_nat i)) h g (N.of_nat 0, N.of_nat (length rs)) x.
Proof.
  unfold sequential_partition_s, sequential_partition. destruct (row_range_invalid _ _); [reflexivity|]. cbn [fst snd plus].
  match goal with |- (q <- loop _ ?bd _ ;; _) = (q' <- loop _ ?bd' _ ;; _) => set (body := bd); set (body' := bd') end.
  assert (G : forall fuel i a b x, a <= b -> b <= i -> i <= length rs ->
    exists q, loop fuel body (N.of_nat i, (N.of_nat a, N.of_nat b), state i, x) = q /\
      loop fuel body' (N.of_nat i, (N.of_nat a, N.of_nat b), x) = q /\
      forall r y, q = Ok (Some r, y) -> exists a', fst r = N.of_nat a' /\ a' <= length rs).
  { induction fuel as [|fuel IH]; intros i a b y Hab Hbi Hi; [exists OutOfFuel; repeat split; discriminate|].
    cbn [loop]. unfold body at 1. unfold body' at 1. destruct (N.ltb_spec (N.of_nat i) (N.of_nat (length rs))); cbn [negb].
    - destruct (nth_error rs i) as [r|] eqn:Er; [|apply nth_error_None in Er; lia].
      destruct (row_ok _ _ _ _ Hg Er) as (rw & -> & _ & Hrow). cbn [bind]. rewrite (row_tokens_ok _ _ _ Hrow). cbn [bind].
      rewrite (Hp i r Er). cbn [bind]. rewrite Nat2N.id. replace (N.of_nat i + 1)%N with (N.of_nat (Datatypes.S i)) by lia. cbn [fst snd].
      destruct (mark i).
      + destruct (N.eqb_spec (N.of_nat a) (N.of_nat b)) as [E|E]; cbn [negb bind].
        * apply IH; lia.
        * rewrite Hf by lia. destruct (h y (N.of_nat a, N.of_nat i)) as [y' c]. cbn [bind]. destruct c; cbn [negb bind].
          -- apply IH; lia.
          -- eexists. split; [reflexivity|]. split; [reflexivity|]. discriminate.
      + apply IH; lia.
    - cbn [bind]. eexists. split; [reflexivity|]. split; [reflexivity|]. intros r z E. injection E as <- <-. exists a. cbn. split; [reflexivity|lia]. }
  destruct (G (Datatypes.S (N.to_nat (N.of_nat (length rs)))) 0 0 0 x ltac:(lia) ltac:(lia) ltac:(lia)) as (q & -> & -> & Hq).
  destruct q as [[[r|] y]| |]; cbn [bind]; try reflexivity.
  destruct (Hq r y eq_refl) as (a & Ea & Ha). destruct (N.eqb_spec (fst r) (N.of_nat (length rs))) as [E|E]; cbn [negb]; [reflexivity|].
  rewrite Ea. rewrite Hf by lia. destruct (h y _) as [y' c]. reflexivity.
Qed.
End Stateful.

Definition tick_after (n t : Z) : Z := if (n <=? t)%Z then (t + 3)%Z else n.
Definition next_tick (times : list Z) (k : nat) : Z := fold_left tick_after (firstn k times) 0%Z.
Lemma mark_at times : forall k n t, nth_error times k = Some t ->
  nth k (period_starts n times) false = (fold_left tick_after (firstn k times) n <=? t)%Z.
Proof.
  induction times as [|u times IH]; intros k n t H; [now destruct k|]. destruct k as [|k]; cbn [nth_error] in H.
  - injection H as <-. cbn. now destruct (n <=? u)%Z.
  - cbn [period_starts firstn fold_left]. unfold tick_after at 2. destruct (n <=? u)%Z; cbn [nth]; now apply IH.
Qed.
Lemma forall2_at {A B} (R : A -> B -> Prop) l l' : Forall2 R l l' -> forall i x, nth_error l i = Some x -> exists y, nth_error l' i = Some y /\ R x y.
Proof. induction 1 as [|a b l l' H _ IH]; intros i x Hi; [now destruct i|]. destruct i; cbn in *; [injection Hi as <-; eauto|eauto]. Qed.
Lemma firstn_S_at {A} (l : list A) k x : nth_error l k = Some x -> firstn (S k) l = firstn k l ++ [x].
Proof. revert k. induction l as [|a l IH]; intros [|k] H; cbn in *; try congruence. f_equal. now apply IH. Qed.

Lemma slice_forall2 {A B} (R : A -> B -> Prop) l l' a b : Forall2 R l l' -> Forall2 R (slice l a b) (slice l' a b).
Proof.
  intros H. unfold slice. assert (K : Forall2 R (skipn a l) (skipn a l')).
  { revert l l' H. induction a as [|a IH]; intros l l' H; [exact H|]. destruct H; cbn; [constructor|auto]. }
  generalize (b - a) as n. intros n. revert n. induction K; intros [|n]; cbn; constructor; auto.
Qed.
Section Buckets.
Context {T : Type}.
Variables (conv : list ascii -> option T) (add : T -> T -> T) (nought : T).
Definition has_value (r : list (list ascii)) (v : T) : Prop := exists t, nth_error r 1 = Some t /\ conv t = Some v.

Lemma value_taken text rs values : Forall2 has_value (map (map (sub text)) rs) values ->
  taken conv (map (sub text) (column rs 1)) true values.
Proof.
  intros H. exists (map (sub text) (column rs 1)), []. split; [now rewrite app_nil_r|]. split; [|reflexivity].
  remember (map (map (sub text)) rs) as rows eqn:E. revert rs E. induction H as [|r v rows values (t & H1 & H2) _ IH]; intros [|r' rs] E; try discriminate; [reflexivity|].
  cbn [map] in E. injection E as -> ->. rewrite nth_error_map in H1. cbn [column]. unfold tok in *. destruct (nth_error r' 1) as [t'|]; [|discriminate].
  cbn in H1. injection H1 as <-. cbn [map]. rewrite H2. f_equal. now apply IH.
Qed.

Lemma bucket_sums_ok rows times values : table ","%char rows -> small (length (concat rows)) ->
  Forall2 (number_at 0 4294967295) rows times -> Forall2 has_value rows values ->
  exists ranges, groups (fun i => nth i (period_starts 0 times) false) (length rows) 0 ranges /\
    bucket_sums conv add nought (table_text ","%char rows) = Ok (true, map (fun q => fold_left add (slice values (fst q) (snd q)) nought) ranges).
Proof.
  intros Ht Hs Htm Hv. destruct (load_cells (compressed (str ",")) (table_text ","%char rows) rows eq_refl) as (g & rs & E & Hg & Hc & Hw & Hm).
  - exact (cells_compressed ","%char rows comma_in Ht).
  - exact Hs.
  - assert (Hlen : length rs = length rows) by (rewrite <- Hm; now rewrite map_length).
    unfold bucket_sums. rewrite E. cbn [bind]. rewrite (all_rows_ok g rs Hg).
    set (h := fun (x : list T) (q : N * N) => (x ++ [fold_left add (slice values (N.to_nat (fst q)) (N.to_nat (snd q))) nought], true)).
    pose proof (fun H1 H2 => stateful (tick (table_text ","%char rows)) (bucket conv add nought (table_text ","%char rows) g) h g rs (next_tick times)
      (fun i => nth i (period_starts 0 times) false) Hg H1 H2 []) as St. change (next_tick times 0) with 0%Z in St. rewrite St; clear St.
    + destruct (C63_sequential_partition (list T) (fun i _ => nth (N.to_nat i) (period_starts 0 times) false) h g rs 0 (length rs) [] Hg ltac:(lia) ltac:(lia)) as (ranges & ok & x' & -> & Hgr & Hca).
      exists ranges. rewrite <- Hlen. split.
      * assert (Hat : forall i, i < length rs -> at_row (fun i _ => nth (N.to_nat i) (period_starts 0 times) false) rs i = nth i (period_starts 0 times) false).
        { intros i Hi. unfold at_row. destruct (nth_error rs i) eqn:En; [now rewrite Nat2N.id|apply nth_error_None in En; lia]. }
        clear -Hgr Hat. induction Hgr as [|s Hs H|s e rest Hs H He (j & Hj & Hj') _ IH].
        -- constructor.
        -- constructor; [exact Hs|]. intros i Hi Hp j Hj. rewrite <- Hat by lia. apply (H i Hi); [|exact Hj]. rewrite Hat by lia. exact Hp.
        -- apply groups_cut; [exact Hs| | | |exact IH].
           ++ intros i Hi Hp k Hk. rewrite <- Hat by lia. apply (H i Hi); [|exact Hk]. rewrite Hat by lia. exact Hp.
           ++ rewrite <- Hat by lia. exact He.
           ++ exists j. split; [exact Hj|]. rewrite <- Hat by lia. exact Hj'.
      * assert (K : forall x, called (on_nat h) ranges x ok x' -> (ok, x') = (true, x ++ map (fun q => fold_left add (slice values (fst q) (snd q)) nought) ranges)).
        { clear. induction ranges as [|q ranges IH]; intros x H; inversion H; subst; cbn [map].
          - now rewrite app_nil_r.
          - match goal with Hx : on_nat h _ _ = _, Hy : called _ _ _ _ _ |- _ => unfold on_nat, h in Hx; injection Hx as <-; apply IH in Hy; rewrite Hy end.
            cbn [fst snd]. rewrite !Nat2N.id, <- app_assoc. reflexivity.
          - match goal with Hx : on_nat h _ _ = _ |- _ => unfold on_nat, h in Hx; discriminate end. }
        specialize (K [] Hca). injection K as -> ->. reflexivity.
    + intros i r Hi. pose proof (map_nth_error (map (sub (table_text ","%char rows))) i rs Hi) as Hi'. rewrite Hm in Hi'.
      destruct (forall2_at _ _ _ Htm i _ Hi') as (t & Et & (c & Hc1 & Hc2 & Hc3)). rewrite nth_error_map in Hc1. unfold tick. unfold tok in *.
      destruct (nth_error r 0) as [tk|]; [|discriminate]. cbn in Hc1. injection Hc1 as <-.
      rewrite (proj2 (to_size_iff _ t) (conj Hc2 Hc3)). cbv beta. rewrite (mark_at times i 0%Z t Et). unfold next_tick. rewrite (firstn_S_at _ _ _ Et), fold_left_app. cbn [fold_left].
      set (nx := fold_left tick_after (firstn i times) 0%Z). unfold tick_after. destruct (nx <=? t)%Z eqn:El; [|reflexivity]. do 2 f_equal. apply Z.mod_small.
      assert (0 <= t)%Z. { destruct Hc2 as (sg & ds & _ & _ & Hd & ->). apply (dec_bounds ds). apply Hd. } lia.
    + intros x a b Hab. unfold bucket, h. cbn [fst snd]. rewrite !Nat2N.id. change 1%N with (N.of_nat 1).
      assert (H1 : (N.of_nat 1 <= max_c g)%N).
      { destruct rs as [|r rs']; [cbn in Hab; lia|]. apply (column_at_most g (r :: rs') r 1 Hc (or_introl eq_refl)).
        destruct Hg as (_ & _ & Hne & _). inversion Hne. destruct r; [congruence|cbn; lia]. }
      destruct (C63_accumulate_column T add (table_text ","%char rows) g rs conv a b 1 nought Hg H1 ltac:(lia) ltac:(lia)) as (ok & vs & -> & Htk). cbn [bind].
      pose proof (value_taken (table_text ","%char rows) (slice rs a b) (slice values a b)) as Hvt.
      rewrite <- slice_map in Hvt. rewrite Hm in Hvt. specialize (Hvt (slice_forall2 _ _ _ a b Hv)).
      destruct (taken_fun _ _ _ _ _ _ Hvt Htk) as [<- <-]. rewrite (proj2 (N.eqb_neq _ _)) by lia. reflexivity.
Qed.
End Buckets.
