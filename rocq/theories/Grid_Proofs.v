From Verif Require Import Base Split_Model Split_Spec Split_Proofs Split_Proofs2 Split_Proofs3 Parse_Spec Parse_Model Parse_Proofs Grid_Spec Grid_Model Grid_Rep.
Local Open Scope nat_scope.

Lemma at_nat {A} (l : list A) i : at_ l (N.of_nat i) = rd l i.
Proof.
  unfold at_. destruct (N.ltb_spec (N.of_nat i) (N.of_nat (length l))).
  - now rewrite Nat2N.id.
  - symmetry. apply rd_ub. lia.
Qed.
Lemma set_nat {A} (l : list A) i v : set_ l (N.of_nat i) v = wr l i v.
Proof.
  unfold set_. destruct (N.ltb_spec (N.of_nat i) (N.of_nat (length l))).
  - now rewrite Nat2N.id.
  - symmetry. apply wr_ub. lia.
Qed.
Lemma at_N {A} (l : list A) i : at_ l i = rd l (N.to_nat i).
Proof. rewrite <- (N2Nat.id i) at 1. apply at_nat. Qed.

Lemma u32_small x : (x < 2 ^ 32)%N -> u32 x = x.
Proof. intros. unfold u32. now apply N.mod_small. Qed.
Lemma sub32_small a b : (b <= a)%N -> (a < 2 ^ 32)%N -> sub32 a b = (a - b)%N.
Proof.
  intros Hb Ha. unfold sub32. rewrite (u32_small b) by lia. unfold u32. change (2 ^ 32)%N with 4294967296%N in *.
  replace (a + 4294967296 - b)%N with (a - b + 1 * 4294967296)%N by lia. rewrite N.mod_add by lia. apply N.mod_small. lia.
Qed.
Lemma count_ok s n : n <> 0 -> small (s + n) -> token_count (N.of_nat s, N.of_nat (s + n - 1)) = N.of_nat n.
Proof.
  unfold small. intros Hn Hs. unfold token_count. cbn [fst snd]. rewrite sub32_small by lia. rewrite u32_small by lia. lia.
Qed.
Lemma small_le a b : a <= b -> small b -> small a.
Proof. unfold small. lia. Qed.

Lemma indexed_length s rs : length (indexed s rs) = length rs.
Proof. revert s. induction rs; intros s; cbn; auto. Qed.
Lemma indexed_app s a b : indexed s (a ++ b) = indexed s a ++ indexed (s + length (concat a)) b.
Proof.
  revert s. induction a as [|r a IH]; intros s; cbn [app indexed concat length]; [now rewrite Nat.add_0_r|].
  rewrite IH, app_length. do 3 f_equal. lia.
Qed.
Lemma concat_app_len {A} (a b : list (list A)) : length (concat (a ++ b)) = length (concat a) + length (concat b).
Proof. now rewrite concat_app, app_length. Qed.

(* row i, and where its tokens are *)
Lemma row_at g rs i r : represents g rs -> nth_error rs i = Some r ->
  exists base, rd (rows g) i = Ok (N.of_nat base, N.of_nat (base + length r - 1)) /\
    token_count (N.of_nat base, N.of_nat (base + length r - 1)) = N.of_nat (length r) /\
    r <> [] /\ base + length r <= length (tokens g) /\ small (base + length r) /\
    (forall j t, nth_error r j = Some t -> rd (tokens g) (base + j) = Ok t) /\
    (S i < length rs -> base + length r < length (tokens g)) /\
    (S i = length rs -> base + length r = length (tokens g)).
Proof.
  intros (H1 & H2 & H3 & H4) Hi. destruct (nth_error_split _ _ Hi) as (a & b & -> & Hl).
  exists (length (concat a)). rewrite H1, H2, indexed_app, concat_app. cbn [indexed concat plus].
  assert (Hr : r <> []) by (rewrite Forall_forall in H3; apply H3, in_or_app; right; now left).
  assert (Hs : small (length (concat a) + length r)).
  { eapply small_le; [|exact H4]. rewrite concat_app_len. cbn [concat]. rewrite app_length. lia. }
  rewrite !app_length. split; [|split; [|split; [|split; [|split; [|split; [|split]]]]]].
  - rewrite <- Hl, <- (indexed_length 0 a). apply rd_here.
  - apply count_ok; [|exact Hs]. destruct r; [congruence|discriminate].
  - exact Hr.
  - cbn. lia.
  - exact Hs.
  - intros j t Hj. apply rd_nth. rewrite nth_error_app2 by lia. replace (length (concat a) + j - length (concat a)) with j by lia.
    rewrite nth_error_app1 by (eapply nth_error_some_lt; eauto). exact Hj.
  - intros Hlt. destruct b as [|r' b]; [rewrite <- Hl in Hlt; cbn in Hlt; lia|]. cbn [concat]. rewrite app_length.
    assert (r' <> []) by (rewrite Forall_forall in H3; apply H3, in_or_app; right; right; now left).
    destruct r'; [congruence|]. cbn [length]. lia.
  - intros Heq. destruct b as [|r' b]; [cbn; lia|rewrite <- Hl in Heq; cbn in Heq; lia].
Qed.

(* loops over a list that is read element by element *)
Fixpoint foldi {S A} (f : nat -> S -> A -> S) (k : nat) (l : list A) (st : S) : S :=
  match l with [] => st | x :: l => foldi f (Datatypes.S k) l (f k st x) end.
Lemma foldi_left {S A} (f : S -> A -> S) l : forall k st, foldi (fun _ => f) k l st = fold_left f l st.
Proof. induction l; intros; cbn; auto. Qed.
Lemma for_up_foldi {S A} (body : nat -> S -> outcome S) (f : nat -> S -> A -> S) l : forall k st,
  (forall j x st, nth_error l j = Some x -> body (k + j) st = Ok (f (k + j) st x)) ->
  for_up k (length l) body st = Ok (foldi f k l st).
Proof.
  induction l as [|x l IH]; intros k st H; cbn [length for_up foldi]; [reflexivity|].
  specialize (H 0 x) as H0. rewrite Nat.add_0_r in H0. rewrite (H0 st eq_refl). cbn [bind].
  apply IH. intros j y st' Hj. replace (Datatypes.S k + j) with (k + Datatypes.S j) by lia. now apply H.
Qed.
Lemma for_up_fold {S A} (body : nat -> S -> outcome S) (f : S -> A -> S) l k st :
  (forall j x st, nth_error l j = Some x -> body (k + j) st = Ok (f st x)) ->
  for_up k (length l) body st = Ok (fold_left f l st).
Proof. intros H. rewrite (for_up_foldi body (fun _ => f) l k st); [|exact H]. now rewrite foldi_left. Qed.

(* ------------------------------------------------------------------ *)
(* column counts *)
Lemma minmax_fold (rs : list (list tok)) : forall mn mx,
  let f := fun '(mn, mx) (r : list tok) =>
    ((if (N.of_nat (length r) <? mn)%N then N.of_nat (length r) else mn),
     (if (mx <? N.of_nat (length r))%N then N.of_nat (length r) else mx)) in
  let '(mn', mx') := fold_left f rs (mn, mx) in
  (mn' <= mn)%N /\ (mx <= mx')%N /\
  (forall r, In r rs -> (mn' <= N.of_nat (length r))%N /\ (N.of_nat (length r) <= mx')%N) /\
  (mn' = mn \/ exists r, In r rs /\ mn' = N.of_nat (length r)) /\
  (mx' = mx \/ exists r, In r rs /\ mx' = N.of_nat (length r)).
Proof.
  induction rs as [|r rs IH]; intros mn mx; cbn [fold_left].
  - split; [lia|]. split; [lia|]. split; [intros r []|]. split; now left.
  - specialize (IH (if (N.of_nat (length r) <? mn)%N then N.of_nat (length r) else mn)
                   (if (mx <? N.of_nat (length r))%N then N.of_nat (length r) else mx)).
    cbv zeta in IH. destruct (fold_left _ rs _) as [mn' mx'].
    destruct IH as (I1 & I2 & I3 & I4 & I5).
    destruct (N.ltb_spec (N.of_nat (length r)) mn), (N.ltb_spec mx (N.of_nat (length r))).
    all: split; [lia|]; split; [lia|]; split; [intros x [<-|Hx]; [lia|exact (I3 x Hx)]|].
    all: (split; [destruct I4 as [I4|(x & Hx & I4)]|destruct I5 as [I5|(x & Hx & I5)]]);
      try (right; exists x; split; [now right|assumption]); auto;
      try (right; exists r; split; [now left|assumption]).
Qed.

Lemma update_minmax_ok g rs : represents g rs -> exists g', update_minmax_columns g = Ok g' /\
  tokens g' = tokens g /\ rows g' = rows g /\ counts_right g' rs.
Proof.
  intros Hr. unfold update_minmax_columns, for_range, row_count.
  change (N.to_nat 0) with 0. rewrite Nat.sub_0_r, Nat2N.id.
  assert (L : length (rows g) = length rs) by (destruct Hr as (_ & -> & _); apply indexed_length). rewrite L.
  rewrite (for_up_fold _ (fun '(mn, mx) (r : list tok) =>
    ((if (N.of_nat (length r) <? mn)%N then N.of_nat (length r) else mn),
     (if (mx <? N.of_nat (length r))%N then N.of_nat (length r) else mx))) rs).
  2:{ intros j r [mn mx] Hj. destruct (row_at g rs j r Hr Hj) as (base & E & Ec & _). cbn [plus].
      rewrite at_nat, E. cbn [bind]. rewrite Ec. reflexivity. }
  cbn [bind]. pose proof (minmax_fold rs size_max 0%N) as M. cbv zeta in M.
  destruct (fold_left _ rs _) as [mn mx]. cbn [bind].
  eexists. split; [reflexivity|]. split; [reflexivity|]. split; [reflexivity|]. destruct M as (M1 & M2 & M3 & M4 & M5).
  destruct rs as [|r0 rs].
  - cbn. destruct M4 as [M4|(? & [] & _)], M5 as [M5|(? & [] & _)]. auto.
  - unfold counts_right. cbn [min_c max_c].
    assert (Hlen : forall r, In r (r0 :: rs) -> (0 < N.of_nat (length r) < 2 ^ 32)%N).
    { destruct Hr as (_ & _ & H3 & H4). intros r Hin. rewrite Forall_forall in H3. pose proof (H3 r Hin) as Hne. split.
      - destruct r; [congruence|cbn; lia].
      - destruct (in_split _ _ Hin) as (a & b & E). rewrite E in H4. unfold small in H4. rewrite concat_app_len in H4. cbn [concat] in H4.
        rewrite app_length in H4. lia. }
    assert (M4' : exists r, In r (r0 :: rs) /\ mn = N.of_nat (length r)).
    { destruct M4 as [M4|M4]; [|exact M4]. exfalso. destruct (M3 r0 (or_introl eq_refl)) as [A _]. pose proof (Hlen r0 (or_introl eq_refl)).
      subst mn. unfold size_max in A. change (2 ^ 32)%N with 4294967296%N in *. lia. }
    assert (M5' : exists r, In r (r0 :: rs) /\ mx = N.of_nat (length r)).
    { destruct M5 as [M5|M5]; [|exact M5]. exfalso. destruct (M3 r0 (or_introl eq_refl)) as [_ A]. pose proof (Hlen r0 (or_introl eq_refl)). lia. }
    destruct M4' as (ra & Ha & ->), M5' as (rb & Hb & ->). exists (length ra), (length rb).
    split; [reflexivity|]. split; [reflexivity|]. split; (split; [eauto|]); intros r Hin; destruct (M3 r Hin); lia.
Qed.

(* ------------------------------------------------------------------ *)
(* loading *)
Inductive processed {Q} (splitter : Q -> list ascii -> outcome (Q * (list tok * nat))) (buf : list ascii)
  : Q -> list tok -> list (list tok) -> Q -> Prop :=
| pr_nil : forall q, processed splitter buf q [] [] q
| pr_skip : forall q r rs rows q', fst r = snd r -> processed splitter buf q rs rows q' -> processed splitter buf q (r :: rs) rows q'
| pr_row : forall q r rs toks q1 rows q', fst r <> snd r -> splitter q (sub buf r) = Ok (q1, (toks, length toks)) -> toks <> [] ->
    processed splitter buf q1 rs rows q' -> processed splitter buf q (r :: rs) (map (shift (fst r)) toks :: rows) q'.

Lemma process_rows_ok {Q} splitter buf (q : Q) ranges rs q' : processed splitter buf q ranges rs q' -> forall rs0,
  small (length (concat (rs0 ++ rs))) ->
  process_rows splitter buf (concat rs0, indexed 0 rs0, q) ranges = Ok (concat (rs0 ++ rs), indexed 0 (rs0 ++ rs), q').
Proof.
  induction 1 as [q|q r rs rows q' Hr _ IH|q r rs toks q1 rows q' Hr Es Hne _ IH]; intros rs0 Hs; cbn [process_rows].
  - now rewrite app_nil_r.
  - unfold row_process. rewrite (proj2 (Nat.eqb_eq _ _) Hr). cbn [bind]. now apply IH.
  - unfold row_process. rewrite (proj2 (Nat.eqb_neq _ _) Hr), Es. cbn [bind].
    assert (Hs' : small (length (concat rs0) + length toks)).
    { eapply small_le; [|exact Hs]. rewrite concat_app_len. cbn [concat]. rewrite app_length, map_length. lia. }
    assert (Hlt : 0 < length toks) by (destruct toks; [congruence|cbn; lia]).
    unfold small in Hs'. rewrite (u32_small (N.of_nat (length (concat rs0)))) by lia.
    rewrite (u32_small (N.of_nat (length (concat rs0)) + N.of_nat (length toks))) by lia. rewrite sub32_small by lia.
    specialize (IH (rs0 ++ [map (shift (fst r)) toks])). rewrite <- app_assoc in IH. cbn [app] in IH. specialize (IH Hs).
    rewrite concat_app, indexed_app in IH. cbn [concat indexed plus] in IH. rewrite app_nil_r, map_length in IH.
    replace (N.of_nat (length (concat rs0)) + N.of_nat (length toks) - 1)%N with (N.of_nat (length (concat rs0) + length toks - 1)) by lia.
    exact IH.
Qed.

Lemma processed_nonempty {Q} splitter buf (q : Q) ranges rs q' : processed splitter buf q ranges rs q' -> Forall (fun r => r <> []) rs.
Proof.
  induction 1 as [| |q r rs toks q1 rows q' Hr Es Hne _ IH]; auto. constructor; [|exact IH]. destruct toks; [congruence|discriminate].
Qed.

Lemma cuts_nonempty {A} (p : A -> bool) s te nx a toks : cuts p s te nx a toks -> toks <> [].
Proof. destruct 1; discriminate. Qed.

Lemma sub_shift (buf : list ascii) b e t : b <= e -> e <= length buf -> fst t <= snd t -> snd t <= e - b ->
  sub buf (shift b t) = sub (sub buf (b, e)) t.
Proof.
  intros H1 H2 H3 H4. destruct t as [f g]. cbn [fst snd shift] in *. apply nth_error_ext. intros i.
  destruct (Nat.lt_ge_cases i (g - f)) as [Hi|Hi].
  - unfold shift. cbn [fst snd]. rewrite !nth_error_sub by lia. f_equal. lia.
  - unfold shift. cbn [fst snd]. rewrite (proj2 (nth_error_None _ _)), (proj2 (nth_error_None _ _)); auto.
    + rewrite sub_length; try lia. rewrite sub_length; lia.
    + rewrite sub_length; lia.
Qed.

Lemma spec_end_range opt f e : f < e -> f <= spec_tok_end opt f e <= e.
Proof. intros. unfold spec_tok_end. destruct (has_bit opt 1), (has_bit opt 2); lia. Qed.
Lemma spec_next_range opt f e : f < e -> f < spec_next_start opt f e <= e.
Proof. intros. unfold spec_next_start. destruct (has_bit opt 0), (has_bit opt 1), (has_bit opt 2); lia. Qed.

Lemma cuts_in_range {A} (p : A -> bool) s opt a toks : cuts p s (spec_tok_end opt) (spec_next_start opt) a toks -> a <= length s ->
  Forall (fun r => fst r <= snd r /\ snd r <= length s) toks.
Proof.
  induction 1 as [a H1 H2|a f e toks H1 H2 H3 H4 H5 H6 H7 IH]; intros Ha.
  - constructor; [cbn; lia|constructor].
  - pose proof (spec_end_range opt f e H2). pose proof (spec_next_range opt f e H2). constructor; [cbn; lia|]. apply IH. lia.
Qed.

Definition plain_splitter (cd : list ascii) (opt : N) : unit -> list ascii -> outcome (unit * (list tok * nat)) :=
  fun _ s => r <- split (multiple_char_delimiter_predicate cd) s opt ;; Ok (tt, r).

Lemma plain_processed cd opt buf pieces : Forall (fun r => fst r <= snd r /\ snd r <= length buf) pieces ->
  exists rs, processed (plain_splitter cd opt) buf tt pieces rs tt /\
    Forall2 (fields_of cd opt) (filter nonempty (map (sub buf) pieces)) (map (map (sub buf)) rs) /\ within buf rs.
Proof.
  induction 1 as [|r pieces [Hr1 Hr2] _ (rs & IH1 & IH2 & IH3)].
  - exists []. split; [|split]; constructor.
  - destruct r as [b e]. cbn [fst snd] in *. destruct (Nat.eq_dec b e) as [->|Hne].
    + exists rs. split; [now apply pr_skip|]. cbn [map filter]. rewrite sub_empty. auto.
    + destruct (split_tokens (multiple_char_delimiter_predicate cd) (sub buf (b, e)) opt) as (toks & E & Ht).
      assert (L : length (sub buf (b, e)) = e - b) by (rewrite sub_length; lia).
      assert (Hn : sub buf (b, e) <> []) by (intros H0; rewrite H0 in L; cbn in L; lia).
      exists (map (shift b) toks :: rs). destruct Ht as [[Ht _]|[_ Ht]]; [congruence|]. split; [|split].
      * eapply pr_row; [exact Hne| |exact (cuts_nonempty _ _ _ _ _ _ Ht)|exact IH1]. unfold plain_splitter. rewrite E. reflexivity.
      * cbn [map filter]. destruct (sub buf (b, e)) as [|c l] eqn:Es; [congruence|]. cbn [nonempty]. rewrite <- Es in *. constructor; [|exact IH2].
        exists toks. split.
        -- eapply tokens_of_ext; [|right; split; [exact Hn|exact Ht]]. intros x. apply mcdp_mem.
        -- rewrite map_map. apply map_ext_in. intros t Hin. pose proof (cuts_in_range _ _ _ _ _ Ht ltac:(lia)) as Hrg.
           rewrite Forall_forall in Hrg. destruct (Hrg t Hin). rewrite L in *. apply sub_shift; lia.
      * constructor; [|exact IH3]. rewrite Forall_map. eapply Forall_impl; [|exact (cuts_in_range _ _ _ _ _ Ht ltac:(lia))].
        intros t Hrg. rewrite L in Hrg. unfold shift. cbn [fst snd]. lia.
Qed.

Lemma compress_pieces rd_ buf : exists pieces, split (multiple_char_delimiter_predicate rd_) buf 1 = Ok (pieces, length pieces) /\
  Forall (fun r => fst r <= snd r /\ snd r <= length buf) pieces /\ compressed_tokens rd_ buf (map (sub buf) pieces).
Proof.
  destruct (split_compress_fields (multiple_char_delimiter_predicate rd_) buf) as (toks & E & H1 & H2 & _).
  exists toks. split; [exact E|]. split; [exact H2|]. exists toks. split; [|reflexivity].
  eapply tokens_of_ext; [|exact H1]. intros x. apply mcdp_mem.
Qed.

Lemma map_map_length {A B} (f : A -> B) rs : length (concat (map (map f) rs)) = length (concat rs).
Proof. rewrite <- concat_map. apply map_length. Qed.

Lemma load_ok o buf : support_dquotes o = false ->
  exists cells, cells_of (row_delimiters o) (column_delimiters o) (column_split_option o) buf cells /\
    (small (length (concat cells)) ->
     exists g rs, load o buf = Ok g /\ represents g rs /\ counts_right g rs /\ within buf rs /\ map (map (sub buf)) rs = cells).
Proof.
  intros Hq. destruct (compress_pieces (row_delimiters o) buf) as (pieces & E & Hp & Hc).
  destruct (plain_processed (column_delimiters o) (column_split_option o) buf pieces Hp) as (rs & Hpr & Hf & Hw).
  exists (map (map (sub buf)) rs). split; [exists (map (sub buf) pieces); auto|]. rewrite map_map_length. intros Hs.
  unfold load. rewrite E, Hq. cbn [bind negb].
  pose proof (process_rows_ok _ _ _ _ _ _ Hpr [] Hs) as Ep. cbn [concat indexed app] in Ep. unfold plain_splitter in Ep. rewrite Ep. cbn [bind].
  assert (Hrep : represents (Grid (concat rs) (indexed 0 rs) 0 0) rs).
  { split; [reflexivity|]. split; [reflexivity|]. split; [eapply processed_nonempty; eauto|exact Hs]. }
  destruct (update_minmax_ok _ _ Hrep) as (g' & E' & T1 & T2 & T3). exists g', rs. split; [exact E'|].
  split; [|split; [exact T3|split; [exact Hw|reflexivity]]]. destruct Hrep as (R1 & R2 & R3 & R4).
  split; [now rewrite T1|]. split; [now rewrite T2|]. auto.
Qed.

(* ------------------------------------------------------------------ *)
(* cells *)
Lemma row_count_ok g rs : represents g rs -> row_count g = N.of_nat (length rs).
Proof. intros (_ & H & _). unfold row_count. rewrite H. now rewrite indexed_length. Qed.

Lemma token_ok g rs r c : represents g rs ->
  token g r c = Ok (match nth_error rs (N.to_nat r) with Some row => nth_error row (N.to_nat c) | None => None end).
Proof.
  intros Hr. unfold token. rewrite (row_count_ok _ _ Hr). destruct (N.ltb_spec r (N.of_nat (length rs))) as [Hlt|Hge].
  - destruct (nth_error rs (N.to_nat r)) as [row|] eqn:E; [|apply nth_error_None in E; lia].
    destruct (row_at _ _ _ _ Hr E) as (base & E1 & E2 & _ & _ & _ & E3 & _). rewrite at_N, E1. cbn [bind]. rewrite E2. cbn [fst].
    destruct (N.ltb_spec c (N.of_nat (length row))) as [Hc|Hc].
    + destruct (nth_error row (N.to_nat c)) as [t|] eqn:Et; [|apply nth_error_None in Et; lia].
      rewrite at_N. replace (N.to_nat (N.of_nat base + c)) with (base + N.to_nat c) by lia. rewrite (E3 _ _ Et). reflexivity.
    + rewrite (proj2 (nth_error_None row _)) by lia. reflexivity.
  - rewrite (proj2 (nth_error_None rs _)) by lia. reflexivity.
Qed.

Lemma row_ok g rs i r : represents g rs -> nth_error rs i = Some r ->
  exists rw, row g (N.of_nat i) = Ok rw /\ r_index rw = N.of_nat i /\ is_row g rw r.
Proof.
  intros Hr Hi. destruct (row_at _ _ _ _ Hr Hi) as (base & E1 & E2 & E3 & E4 & E5 & E6 & _).
  unfold row. rewrite at_nat, E1. cbn [bind]. rewrite E2. eexists. split; [reflexivity|]. split; [reflexivity|].
  split; [reflexivity|]. split; [exact E3|]. split; [eapply small_le; [|exact E5]; lia|].
  intros j t Hj. unfold row_token. cbn [r_begin fst]. rewrite <- Nat2N.inj_add, at_nat. now apply E6.
Qed.

Lemma row_loop {S} g rw r (f : S -> tok -> S) st : is_row g rw r ->
  for_range 0 (r_size rw) (fun i st => t <- row_token g rw i ;; Ok (f st t)) st = Ok (fold_left f r st).
Proof.
  intros (H1 & _ & _ & H2). unfold for_range. rewrite H1. change (N.to_nat 0) with 0. rewrite Nat.sub_0_r, Nat2N.id.
  apply for_up_fold. intros j x st' Hj. cbn [plus]. rewrite (H2 _ _ Hj). reflexivity.
Qed.
Lemma row_loop_ext {S} g rw r (body : N -> S -> outcome S) (f : S -> tok -> S) st : is_row g rw r ->
  (forall i st t, row_token g rw i = Ok t -> body i st = Ok (f st t)) ->
  for_range 0 (r_size rw) body st = Ok (fold_left f r st).
Proof.
  intros (H1 & _ & _ & H2) Hb. unfold for_range. rewrite H1. change (N.to_nat 0) with 0. rewrite Nat.sub_0_r, Nat2N.id.
  apply for_up_fold. intros j x st' Hj. cbn [plus]. apply Hb. now apply H2.
Qed.
Lemma fold_snoc {A} (l : list A) : forall o, fold_left (fun out t => out ++ [t]) l o = o ++ l.
Proof. induction l as [|x l IH]; intros o; cbn; [now rewrite app_nil_r|]. rewrite IH, <- app_assoc. reflexivity. Qed.
Lemma row_tokens_ok g rw r : is_row g rw r -> row_tokens g rw = Ok r.
Proof. intros H. unfold row_tokens. rewrite (row_loop _ _ _ (fun out t => out ++ [t]) _ H). now rewrite fold_snoc. Qed.
