From Verif Require Import Base Split_Model Split_Spec Num_Model Num_Spec Num_Proofs Num_Proofs3 Num_Props Parse_Model Parse_Spec Parse_Proofs KV_Model KV_Spec KV_Proofs.
From Verif Require Export KV_Spec2.
Local Open Scope nat_scope.

(* ------------------------------------------------------------------ *)
(* keys *)
Lemma ulong_type : unsigned_type t_ulong 64.
Proof. repeat split. lia. Qed.

Lemma dec_19 k : Forall is_digit k -> length k <= 19 -> (0 <= dec_value k < 2 ^ 64)%Z.
Proof.
  intros Hd Hl. pose proof (dec_bounds _ Hd) as [H1 H2]. split; [lia|].
  assert (10 ^ Z.of_nat (length k) <= 10 ^ 19)%Z by (apply Z.pow_le_mono_r; lia).
  assert (10 ^ 19 < 2 ^ 64)%Z by reflexivity. lia.
Qed.

Lemma uintkey_total lut k : exists o, uintkey_lookup lut k = Ok o.
Proof.
  unfold uintkey_lookup. destruct (C21_checked t_ulong 64 k ulong_type) as [(o & E) H]. rewrite E. cbn [bind].
  destruct o as [v|]; [|eauto]. destruct (H v) as [H1 _]. destruct (H1 E) as (Hd & Hl & ->).
  destruct (Z.leb_spec (Z.of_nat (length lut)) (dec_value k mod 2 ^ Z.of_nat 64)); [eauto|].
  pose proof (Z.mod_pos_bound (dec_value k) (2 ^ Z.of_nat 64) ltac:(reflexivity)).
  destruct (nth_error lut (Z.to_nat (dec_value k mod 2 ^ Z.of_nat 64))) as [c|] eqn:Ec; [|apply nth_error_None in Ec; lia].
  rewrite (rd_nth _ _ _ Ec). eauto.
Qed.

Lemma uintkey_iff lut k i : uintkey_lookup lut k = Ok (Some i) <->
  exists n, uint_key_text k n /\ nth_error lut n = Some (Some i).
Proof.
  unfold uintkey_lookup. destruct (C21_checked t_ulong 64 k ulong_type) as [(o & E) H]. rewrite E in *. cbn [bind]. split.
  - destruct o as [v|]; [|discriminate]. destruct (proj1 (H v) eq_refl) as (Hd & Hl & ->).
    pose proof (dec_19 k Hd Hl). change (2 ^ Z.of_nat 64)%Z with (2 ^ 64)%Z. rewrite Z.mod_small by lia.
    destruct (Z.leb_spec (Z.of_nat (length lut)) (dec_value k)); [discriminate|]. intros Hr.
    exists (Z.to_nat (dec_value k)). split; [split; [auto|split; [auto|lia]]|].
    destruct (nth_error lut (Z.to_nat (dec_value k))) as [c|] eqn:Ec.
    + rewrite (rd_nth _ _ _ Ec) in Hr. congruence.
    + rewrite rd_ub in Hr by (now apply nth_error_None). discriminate.
  - intros (n & (Hd & Hl & Hv) & Hn). pose proof (dec_19 k Hd Hl).
    assert (Eo : o = Some (dec_value k)).
    { assert (Ok o = Ok (Some (dec_value k))) as Ho; [|now injection Ho].
      apply H. split; [auto|]. split; [auto|]. change (2 ^ Z.of_nat 64)%Z with (2 ^ 64)%Z. now rewrite Z.mod_small by lia. }
    rewrite Eo. pose proof (nth_error_some_lt _ _ _ Hn).
    destruct (Z.leb_spec (Z.of_nat (length lut)) (dec_value k)); [lia|].
    rewrite Hv, Nat2Z.id. now apply rd_nth.
Qed.

Lemma uintkey_register_len lut k i : length (snd (uintkey_register lut k i)) = length lut.
Proof. unfold uintkey_register. destruct (k <? length lut); cbn [snd]; auto. apply upd_length. Qed.

Lemma uint_registered_ok count regs : length (uint_registered count regs) = count /\
  forall n, n < count -> nth_error (uint_registered count regs) n = Some (last_registered Nat.eqb regs n).
Proof.
  assert (G : forall regs lut, length lut = count ->
    let lut' := fold_left (fun lut r => snd (uintkey_register lut (fst r) (snd r))) regs lut in
    length lut' = count /\ forall n, n < count ->
      nth_error lut' n = match last_registered Nat.eqb regs n with Some j => Some (Some j) | None => nth_error lut n end).
  { induction regs0 as [|[k i] regs0 IH]; intros lut Hl; cbn [fold_left last_registered fst snd]; [auto|].
    destruct (IH (snd (uintkey_register lut k i))) as [H1 H2]; [now rewrite uintkey_register_len|].
    split; [exact H1|]. intros n Hn. rewrite H2 by lia. destruct (last_registered Nat.eqb regs0 n); auto.
    unfold uintkey_register. destruct (Nat.ltb_spec k (length lut)); cbn [snd].
    - destruct (Nat.eqb_spec k n) as [->|Hne]; [now apply nth_error_upd_same|now apply nth_error_upd_other].
    - destruct (Nat.eqb_spec k n); [lia|reflexivity]. }
  destruct (G regs (repeat None count) (repeat_length _ _)) as [H1 H2]. split; [exact H1|].
  intros n Hn. unfold uint_registered. rewrite H2 by auto. destruct (last_registered Nat.eqb regs n); auto.
  now rewrite nth_error_repeat.
Qed.

Lemma find_filter {A} (f g : A -> bool) l : (forall x, f x = true -> g x = true) -> find f (filter g l) = find f l.
Proof.
  intros H. induction l as [|a l IH]; auto. cbn [filter find]. destruct (g a) eqn:Eg; cbn [find].
  - now rewrite IH.
  - destruct (f a) eqn:Ef; auto. apply H in Ef. congruence.
Qed.

Lemma map_registered_ok {K} (eqb : K -> K -> bool) (Heq : forall a b, eqb a b = true <-> a = b) regs k :
  map_find eqb (map_registered eqb regs) k = last_registered eqb regs k.
Proof.
  assert (G : forall regs m, map_find eqb (fold_left (fun m r => map_register eqb m (fst r) (snd r)) regs m) k =
     match last_registered eqb regs k with Some j => Some j | None => map_find eqb m k end).
  { induction regs0 as [|[k' i] regs0 IH]; intros m; cbn [fold_left last_registered fst snd]; auto.
    rewrite IH. destruct (last_registered eqb regs0 k); auto.
    unfold map_find, map_register. cbn [find fst]. destruct (eqb k' k) eqn:E; auto.
    rewrite find_filter; auto. intros [k2 j] H. cbn [fst] in *. apply Heq in H. subst k2.
    destruct (eqb k k') eqn:E2; auto. apply Heq in E2. subst. rewrite (proj2 (Heq k' k') eq_refl) in E. discriminate. }
  unfold map_registered. rewrite G. destruct (last_registered eqb regs k); reflexivity.
Qed.
Lemma string_eqb_iff a b : string_eqb a b = true <-> a = b.
Proof. unfold string_eqb. destruct (list_eq_dec ascii_dec a b); split; congruence. Qed.

(* ------------------------------------------------------------------ *)
(* columns *)
Lemma ascending_lt cols : ascending cols -> forall i j a b, nth_error cols i = Some a -> nth_error cols j = Some b -> i < j -> a < b.
Proof.
  induction cols as [|c cols IH]; intros H i j a b Hi Hj Hij; [destruct i; discriminate|].
  destruct j as [|j]; [lia|]. cbn in Hj.
  assert (Hh : forall j b, nth_error cols j = Some b -> c < b).
  { clear Hj Hij. intros j0 b0 Hj. destruct cols as [|c1 cols]; [destruct j0; discriminate|]. destruct H as [H1 H2].
    destruct j0 as [|j0]; [injection Hj as <-; lia|]. assert (c1 < b0); [|lia].
    apply (IH H2 0 (S j0)); [reflexivity|exact Hj|lia]. }
  destruct i as [|i]; cbn in Hi.
  - injection Hi as <-. eauto.
  - apply (IH ltac:(destruct cols; [exact I|apply H]) i j); auto. lia.
Qed.
Lemma ascending_inj cols i j a : ascending cols -> nth_error cols i = Some a -> nth_error cols j = Some a -> i = j.
Proof.
  intros H Hi Hj. destruct (lt_eq_lt_dec i j) as [[Hl| ->]|Hl]; auto.
  - pose proof (ascending_lt _ H _ _ _ _ Hi Hj Hl). lia.
  - pose proof (ascending_lt _ H _ _ _ _ Hj Hi Hl). lia.
Qed.

Lemma csii_run_ok cols : ascending cols -> forall rs,
  exists st, csii_run cols rs = Ok st /\ cs_current st = length rs /\ cs_target st = nth_error cols (cs_col st) /\
    length (cs_tokens st) = length cols /\
    (forall j c, nth_error cols j = Some c -> (j < cs_col st <-> c < length rs)) /\
    (forall j c, nth_error cols j = Some c -> c < length rs -> nth_error (cs_tokens st) j = nth_error rs c).
Proof.
  intros Ha rs. induction rs as [|r rs IH] using rev_ind.
  - eexists. split; [reflexivity|]. cbn [cs_current cs_target cs_tokens cs_col length].
    rewrite repeat_length. repeat split; auto; intros; lia.
  - destruct IH as (st & E & H1 & H2 & H3 & H4 & H5). unfold csii_run in *. rewrite fold_left_app, E. cbn [fold_left bind].
    unfold csii_assign. rewrite H2, H1, app_length. cbn [length]. destruct (nth_error cols (cs_col st)) as [t|] eqn:Et.
    + pose proof (nth_error_some_lt _ _ _ Et).
      assert (Ht : length rs <= t) by (destruct (Nat.lt_ge_cases t (length rs)) as [Hc|]; [apply (H4 _ _ Et) in Hc; lia|auto]).
      destruct (Nat.eqb_spec (length rs) t) as [Heq|Hne].
      * rewrite wr_ok by lia. cbn [bind]. eexists. split; [reflexivity|]. cbn [cs_current cs_target cs_tokens cs_col].
        split; [lia|]. split; [reflexivity|]. split; [now rewrite upd_length|]. split.
        -- intros j c Hj. destruct (lt_eq_lt_dec j (cs_col st)) as [[Hl| ->]|Hl].
           ++ pose proof (proj1 (H4 _ _ Hj) Hl). lia.
           ++ assert (c = t) by congruence. lia.
           ++ pose proof (ascending_lt _ Ha _ _ _ _ Et Hj Hl). lia.
        -- intros j c Hj Hc. destruct (Nat.eq_dec c t) as [->|Hn].
           ++ rewrite (ascending_inj _ _ _ _ Ha Hj Et), nth_error_upd_same by lia.
              subst t. rewrite nth_error_app2, Nat.sub_diag by lia. reflexivity.
           ++ rewrite nth_error_app1 by lia. rewrite nth_error_upd_other by (intros <-; congruence). apply H5; auto. lia.
      * eexists. split; [reflexivity|]. cbn [cs_current cs_target cs_tokens cs_col].
        split; [lia|]. split; [now rewrite Et|]. split; [auto|].
        assert (G : forall j c, nth_error cols j = Some c -> j >= cs_col st -> c > length rs).
        { intros j c Hj Hjc. destruct (Nat.eq_dec j (cs_col st)) as [->|]; [assert (c = t) by congruence; lia|].
          pose proof (ascending_lt _ Ha _ _ _ _ Et Hj ltac:(lia)). lia. }
        split.
        -- intros j c Hj. split; intros Hl.
           ++ pose proof (proj1 (H4 _ _ Hj) Hl). lia.
           ++ destruct (Nat.lt_ge_cases j (cs_col st)) as [|Hg]; auto. pose proof (G _ _ Hj Hg). lia.
        -- intros j c Hj Hc. assert (c < length rs).
           { destruct (Nat.lt_ge_cases j (cs_col st)) as [Hg|Hg]; [now apply (H4 _ _ Hj)|]. pose proof (G _ _ Hj Hg). lia. }
           rewrite nth_error_app1 by lia. now apply H5.
    + apply nth_error_None in Et. eexists. split; [reflexivity|]. cbn [cs_current cs_target cs_tokens cs_col].
      assert (G : forall j c, nth_error cols j = Some c -> c < length rs).
      { intros j c Hj. pose proof (nth_error_some_lt _ _ _ Hj). apply (H4 _ _ Hj). lia. }
      split; [lia|]. split; [symmetry; now apply nth_error_None|]. split; [auto|]. split.
      * intros j c Hj. pose proof (G _ _ Hj). pose proof (nth_error_some_lt _ _ _ Hj). lia.
      * intros j c Hj _. pose proof (G _ _ Hj). rewrite nth_error_app1 by lia. now apply H5.
Qed.

Lemma ascending_last cols j c : ascending cols -> nth_error cols j = Some c -> c <= last cols 0.
Proof.
  intros Ha Hj. destruct cols as [|c0 cols] using rev_ind; [destruct j; discriminate|]. clear IHcols.
  rewrite last_last. pose proof (nth_error_some_lt _ _ _ Hj) as Hl. rewrite app_length in Hl. cbn in Hl.
  assert (Hc0 : nth_error (cols ++ [c0]) (length cols) = Some c0) by (rewrite nth_error_app2, Nat.sub_diag by lia; reflexivity).
  destruct (Nat.eq_dec j (length cols)) as [->|]; [assert (c = c0) by congruence; lia|].
  pose proof (ascending_lt _ Ha _ _ _ _ Hj Hc0 ltac:(lia)). lia.
Qed.

Lemma parse_columns_tokens_ok delims s cols texts : ascending cols -> cols <> [] -> compressed_tokens delims s texts ->
  if length texts <=? last cols 0 then parse_columns_tokens delims s cols = Ok None
  else exists toks, parse_columns_tokens delims s cols = Ok (Some toks) /\ columns_of texts cols (map (sub s) toks).
Proof.
  intros Ha Hne (toks & Ht & ->). unfold parse_columns_tokens.
  destruct (split_n_1 delims s (S (last cols 0))) as (toks' & Ht' & En).
  rewrite (tokens_unique _ _ _ _ _ _ Ht' Ht) in En. rewrite En. cbn [bind].
  destruct (csii_run_ok cols Ha (firstn (S (last cols 0)) toks)) as (st & E & H1 & H2 & H3 & H4 & H5). rewrite E. cbn [bind].
  rewrite map_length. destruct (Nat.leb_spec (length toks) (last cols 0)) as [Hl|Hl].
  - replace (Nat.min (S (last cols 0)) (length toks) <? S (last cols 0)) with true; [reflexivity|].
    symmetry. apply Nat.ltb_lt. lia.
  - replace (Nat.min (S (last cols 0)) (length toks) <? S (last cols 0)) with false by (symmetry; apply Nat.ltb_ge; lia).
    eexists. split; [reflexivity|]. split; [now rewrite map_length|]. intros i c Hc.
    pose proof (ascending_last _ _ _ Ha Hc) as Hle. rewrite firstn_length in H5.
    rewrite !nth_error_map. rewrite (H5 _ _ Hc) by lia. f_equal. rewrite nth_error_firstn.
    destruct (Nat.ltb_spec c (S (last cols 0))); [reflexivity|lia].
Qed.

Lemma columns_unique texts cols xs ys : columns_of texts cols xs -> columns_of texts cols ys -> xs = ys.
Proof.
  intros [Lx Hx] [Ly Hy]. apply nth_error_ext. intros i. destruct (nth_error cols i) as [c|] eqn:E.
  - now rewrite (Hx _ _ E), (Hy _ _ E).
  - apply nth_error_None in E. rewrite (proj2 (nth_error_None xs i)) by lia. symmetry. apply nth_error_None. lia.
Qed.

Lemma parse_columns_iff delims s cols texts xs ts b ts' : ascending cols -> cols <> [] -> length ts = length cols ->
  compressed_tokens delims s texts -> columns_of texts cols xs ->
  (parse_columns delims s cols ts = Ok (b, ts') <->
   (length texts <= last cols 0 /\ b = false /\ ts' = ts) \/ (last cols 0 < length texts /\ results ts xs b ts')).
Proof.
  intros Ha Hne Hl Ht Hx. pose proof (parse_columns_tokens_ok _ _ _ _ Ha Hne Ht) as H. unfold parse_columns.
  destruct (Nat.leb_spec (length texts) (last cols 0)) as [Hle|Hle].
  - rewrite H. cbn [bind]. split; [intros E; injection E as <- <-; auto|]. intros [(_ & -> & ->)|[? _]]; [reflexivity|lia].
  - destruct H as (toks & -> & Hc). cbn [bind]. pose proof (columns_unique _ _ _ _ Hx Hc) as ->.
    destruct Hc as [Hcl _]. rewrite map_length in Hcl.
    rewrite convert_all_iff by lia. cbn [skipn]. split; [auto|]. intros [[? _]|[_ H]]; [lia|exact H].
Qed.

Lemma convert_seq_iff {T} (conv : converter T) s toks : forall (pre sq : list T) b out, length toks <= length sq ->
  (convert_seq conv s toks (length pre) (pre ++ sq) = Ok (b, out) <->
   exists sq', out = pre ++ sq' /\ seq_results conv (map (sub s) toks) sq b sq').
Proof.
  induction toks as [|r toks IH]; intros pre sq b out Hl; cbn [convert_seq map].
  - split; [intros E; injection E as <- <-; exists sq; split; [auto|constructor]|].
    intros (sq' & -> & H). inversion H. reflexivity.
  - destruct sq as [|t sq]; [cbn in Hl; lia|]. cbn [length] in Hl. rewrite rd_here. cbn [bind].
    destruct (conv (sub s r) t) as [[c v]| |] eqn:Ec; cbn [bind].
    2,3: split; [discriminate|intros (sq' & _ & H); inversion H; congruence].
    rewrite wr_here. cbn [bind]. destruct c; cbn [negb].
    + specialize (IH (pre ++ [v]) sq b out ltac:(lia)). rewrite app_length, <- app_assoc in IH. cbn [length app] in IH.
      replace (length pre + 1) with (S (length pre)) in IH by lia. rewrite IH. split.
      * intros (sq' & -> & H). exists (v :: sq'). split; [now rewrite <- app_assoc|]. eapply sq_ok; eauto.
      * intros (sq' & -> & H). inversion H as [|? ? ? v' ? ? sq2 Ev Hs|? ? ? v' ? Ev]; subst; rewrite Ec in Ev; [|discriminate].
        injection Ev as <-. exists sq2. split; [now rewrite <- app_assoc|exact Hs].
    + split.
      * intros E. injection E as <- <-. exists (v :: sq). split; [reflexivity|]. now apply sq_fail.
      * intros (sq' & -> & H). inversion H as [|? ? ? v' ? ? sq2 Ev Hs|? ? ? v' ? Ev]; subst; rewrite Ec in Ev; [discriminate|].
        injection Ev as <-. reflexivity.
Qed.

Lemma parse_columns_seq_iff {T} (conv : converter T) delims s cols texts xs sq b sq' : ascending cols -> cols <> [] ->
  length cols <= length sq -> compressed_tokens delims s texts -> columns_of texts cols xs ->
  (parse_columns_seq conv delims s cols sq = Ok (b, sq') <->
   (length texts <= last cols 0 /\ b = false /\ sq' = sq) \/ (last cols 0 < length texts /\ seq_results conv xs sq b sq')).
Proof.
  intros Ha Hne Hl Ht Hx. pose proof (parse_columns_tokens_ok _ _ _ _ Ha Hne Ht) as H. unfold parse_columns_seq.
  destruct (Nat.leb_spec (length texts) (last cols 0)) as [Hle|Hle].
  - rewrite H. cbn [bind]. split; [intros E; injection E as <- <-; auto|]. intros [(_ & -> & ->)|[? _]]; [reflexivity|lia].
  - destruct H as (toks & -> & Hc). cbn [bind]. pose proof (columns_unique _ _ _ _ Hx Hc) as ->.
    destruct Hc as [Hcl _]. rewrite map_length in Hcl.
    pose proof (convert_seq_iff conv s toks [] sq b sq' ltac:(lia)) as R. cbn [length app] in R. rewrite R. split.
    + intros (q & -> & H). auto.
    + intros [[? _]|[_ H]]; [lia|eauto].
Qed.

(* ------------------------------------------------------------------ *)
(* column_selector *)
Definition sel_counted (n : nat) (cols : list nat) (vs : list (target * bool)) : nat :=
  length (filter (fun p => (fst p <? n) && negb (snd (snd p))) (combine cols vs)).

Definition csel_inv (cols : list nat) (ts : list target) (xs : list (list ascii)) (st : csel) : Prop :=
  sel_current st = length xs /\ sel_target st = nth_error cols (sel_col st) /\ length (sel_values st) = length cols /\
  (forall j c, nth_error cols j = Some c -> (j < sel_col st <-> c < length xs)) /\
  (forall j c t, nth_error cols j = Some c -> nth_error ts j = Some t ->
     match nth_error xs c with
     | Some x => exists b v, t_conv t x (t_val t) = Ok (b, v) /\ nth_error (sel_values st) j = Some (given t v, b)
     | None => nth_error (sel_values st) j = Some (t, false)
     end) /\
  sel_errors st = sel_counted (length xs) cols (sel_values st).

Lemma counted_split n cols vs j c v : nth_error cols j = Some c -> nth_error vs j = Some v ->
  sel_counted n cols vs = sel_counted n (firstn j cols) (firstn j vs) +
    (if (c <? n) && negb (snd v) then 1 else 0) + sel_counted n (skipn (S j) cols) (skipn (S j) vs).
Proof.
  unfold sel_counted. revert cols vs. induction j as [|j IH]; intros [|a cols] [|w vs] Hc Hv; try discriminate.
  - cbn in Hc, Hv. injection Hc as ->. injection Hv as ->. cbn [firstn skipn combine filter fst snd].
    destruct ((c <? n) && negb (snd v)); cbn [length]; lia.
  - cbn in Hc, Hv. change (skipn (S (S j)) (a :: cols)) with (skipn (S j) cols). change (skipn (S (S j)) (w :: vs)) with (skipn (S j) vs).
    cbn [firstn combine filter fst snd]. destruct ((a <? n) && negb (snd w)); cbn [length]; rewrite (IH _ _ Hc Hv); lia.
Qed.
Lemma counted_ext n m cols vs : (forall c, In c cols -> (c < n <-> c < m)) -> sel_counted n cols vs = sel_counted m cols vs.
Proof.
  unfold sel_counted. revert vs. induction cols as [|a cols IH]; intros vs H; [reflexivity|]. destruct vs as [|v vs]; [reflexivity|].
  cbn [combine filter fst snd]. replace (a <? n) with (a <? m).
  - destruct ((a <? m) && negb (snd v)); cbn [length]; rewrite (IH vs) by (intros; apply H; now right); reflexivity.
  - specialize (H a ltac:(now left)). destruct (Nat.ltb_spec a m), (Nat.ltb_spec a n); auto; lia.
Qed.
Lemma skipn_upd {A} (l : list A) i v : skipn (S i) (upd l i v) = skipn (S i) l.
Proof. revert i. induction l as [|a l IH]; intros [|i]; cbn [upd]; auto. exact (IH i). Qed.
Lemma firstn_upd {A} (l : list A) i v : firstn i (upd l i v) = firstn i l.
Proof. revert i. induction l as [|a l IH]; intros [|i]; cbn [upd firstn]; auto. now rewrite IH. Qed.

Lemma counted_zero cols vs : sel_counted 0 cols vs = 0.
Proof. unfold sel_counted. revert vs. induction cols as [|c cols IH]; intros [|v vs]; auto. cbn [combine filter fst snd]. cbn. apply IH. Qed.

Lemma csel_init_ok cols ts : length ts = length cols -> csel_inv cols ts [] (csel_init cols ts).
Proof.
  intros Hl. unfold csel_inv, csel_init. cbn [sel_current sel_target sel_col sel_errors sel_values length].
  split; [reflexivity|]. split; [reflexivity|]. split; [now rewrite map_length|]. split; [intros; lia|]. split.
  - intros j c t _ Ht. replace (nth_error (@nil (list ascii)) c) with (@None (list ascii)) by (destruct c; reflexivity).
    now rewrite nth_error_map, Ht.
  - now rewrite counted_zero.
Qed.

Lemma csel_step cols ts xs x st : ascending cols -> length ts = length cols -> csel_inv cols ts xs st ->
  (forall st', csel_process cols st x = Ok st' -> csel_inv cols ts (xs ++ [x]) st') /\
  ((forall j t, nth_error cols j = Some (length xs) -> nth_error ts j = Some t -> exists b v, t_conv t x (t_val t) = Ok (b, v)) -> exists st', csel_process cols st x = Ok st').
Proof.
  intros Ha Hl (H1 & H2 & H3 & H4 & H5 & H6). unfold csel_process. rewrite H2, H1.
  assert (Hlen : length (xs ++ [x]) = S (length xs)) by (rewrite app_length; cbn; lia).
  destruct (nth_error cols (sel_col st)) as [t0|] eqn:Et.
  - pose proof (nth_error_some_lt _ _ _ Et) as Hcl.
    assert (Ht : length xs <= t0) by (destruct (Nat.lt_ge_cases t0 (length xs)) as [Hc|]; [apply (H4 _ _ Et) in Hc; lia|auto]).
    destruct (Nat.ltb_spec t0 (length xs)); [lia|]. destruct (Nat.eqb_spec (length xs) t0) as [Heq|Hne].
    + destruct (nth_error ts (sel_col st)) as [t|] eqn:Ets; [|apply nth_error_None in Ets; lia].
      pose proof (H5 _ _ _ Et Ets) as Hv. rewrite (proj2 (nth_error_None xs t0)) in Hv by lia.
      rewrite (rd_nth _ _ _ Hv). cbn [bind]. unfold run_target. split.
      2:{ intros Hc. destruct (Hc (sel_col st) t ltac:(congruence) Ets) as (b & v & ->). cbn [bind]. rewrite wr_ok by lia. cbn [bind]. eauto. }
      destruct (t_conv t x (t_val t)) as [[b v]| |] eqn:Ec; cbn [bind]; try discriminate.
      rewrite wr_ok by lia. cbn [bind]. intros st' E. injection E as <-.
      unfold csel_inv. cbn [sel_current sel_target sel_col sel_errors sel_values]. rewrite Hlen.
      split; [lia|]. split; [reflexivity|]. split; [now rewrite upd_length|]. split; [|split].
      * intros j c Hj. destruct (lt_eq_lt_dec j (sel_col st)) as [[Hlt| ->]|Hlt].
        -- pose proof (proj1 (H4 _ _ Hj) Hlt). lia.
        -- assert (c = t0) by congruence. lia.
        -- pose proof (ascending_lt _ Ha _ _ _ _ Et Hj Hlt). lia.
      * intros j c t1 Hj Ht1. destruct (Nat.eq_dec j (sel_col st)) as [->|Hn].
        -- assert (c = t0) by congruence. assert (t1 = t) by congruence. subst c t1 t0.
           rewrite nth_error_app2, Nat.sub_diag by lia. cbn [nth_error]. exists b, v. split; [exact Ec|].
           rewrite nth_error_upd_same by lia. reflexivity.
        -- rewrite nth_error_upd_other by auto. specialize (H5 _ _ _ Hj Ht1).
           assert (c <> length xs) by (intros ->; apply Hn; subst t0; eapply ascending_inj; eauto).
           destruct (Nat.lt_ge_cases c (length xs)).
           ++ now rewrite nth_error_app1 by lia.
           ++ rewrite (proj2 (nth_error_None xs c)) in H5 by lia. rewrite (proj2 (nth_error_None (xs ++ [x]) c)) by lia. exact H5.
      * rewrite H6. rewrite (counted_split (length xs) _ _ _ _ _ Et Hv).
        rewrite (counted_split (S (length xs)) cols (upd _ _ _) _ _ (Target (t_type t) (t_conv t) v, b) Et) by (apply nth_error_upd_same; lia).
        rewrite firstn_upd, skipn_upd. cbn [snd].
        rewrite (counted_ext (S (length xs)) (length xs) (firstn (sel_col st) cols)).
        2:{ intros c Hc. apply In_nth_error in Hc. destruct Hc as (j & Hj). pose proof (nth_error_some_lt _ _ _ Hj) as Hjl.
            rewrite firstn_length in Hjl. rewrite nth_error_firstn in Hj. destruct (Nat.ltb_spec j (sel_col st)); [|lia].
            pose proof (ascending_lt _ Ha _ _ _ _ Hj Et ltac:(lia)). lia. }
        rewrite (counted_ext (S (length xs)) (length xs) (skipn (S (sel_col st)) cols)).
        2:{ intros c Hc. apply In_nth_error in Hc. destruct Hc as (j & Hj). rewrite nth_error_skipn in Hj.
            pose proof (ascending_lt _ Ha _ _ _ _ Et Hj ltac:(lia)). lia. }
        destruct (Nat.ltb_spec t0 (length xs)); [lia|]. destruct (Nat.ltb_spec t0 (S (length xs))); [|lia].
        destruct b; cbn [andb negb]; lia.
    + split; [|eauto]. intros st' E. injection E as <-.
      unfold csel_inv. cbn [sel_current sel_target sel_col sel_errors sel_values]. rewrite Hlen.
      assert (G : forall j c, nth_error cols j = Some c -> c <> length xs).
      { intros j c Hj ->. destruct (lt_eq_lt_dec j (sel_col st)) as [[Hlt| ->]|Hlt].
        - apply (H4 _ _ Hj) in Hlt. lia.
        - congruence.
        - pose proof (ascending_lt _ Ha _ _ _ _ Et Hj Hlt). lia. }
      split; [lia|]. split; [now rewrite Et|]. split; [auto|]. split; [|split].
      * intros j c Hj. pose proof (G _ _ Hj). rewrite (H4 _ _ Hj). lia.
      * intros j c t1 Hj Ht1. specialize (H5 _ _ _ Hj Ht1). pose proof (G _ _ Hj).
        destruct (Nat.lt_ge_cases c (length xs)).
        -- now rewrite nth_error_app1 by lia.
        -- rewrite (proj2 (nth_error_None xs c)) in H5 by lia. rewrite (proj2 (nth_error_None (xs ++ [x]) c)) by lia. exact H5.
      * rewrite H6. apply counted_ext. intros c Hc. apply In_nth_error in Hc. destruct Hc as (j & Hj). pose proof (G _ _ Hj). lia.
  - split; [|eauto]. apply nth_error_None in Et. intros st' E. injection E as <-.
    unfold csel_inv. cbn [sel_current sel_target sel_col sel_errors sel_values]. rewrite Hlen.
    assert (G : forall j c, nth_error cols j = Some c -> c < length xs).
    { intros j c Hj. pose proof (nth_error_some_lt _ _ _ Hj). apply (H4 _ _ Hj). lia. }
    split; [lia|]. split; [symmetry; now apply nth_error_None|]. split; [auto|]. split; [|split].
    + intros j c Hj. pose proof (G _ _ Hj). rewrite (H4 _ _ Hj). lia.
    + intros j c t1 Hj Ht1. specialize (H5 _ _ _ Hj Ht1). pose proof (G _ _ Hj). now rewrite nth_error_app1 by lia.
    + rewrite H6. apply counted_ext. intros c Hc. apply In_nth_error in Hc. destruct Hc as (j & Hj). pose proof (G _ _ Hj). lia.
Qed.

Lemma csel_fold_bad cols xs o : (forall st : csel, o <> Ok st) ->
  forall st, fold_left (fun o x => st <- o ;; csel_process cols st x) xs o <> Ok st.
Proof.
  revert o. induction xs as [|x xs IH]; intros o H; cbn [fold_left]; auto.
  apply IH. intros st E. destruct o; cbn [bind] in E; try discriminate. eapply H; reflexivity.
Qed.

Lemma csel_run_ok cols ts : ascending cols -> length ts = length cols -> forall xs,
  (forall st, csel_run cols xs (csel_init cols ts) = Ok st -> csel_inv cols ts xs st) /\
  ((forall j c t y, nth_error cols j = Some c -> nth_error ts j = Some t -> nth_error xs c = Some y -> exists b v, t_conv t y (t_val t) = Ok (b, v)) ->
   exists st, csel_run cols xs (csel_init cols ts) = Ok st).
Proof.
  intros Ha Hl xs. induction xs as [|x xs [IH1 IH2]] using rev_ind.
  - unfold csel_run. cbn [fold_left]. split; [|eauto]. intros st E. injection E as <-. now apply csel_init_ok.
  - unfold csel_run in *. rewrite fold_left_app. cbn [fold_left]. split.
    + intros st E. destruct (fold_left _ xs _) as [st0| |] eqn:E0; cbn [bind] in E; try discriminate.
      apply (csel_step cols ts xs x st0 Ha Hl (IH1 _ eq_refl)). exact E.
    + intros Hc. destruct IH2 as (st0 & E0).
      { intros j c t y Hj Ht Hy. apply (Hc j c t y Hj Ht). rewrite nth_error_app1; [exact Hy|eapply nth_error_some_lt; exact Hy]. }
      rewrite E0. cbn [bind]. apply (csel_step cols ts xs x st0 Ha Hl (IH1 _ E0)). intros j t Hj Ht. apply (Hc j _ t x Hj Ht).
      rewrite nth_error_app2, Nat.sub_diag by lia. reflexivity.
Qed.

(* ------------------------------------------------------------------ *)
(* util::value *)
(* the object at address a when it is bound so *)
Definition obj_for (a : nat) (b : option (option nat)) (o : option value_obj) : Prop :=
  match b with
  | None => o = None
  | Some None => exists v, o = Some v /\ v_ptr v = None
  | Some (Some i) => o = Some (VObj (Some i) (Some a))
  end.
Definition represents (w : world) (bs : bindings) : Prop :=
  length w = length bs /\ forall a b, nth_error bs a = Some b -> exists o, nth_error w a = Some o /\ obj_for a b o.

Lemma represents_upd w bs a b o : represents w bs -> a < length bs -> obj_for a b o -> represents (upd w a o) (upd bs a b).
Proof.
  intros [Hl H] Ha Ho. split; [now rewrite !upd_length|]. intros c b' Hb. destruct (Nat.eq_dec a c) as [->|Hn].
  - rewrite nth_error_upd_same in Hb by auto. injection Hb as <-. exists o. split; [apply nth_error_upd_same; lia|exact Ho].
  - rewrite nth_error_upd_other in Hb by auto. rewrite nth_error_upd_other by auto. auto.
Qed.

Lemma upd_same_list {A} (l : list A) i x : nth_error l i = Some x -> upd l i x = l.
Proof.
  revert i. induction l as [|a l IH]; intros [|i] H; try discriminate; cbn in *; [now injection H as ->|now rewrite IH].
Qed.

Lemma run_vop_ok w bs o bs' : represents w bs -> vstep bs o bs' -> exists w', run_vop w o = Ok w' /\ represents w' bs'.
Proof.
  intros R H. pose proof R as [Hl Hr]. inversion H; subst; cbn [run_vop].
  - unfold v_new. rewrite wr_ok by lia. eexists. split; [reflexivity|]. apply represents_upd; auto. cbn. eauto.
  - unfold v_assign. rewrite wr_ok by lia. eexists. split; [reflexivity|]. apply represents_upd; auto. reflexivity.
  - unfold v_set. destruct (Nat.eqb_spec a b) as [->|Hn].
    + rewrite upd_same_list by assumption. eauto.
    + destruct (Hr _ _ H0) as (oa & Ea & Pa). cbn in Pa. subst oa. destruct (Hr _ _ H1) as (ob & Eb & Pb).
      unfold v_get. rewrite (rd_nth _ _ _ Ea). cbn [bind]. rewrite (rd_nth _ _ _ Eb). cbn [bind].
      assert (Hb : exists u, ob = Some u) by (destruct old; cbn in Pb; [eauto|destruct Pb as (u & -> & _); eauto]).
      destruct Hb as (u & ->). cbn [bind v_ptr v_buf]. rewrite wr_ok by (eapply nth_error_some_lt; eauto).
      eexists. split; [reflexivity|]. apply represents_upd; auto; [eapply nth_error_some_lt; eauto|reflexivity].
  - unfold v_set. destruct (Nat.eqb_spec a b) as [->|Hn]; [eauto|].
    destruct (Hr _ _ H0) as (oa & Ea & (v & -> & Hv)). destruct (Hr _ _ H1) as (ob & Eb & Pb).
    unfold v_get. rewrite (rd_nth _ _ _ Ea). cbn [bind]. rewrite (rd_nth _ _ _ Eb). cbn [bind].
    assert (Hb : exists u, ob = Some u) by (destruct old; cbn in Pb; [eauto|destruct Pb as (u & -> & _); eauto]).
    destruct Hb as (u & ->). cbn [bind]. rewrite Hv. eauto.
  - unfold v_destroy. rewrite wr_ok by lia. eexists. split; [reflexivity|]. apply represents_upd; auto. reflexivity.
Qed.

Lemma run_vops_ok os : forall w bs bs', represents w bs -> vsteps bs os bs' -> exists w', run_vops w os = Ok w' /\ represents w' bs'.
Proof.
  induction os as [|o os IH]; intros w bs bs' R H; inversion H; subst; cbn [run_vops]; [eauto|].
  destruct (run_vop_ok _ _ _ _ R H3) as (wn & -> & R1). cbn [bind]. eauto.
Qed.

Lemma v_call_ok w bs a vars x : represents w bs ->
  (nth_error bs a = Some (Some None) -> v_call w a vars x = Ok (false, vars)) /\
  (forall i t b v, nth_error bs a = Some (Some (Some i)) -> nth_error vars i = Some t -> t_conv t x (t_val t) = Ok (b, v) ->
     v_call w a vars x = Ok (b, upd vars i (given t v))).
Proof.
  intros [Hl Hr]. split.
  - intros Ha. destruct (Hr _ _ Ha) as (oa & Ea & (v & -> & Hv)). unfold v_call, v_get. rewrite (rd_nth _ _ _ Ea). cbn [bind]. now rewrite Hv.
  - intros i t b v Ha Hi Hc. destruct (Hr _ _ Ha) as (oa & Ea & ->). unfold v_call, v_get. rewrite (rd_nth _ _ _ Ea). cbn [bind v_ptr].
    rewrite (rd_nth _ _ _ Ea). cbn [bind v_buf]. rewrite (rd_nth _ _ _ Hi). cbn [bind]. unfold run_target. rewrite Hc. cbn [bind].
    rewrite wr_ok by (eapply nth_error_some_lt; eauto). reflexivity.
Qed.
Lemma represents_none n : represents (repeat None n) (repeat None n).
Proof.
  split; [now rewrite !repeat_length|]. intros a b H. pose proof (nth_error_some_lt _ _ _ H) as Hl. rewrite repeat_length in Hl.
  rewrite nth_error_repeat in H by auto. injection H as <-. exists None. split; [now apply nth_error_repeat|reflexivity].
Qed.

(* a selector after reset() runs like a new one; the flags of the columns it does not reach
   are the old ones *)
Section Reset.
Variable vs : list (target * bool).
Definition relift (b : csel) : csel :=
  CSel (sel_current b) (sel_target b) (sel_col b) (sel_errors b) (firstn (sel_col b) (sel_values b) ++ skipn (sel_col b) vs).
Definition unread (b : csel) : Prop :=
  length (sel_values b) = length vs /\ map fst (skipn (sel_col b) (sel_values b)) = map fst (skipn (sel_col b) vs).

Lemma relift_nth b : unread b -> match rd (sel_values b) (sel_col b) with
  | Ok (t, f) => exists f', rd (firstn (sel_col b) (sel_values b) ++ skipn (sel_col b) vs) (sel_col b) = Ok (t, f')
  | UB => rd (firstn (sel_col b) (sel_values b) ++ skipn (sel_col b) vs) (sel_col b) = UB
  | OutOfFuel => False end.
Proof.
  intros [Hl Hm]. unfold rd. destruct (nth_error (sel_values b) (sel_col b)) as [[t f]|] eqn:E.
  - assert (L : sel_col b < length (sel_values b)) by (eapply nth_error_some_lt; eauto).
    rewrite nth_error_app2 by (rewrite firstn_length; lia). rewrite firstn_length, Nat.min_l, Nat.sub_diag by lia.
    rewrite (skipn_nth_cons _ _ _ E) in Hm. destruct (skipn (sel_col b) vs) as [|[t' f'] r]; [discriminate|].
    cbn [map fst] in Hm. injection Hm as -> _. cbn [nth_error]. eauto.
  - apply nth_error_None in E. rewrite (proj2 (nth_error_None _ _)); [reflexivity|].
    rewrite app_length, firstn_length, skipn_length. lia.
Qed.

Lemma relift_step cols b x : unread b ->
  csel_process cols (relift b) x = (b' <- csel_process cols b x ;; Ok (relift b')) /\
  forall b', csel_process cols b x = Ok b' -> unread b'.
Proof.
  intros U. destruct b as [cu tg co er va]. unfold csel_process, relift. cbv zeta. cbn [sel_current sel_target sel_col sel_errors sel_values].
  pose proof (relift_nth _ U) as N. unfold unread in *. cbn [sel_col sel_values] in *.
  destruct tg as [t|].
  2:{ split; [reflexivity|]. intros b' E. injection E as <-. exact U. }
  destruct (t <? cu).
  { split; [reflexivity|]. intros b' E. injection E as <-. exact U. }
  destruct (cu =? t).
  2:{ split; [reflexivity|]. intros b' E. injection E as <-. exact U. }
  destruct (rd va co) as [[v f]| |] eqn:Er; [|rewrite N; split; [reflexivity|discriminate]|contradiction].
  destruct N as [f' N]. rewrite N. cbn [bind].
  destruct (run_target v x) as [[r w]| |]; cbn [bind]; [|split; [reflexivity|discriminate]|split; [reflexivity|discriminate]].
  destruct U as [Hl Hm]. unfold rd in Er. destruct (nth_error va co) as [p|] eqn:E; [|discriminate]. injection Er as ->.
  assert (L : co < length va) by (eapply nth_error_some_lt; eauto).
  assert (Ef : length (firstn co va) = co) by (rewrite firstn_length; lia).
  rewrite (skipn_nth_cons _ _ _ E) in Hm. destruct (skipn co vs) as [|q rest] eqn:Es; [discriminate|].
  cbn [map] in Hm. injection Hm as Hq Hr.
  assert (Er2 : skipn (S co) vs = rest).
  { change (S co) with (1 + co). rewrite <- skipn_skipn, Es. reflexivity. }
  rewrite (wr_ok va) by lia. rewrite wr_ok by (rewrite app_length, Ef; cbn [length]; lia). cbn [bind].
  split.
  - cbn [sel_current sel_target sel_col sel_errors sel_values]. do 2 f_equal.
    rewrite Er2. rewrite (firstn_S_nth _ _ (w, r)) by (rewrite nth_error_upd_same by lia; reflexivity).
    rewrite <- app_assoc. cbn [app].
    pose proof (upd_here (firstn co va) q rest (w, r)) as W. rewrite Ef in W. rewrite W. f_equal. now rewrite firstn_upd.
  - intros b' Eb. injection Eb as <-. cbn [sel_col sel_values]. split; [now rewrite upd_length|].
    now rewrite Er2, <- Hr, skipn_upd.
Qed.
Lemma csel_run_cons cols x xs st : csel_run cols (x :: xs) st = (st' <- csel_process cols st x ;; csel_run cols xs st').
Proof.
  unfold csel_run. cbn [fold_left bind]. destruct (csel_process cols st x) as [st'| |]; cbn [bind]; [reflexivity| |].
  - induction xs as [|y xs IH]; [reflexivity|exact IH].
  - induction xs as [|y xs IH]; [reflexivity|exact IH].
Qed.
Lemma relift_run cols xs b : unread b -> csel_run cols xs (relift b) = (b' <- csel_run cols xs b ;; Ok (relift b')).
Proof.
  revert b. induction xs as [|x xs IH]; intros b U; [reflexivity|]. rewrite !csel_run_cons.
  destruct (relift_step cols b x U) as [E N]. rewrite E. destruct (csel_process cols b x) as [b'| |]; cbn [bind]; auto.
Qed.
End Reset.
Lemma csel_reset_run cols xs st : csel_run cols xs (csel_reset cols st) =
  (b <- csel_run cols xs (csel_init cols (map fst (sel_values st))) ;; Ok (relift (sel_values st) b)).
Proof.
  rewrite <- relift_run.
  - f_equal. 
  - unfold unread, csel_init. cbn [sel_col sel_values]. rewrite !map_length. split; [reflexivity|].
    rewrite !skipn_O, map_map, map_map. reflexivity.
Qed.
Lemma counted_agree n cols (va vb : list (target * bool)) : length va = length vb ->
  (forall j c, nth_error cols j = Some c -> c < n -> nth_error va j = nth_error vb j) -> sel_counted n cols va = sel_counted n cols vb.
Proof.
  unfold sel_counted. revert va vb. induction cols as [|c cols IH]; intros [|a va] [|b vb] Hl H; try discriminate; [reflexivity..|].
  cbn [combine filter fst snd]. injection Hl as Hl.
  assert (E := IH va vb Hl (fun j c' => H (S j) c')). destruct (Nat.ltb_spec c n).
  - specialize (H 0 c eq_refl ltac:(lia)). cbn in H. injection H as ->. destruct (true && negb (snd b)); cbn [length]; now rewrite E.
  - cbn [andb]. exact E.
Qed.
Lemma csel_reset_ok cols xs st : ascending cols -> length (sel_values st) = length cols ->
  (forall st', csel_run cols xs (csel_reset cols st) = Ok st' ->
     (forall j c t f, nth_error cols j = Some c -> nth_error (sel_values st) j = Some (t, f) ->
        match nth_error xs c with
        | Some x => exists b v, t_conv t x (t_val t) = Ok (b, v) /\ nth_error (sel_values st') j = Some (given t v, b)
        | None => nth_error (sel_values st') j = Some (t, f)
        end) /\
     length (sel_values st') = length cols /\ sel_errors st' = sel_counted (length xs) cols (sel_values st')) /\
  ((forall j c t f y, nth_error cols j = Some c -> nth_error (sel_values st) j = Some (t, f) -> nth_error xs c = Some y -> exists b v, t_conv t y (t_val t) = Ok (b, v)) ->
     exists st', csel_run cols xs (csel_reset cols st) = Ok st').
Proof.
  intros Ha Hl. rewrite csel_reset_run.
  assert (Hl' : length (map fst (sel_values st)) = length cols) by now rewrite map_length.
  destruct (csel_run_ok cols _ Ha Hl' xs) as [H1 H2]. split.
  - intros st' E. destruct (csel_run _ _ _) as [b| |] eqn:Eb; cbn [bind] in E; try discriminate. injection E as <-.
    destruct (H1 _ eq_refl) as (I1 & I2 & I3 & I4 & I5 & I6). clear H1 H2. unfold relift. cbn [sel_values sel_errors].
    assert (A1 : forall j c, nth_error cols j = Some c -> c < length xs ->
              nth_error (firstn (sel_col b) (sel_values b) ++ skipn (sel_col b) (sel_values st)) j = nth_error (sel_values b) j).
    { intros j c Ej Hc. apply (I4 j c Ej) in Hc. assert (j < length cols) by (eapply nth_error_some_lt; eauto).
      rewrite nth_error_app1 by (rewrite firstn_length; lia). rewrite nth_error_firstn. destruct (Nat.ltb_spec j (sel_col b)); [reflexivity|lia]. }
    assert (Hlen : length (firstn (sel_col b) (sel_values b) ++ skipn (sel_col b) (sel_values st)) = length cols)
      by (rewrite app_length, firstn_length, skipn_length; lia).
    split; [|split; [exact Hlen|]].
    + intros j c t f Ej Et. specialize (I5 j c t Ej). rewrite nth_error_map, Et in I5. specialize (I5 eq_refl).
      destruct (nth_error xs c) as [x|] eqn:Ex.
      * rewrite (A1 j c Ej) by (eapply nth_error_some_lt; eauto). exact I5.
      * apply nth_error_None in Ex. assert (~ j < sel_col b) by (rewrite (I4 j c Ej); lia).
        assert (j < length cols) by (eapply nth_error_some_lt; eauto).
        rewrite nth_error_app2 by (rewrite firstn_length; lia). rewrite firstn_length, Nat.min_l by lia.
        rewrite nth_error_skipn. replace (sel_col b + (j - sel_col b)) with j by lia. exact Et.
    + rewrite I6. apply counted_agree; [congruence|]. intros j c Ej Hc. symmetry. exact (A1 j c Ej Hc).
  - intros Hc. destruct H2 as [b Eb].
    { intros j c t y Hj Ht Hy. rewrite nth_error_map in Ht. destruct (nth_error (sel_values st) j) as [[t' f]|] eqn:Ev; [|discriminate]. injection Ht as <-. eauto. }
    rewrite Eb. cbn [bind]. eauto.
Qed.
