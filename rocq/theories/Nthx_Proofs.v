From Verif Require Import Base Num_Model Num_Spec Num_Proofs2 Text_Model Parse_Spec Comb_Model Comb_Spec Comb_Proofs Comb_Proofs3 Comb_Proofs4 Comb_Proofs5 Comb_Proofs6 Cmbx_Model Cmbx_Proofs Jump_Proofs Nthx_Model Nthx_Spec.
From Verif Require Gen_Model Gen_Spec Gen_Props.
From Coq Require Import Permutation Sorted.
Local Open Scope nat_scope.

Definition code (i : nat) : Z := Z.of_nat (65 + i).

Lemma char_list_ok n : n <= 190 -> char_list n = Ok (map code (seq 0 n)).
Proof.
  intros H. unfold char_list.
  assert (C : Gen_Spec.countable byte_type 65 n) by (split; [cbn; lia|right; cbn [Gen_Model.hi byte_type]; lia]).
  rewrite (Gen_Props.C96_sequence byte_type [] n 65%Z C). cbn [app]. f_equal.
  apply map_ext_in. intros i Hi. apply in_seq in Hi. rewrite (Gen_Props.C96_values byte_type 65 n i C); cbn [Gen_Model.hi byte_type]; unfold code; lia.
Qed.

Lemma join_bytes_ok : forall xs output, join_bytes output [] (map code xs) = output ++ map letter xs.
Proof.
  induction xs as [|x xs IH]; intros output; [cbn; now rewrite app_nil_r|].
  assert (B : byte_text (code x) = [letter x]).
  { unfold byte_text, code, letter, ascii_of_nat. now rewrite <- nat_N_Z, N2Z.id. }
  destruct xs as [|y xs]; [cbn [map join_bytes]; now rewrite B|].
  change (join_bytes output [] (map code (x :: y :: xs))) with (join_bytes (output ++ byte_text (code x) ++ []) [] (map code (y :: xs))).
  rewrite IH, B. cbn [app map]. now rewrite <- !app_assoc.
Qed.

Lemma join_numbers_run xs : Forall (fun v => (Z.of_nat v < 4294967296)%Z) xs ->
  exists t, join_numbers [] [] (map Z.of_nat xs) = Ok t /\ run_together xs t.
Proof.
  intros H. destruct (join_numbers_ok [] (map Z.of_nat xs) []) as (ts & F & E).
  - apply Forall_forall. intros v Hv. apply in_map_iff in Hv. destruct Hv as (x & <- & Hx). rewrite Forall_forall in H. specialize (H x Hx).
    change (10 ^ 20)%Z with 100000000000000000000%Z. lia.
  - exists (separated [] ts). split; [exact E|]. exists ts. split; [exact F|]. clear. induction ts as [|t [|u ts] IH]; [reflexivity|cbn; now rewrite app_nil_r|].
    change (separated [] (t :: u :: ts)) with (t ++ [] ++ separated [] (u :: ts)). rewrite IH. reflexivity.
Qed.

Lemma number4_ok i : (Z.of_nat i < 2 ^ 64)%Z -> exists t, number4 (Z.of_nat i) = Ok t /\ line_number i t.
Proof.
  intros H. unfold number4.
  assert (B64 : (Z.of_nat i < 10 ^ 20)%Z) by (change (10 ^ 20)%Z with 100000000000000000000%Z; change (2 ^ 64)%Z with 18446744073709551616%Z in H; lia).
  pose proof (format_unsigned_ok (Z.of_nat i) ltac:(lia)) as F.
  destruct (format_unsigned (Z.of_nat i)) as [t| |]; cbn [holds] in F; try contradiction. destruct F as (F & _). cbn [bind].
  exists (right_align 4 "0" t). split; [reflexivity|]. exists t. split; [exact F|]. unfold right_align.
  destruct (4 <=? length t) eqn:E4; [|reflexivity]. apply Nat.leb_le in E4. now replace (4 - length t) with 0 by lia.
Qed.

Section Table.
Variables n k fuel : nat.
Hypothesis Hk : 2 <= k.
Hypothesis Hkn : k <= n.
Hypothesis Hn : n <= 190.
Hypothesis Hf : n + 1 < fuel.
Hypothesis Hb : (N.of_nat (length (choices k (seq 0 n))) < 2 ^ 64)%N.

Let cs := choices k (seq 0 n).

Lemma n32 : (N.of_nat n < 2 ^ 32)%N.
Proof. clear -Hn. change (2 ^ 32)%N with 4294967296%N. lia. Qed.

Lemma in_range i c : nth_error cs i = Some c -> forall p, In p c -> p < n.
Proof.
  intros E p Hp. apply nth_error_In in E. apply choices_in in E. destruct E as [_ E]. pose proof (subseq_in _ _ _ E Hp) as H. apply in_seq in H. lia.
Qed.
Lemma full_range i c : nth_error cs i = Some c -> forall p, In p (full n c) -> p < n.
Proof.
  intros E p Hp. apply in_app_iff in Hp. destruct Hp as [Hp|Hp]; [eauto using in_range|].
  unfold others in Hp. apply filter_In in Hp. destruct Hp as [Hp _]. apply in_seq in Hp. lia.
Qed.

Lemma count_ok st : statics_ok st ->
  exists st', n_choose_k fuel st (N.of_nat n) (N.of_nat k) = Ok (st', N.of_nat (length cs)) /\ statics_ok st'.
Proof.
  intros Hs. unfold cs. rewrite choices_length, seq_length in Hb |- *. apply nck_ok; auto using n32; lia.
Qed.

Lemma indices_ok st i c : statics_ok st -> nth_error cs i = Some c ->
  exists st', indices_of fuel st i n k = Ok (st', map Z.of_nat (full n c)) /\ statics_ok st'.
Proof.
  intros Hs E. destruct (comb_indices_ok n k fuel Hk Hkn n32) with (st := st) (n := i) (c := c) as (st' & Ec & Hs'); auto.
  - rewrite choices_length, seq_length in Hb. exact Hb.
  - exists st'. split; [|exact Hs']. unfold indices_of, nth_combination_back. rewrite Ec. cbn [bind].
    rewrite (missing_ok _ _ (in_range i c E)). cbn [bind]. do 2 f_equal. rewrite <- map_app, map_map. apply map_ext_in. intros p Hp.
    pose proof (full_range i c E p Hp) as L. rewrite nat_N_Z. apply Z.mod_small. change (2 ^ 32)%Z with 4294967296%Z. lia.
Qed.

Lemma sel_full i c : nth_error cs i = Some c ->
  nth_error (sel k (map code (seq 0 n))) i = Some (map code c, map code (others n c)).
Proof.
  unfold cs. rewrite <- sel_choices, nth_error_map. intros E. rewrite sel_map, nth_error_map.
  destruct (nth_error (sel k (seq 0 n)) i) as [[c' r]|] eqn:Es; [|discriminate]. cbn in E |- *. injection E as ->.
  rewrite (sel_rest (seq 0 n) k c r); [reflexivity|apply seq_NoDup|eapply nth_error_In; eauto].
Qed.

Lemma len_codes : length (map code (seq 0 n)) = n.
Proof. now rewrite map_length, seq_length. Qed.

Lemma letters_ok st i c : statics_ok st -> nth_error cs i = Some c ->
  exists st', letters_of fuel st i k (map code (seq 0 n)) = Ok (st', map code (full n c)) /\ statics_ok st'.
Proof.
  intros Hs E. unfold letters_of, full. rewrite map_app.
  apply range_sel; rewrite ?len_codes; auto using n32; [|now apply sel_full].
  rewrite choices_length, len_codes. now rewrite choices_length, seq_length in Hb.
Qed.

Lemma codes_sorted : Comb_Proofs3.sorted Z.ltb (map code (seq 0 n)).
Proof.
  unfold sorted. clear. generalize 0. induction n as [|m IH]; intros a; cbn [seq map]; [constructor|]. constructor; [apply IH|].
  apply Forall_forall. intros z Hz. apply in_map_iff in Hz. destruct Hz as (b & <- & Hz). apply in_seq in Hz. apply Z.ltb_lt. unfold code. lia.
Qed.

Lemma ltb_asym a b : (a <? b)%Z = true -> (b <? a)%Z = false.
Proof. intros H. apply Z.ltb_lt in H. apply Z.ltb_ge. lia. Qed.

Lemma step_ok i c : nth_error cs i = Some c ->
  next_combination Z.ltb k (map code (full n c)) =
    match nth_error cs (S i) with Some c' => Ok (map code (full n c'), true) | None => Ok (map code (seq 0 n), false) end.
Proof.
  intros E. unfold full. rewrite map_app. destruct (nth_error cs (S i)) as [c'|] eqn:E'.
  - rewrite map_app. apply (next_step Z.ltb ltb_asym (map code (seq 0 n)) k i); auto using codes_sorted, sel_full.
  - apply (next_end Z.ltb ltb_asym (map code (seq 0 n)) k i); auto using codes_sorted, sel_full; [now rewrite len_codes|].
    apply nth_error_None. apply nth_error_None in E'. unfold cs in E'. rewrite choices_length, seq_length in E'.
    rewrite <- (map_length fst), sel_choices, choices_length, len_codes. exact E'.
Qed.

Lemma first_full c : nth_error cs 0 = Some c -> full n c = seq 0 n.
Proof.
  intros E. pose proof (sel_first Z.ltb) as _. apply sel_full in E.
  assert (G : map code (full n c) = map code (seq 0 n)).
  { unfold full. rewrite map_app. rewrite (sel_first Z.ltb ltb_asym) in E by (rewrite len_codes; lia). injection E as <- <-. apply firstn_skipn. }
  clear E. revert G. generalize (full n c), (seq 0 n). induction l as [|x l IH]; intros [|y m] G; try discriminate; [reflexivity|].
  cbn [map] in G. pose proof (f_equal (hd 0%Z) G) as G1. pose proof (f_equal (@tl Z) G) as G2. cbn [hd tl] in G1, G2.
  f_equal; [unfold code in G1; apply Nat2Z.inj in G1; lia|auto].
Qed.

Lemma nth_snoc (line : nat -> list nat -> list ascii -> Prop) first (rows : list (list nat)) ls row l :
  (forall i xs l, nth_error rows i = Some xs -> nth_error ls i = Some l -> line (first + i) xs l) ->
  nth_error rows (length ls) = Some row -> line (first + length ls) row l ->
  forall i xs l', nth_error rows i = Some xs -> nth_error (ls ++ [l]) i = Some l' -> line (first + i) xs l'.
Proof.
  intros G E L i xs l' Ei El. destruct (Nat.lt_trichotomy i (length ls)) as [H|[->|H]].
  - rewrite nth_error_app1 in El by lia. eauto.
  - rewrite nth_error_app2, Nat.sub_diag in El by lia. cbn in El. congruence.
  - rewrite nth_error_app2 in El by lia. destruct (i - length ls) as [|[|m]] eqn:D; [lia|discriminate El|discriminate El].
Qed.

Lemma i64 i : i < length cs -> (Z.of_nat i < 2 ^ 64)%Z.
Proof. intros H. fold cs in Hb. change (2 ^ 64)%N with 18446744073709551616%N in Hb. change (2 ^ 64)%Z with 18446744073709551616%Z. lia. Qed.

Lemma full32 i c : nth_error cs i = Some c -> Forall (fun v => (Z.of_nat v < 4294967296)%Z) (full n c).
Proof. intros E. apply Forall_forall. intros p Hp. pose proof (full_range i c E p Hp). lia. Qed.

Definition rows := map (full n) cs.
Lemma row_at i c : nth_error cs i = Some c -> nth_error rows i = Some (full n c).
Proof. intros E. unfold rows. now rewrite nth_error_map, E. Qed.
Lemma rows_length : length rows = length cs.
Proof. apply map_length. Qed.
Lemma cs_at i : i < length cs -> exists c, nth_error cs i = Some c.
Proof. intros H. destruct (nth_error cs i) as [c|] eqn:E; [eauto|apply nth_error_None in E; lia]. Qed.

Lemma example01_ok st : statics_ok st ->
  exists st' t, example01 fuel st n k = Ok (st', t ++ new_line ++ new_line) /\ statics_ok st' /\ table line3 0 rows t.
Proof.
  intros Hs. unfold example01. rewrite char_list_ok by exact Hn. cbn [bind].
  destruct (count_ok st Hs) as (st1 & -> & Hs1). cbn [bind]. rewrite Nat2N.id.
  assert (G : holds (for_up 0 (length cs)
    (fun i '(st, out) =>
       ' (st, index_list) <- indices_of fuel st i n k ;;
       ' (st, nth_combination) <- letters_of fuel st i k (map code (seq 0 n)) ;;
       num <- number4 (Z.of_nat i) ;;
       is <- join_numbers [] [] index_list ;;
       Ok (st, out ++ num ++ bar ++ is ++ bar ++ join_bytes [] [] nth_combination ++ endl)) (st1, []))
    (fun '(st', t) => statics_ok st' /\ exists ls, length ls = 0 + length cs /\ t = concat ls /\
        forall i xs l, nth_error rows i = Some xs -> nth_error ls i = Some l -> line3 (0 + i) xs l)).
  { apply (for_up_rule (fun j '(st', t) => statics_ok st' /\ exists ls, length ls = j /\ t = concat ls /\
        forall i xs l, nth_error rows i = Some xs -> nth_error ls i = Some l -> line3 (0 + i) xs l)).
    - intros i [st' t] Hi (Hs' & ls & Hl & -> & G). destruct (cs_at i ltac:(lia)) as (c & Ec).
      destruct (indices_ok st' i c Hs' Ec) as (st2 & -> & Hs2). cbn [bind].
      destruct (letters_ok st2 i c Hs2 Ec) as (st3 & -> & Hs3). cbn [bind].
      destruct (number4_ok i (i64 i ltac:(lia))) as (num & -> & Nu). cbn [bind].
      destruct (join_numbers_run (full n c) (full32 i c Ec)) as (is & -> & Is). cbn [bind holds]. split; [exact Hs3|].
      rewrite join_bytes_ok. exists (ls ++ [num ++ bar ++ is ++ bar ++ map letter (full n c) ++ endl]).
      split; [rewrite app_length; cbn; lia|]. split; [now rewrite concat_app; cbn [concat]; rewrite app_nil_r|].
      apply nth_snoc with (row := full n c); [exact G|rewrite Hl; now apply row_at|]. exists num, is. rewrite Hl. auto.
    - split; [exact Hs1|]. exists []. split; [reflexivity|]. split; [reflexivity|]. intros i xs l _ E. destruct i; discriminate E. }
  destruct (for_up 0 (length cs) _ _) as [[st' t]| |]; cbn [holds] in G; try contradiction. cbn [bind]. destruct G as (Hs' & ls & Hl & -> & G).
  exists st', (concat ls). split; [reflexivity|]. split; [exact Hs'|]. exists ls. rewrite rows_length. auto.
Qed.

Lemma example02_ok st : statics_ok st ->
  exists st' t, example02 fuel st n k = Ok (st', t ++ new_line ++ new_line) /\ statics_ok st' /\ table line4 0 rows t.
Proof.
  intros Hs. unfold example02. rewrite char_list_ok by exact Hn. cbn [bind].
  destruct (count_ok st Hs) as (st1 & -> & Hs1). cbn [bind]. rewrite Nat2N.id.
  assert (G : holds (for_up 0 (length cs)
    (fun i '(st, next_comb_list, out) =>
       ' (st, index_list) <- indices_of fuel st i n k ;;
       ' (st, nth_combination) <- letters_of fuel st i k (map code (seq 0 n)) ;;
       num <- number4 (Z.of_nat i) ;;
       is <- join_numbers [] [] index_list ;;
       let out := out ++ num ++ bar ++ is ++ bar ++ join_bytes [] [] nth_combination ++ bar ++ join_bytes [] [] next_comb_list ++ endl in
       ' (next_comb_list, _) <- next_combination Z.ltb k next_comb_list ;;
       Ok (st, next_comb_list, out)) (st1, map code (seq 0 n), []))
    (fun '(st', s, t) => statics_ok st' /\ (forall c, nth_error cs (0 + length cs) = Some c -> s = map code (full n c)) /\
       exists ls, length ls = 0 + length cs /\ t = concat ls /\
        forall i xs l, nth_error rows i = Some xs -> nth_error ls i = Some l -> line4 (0 + i) xs l)).
  { apply (for_up_rule (fun j '(st', s, t) => statics_ok st' /\ (forall c, nth_error cs j = Some c -> s = map code (full n c)) /\
       exists ls, length ls = j /\ t = concat ls /\
        forall i xs l, nth_error rows i = Some xs -> nth_error ls i = Some l -> line4 (0 + i) xs l)).
    - intros i [[st' s] t] Hi (Hs' & Hc & ls & Hl & -> & G). destruct (cs_at i ltac:(lia)) as (c & Ec).
      destruct (indices_ok st' i c Hs' Ec) as (st2 & -> & Hs2). cbn [bind].
      destruct (letters_ok st2 i c Hs2 Ec) as (st3 & -> & Hs3). cbn [bind].
      destruct (number4_ok i (i64 i ltac:(lia))) as (num & -> & Nu). cbn [bind].
      destruct (join_numbers_run (full n c) (full32 i c Ec)) as (is & -> & Is). cbn [bind]. cbv zeta.
      rewrite (Hc c Ec). rewrite (step_ok i c Ec).
      assert (D : exists s' b, match nth_error cs (S i) with Some c' => Ok (map code (full n c'), true) | None => Ok (map code (seq 0 n), false) end = Ok (s', b) /\
        forall c, nth_error cs (S i) = Some c -> s' = map code (full n c)).
      { destruct (nth_error cs (S i)) as [c'|]; do 2 eexists; (split; [reflexivity|]); intros c2 E2; [now injection E2 as <-|discriminate]. }
      destruct D as (s' & b & -> & D). cbn [bind holds]. split; [exact Hs3|]. split; [exact D|].
      rewrite !join_bytes_ok. exists (ls ++ [num ++ bar ++ is ++ bar ++ map letter (full n c) ++ bar ++ map letter (full n c) ++ endl]).
      split; [rewrite app_length; cbn; lia|]. split; [now rewrite concat_app; cbn [concat]; rewrite app_nil_r|].
      apply nth_snoc with (row := full n c); [exact G|rewrite Hl; now apply row_at|]. exists num, is. rewrite Hl. auto.
    - split; [exact Hs1|]. split; [intros c E; now rewrite (first_full c E)|].
      exists []. split; [reflexivity|]. split; [reflexivity|]. intros i xs l _ E. destruct i; discriminate E. }
  destruct (for_up 0 (length cs) _ _) as [[[st' s] t]| |]; cbn [holds] in G; try contradiction. cbn [bind]. destruct G as (Hs' & _ & ls & Hl & -> & G).
  exists st', (concat ls). split; [reflexivity|]. split; [exact Hs'|]. exists ls. rewrite rows_length. auto.
Qed.

Lemma example03_ok st first : statics_ok st -> first < length cs -> length cs < fuel ->
  exists st' t, example03 fuel st first n k = Ok (st', t) /\ statics_ok st' /\ table line2 first (skipn first rows) t.
Proof.
  intros Hs Hfi Hfu. unfold example03. rewrite char_list_ok by exact Hn. cbn [bind].
  destruct (cs_at first Hfi) as (c0 & E0). destruct (letters_ok st first c0 Hs E0) as (st1 & -> & Hs1). cbn [bind].
  assert (G : holds (loop fuel
    (fun '(i, s, out) =>
       num <- number4 i ;;
       let out := out ++ num ++ bar ++ join_bytes [] [] s ++ endl in
       ' (s, b) <- next_combination Z.ltb k s ;;
       if (b : bool) then Ok (inl (cast t_ulong (i + 1), s, out)) else Ok (inr out))
    (Z.of_nat first, map code (full n c0), [])) (table line2 first (skipn first rows))).
  { apply (loop_rule (fun '(i, s, out) => exists c ls, i = Z.of_nat (first + length ls) /\ nth_error cs (first + length ls) = Some c /\
        s = map code (full n c) /\ out = concat ls /\
        forall j xs l, nth_error (skipn first rows) j = Some xs -> nth_error ls j = Some l -> line2 (first + j) xs l)
      (fun '(i, s, out) => length cs - Z.to_nat i)).
    - intros [[i s] out] (c & ls & -> & Ec & -> & -> & G).
      assert (L : first + length ls < length cs) by (apply nth_error_Some; congruence).
      destruct (number4_ok _ (i64 _ L)) as (num & -> & Nu). cbn [bind]. cbv zeta. rewrite (step_ok _ c Ec), join_bytes_ok.
      set (ls' := ls ++ [num ++ bar ++ map letter (full n c) ++ endl]).
      assert (Er : nth_error (skipn first rows) (length ls) = Some (full n c)) by (rewrite nth_error_skipn; now apply row_at).
      assert (G' : forall j xs l, nth_error (skipn first rows) j = Some xs -> nth_error ls' j = Some l -> line2 (first + j) xs l).
      { apply nth_snoc with (row := full n c); [exact G|exact Er|]. exists num. auto. }
      assert (Cc : concat ls ++ num ++ bar ++ ([] ++ map letter (full n c)) ++ endl = concat ls') by (unfold ls'; rewrite concat_app; cbn [concat app]; now rewrite app_nil_r).
      assert (Ll : length ls' = S (length ls)) by (unfold ls'; rewrite app_length; cbn; lia).
      rewrite Cc. destruct (nth_error cs (S (first + length ls))) as [c'|] eqn:E'; cbn [bind holds].
      + assert (C64 : cast t_ulong (Z.of_nat (first + length ls) + 1) = Z.of_nat (first + length ls')).
        { rewrite Ll. pose proof (i64 _ L). assert (S (first + length ls) < length cs) as L2 by (apply nth_error_Some; congruence). pose proof (i64 _ L2).
          unfold cast. change (lo t_ulong) with 0%Z. change (hi t_ulong - 0 + 1)%Z with (2 ^ 64)%Z. rewrite Z.mod_small by lia. lia. }
        split.
        * exists c', ls'. rewrite C64. replace (first + length ls') with (S (first + length ls)) by lia. auto.
        * rewrite C64. lia.
      + exists ls'. split; [reflexivity|]. split; [|exact G'].
        apply nth_error_None in E'. rewrite skipn_length, rows_length. lia.
    - exists c0, []. cbn [length]. rewrite Nat.add_0_r. repeat split; auto. intros j xs l _ E. destruct j; discriminate E.
    - lia. }
  destruct (loop fuel _ _) as [t| |]; cbn [holds] in G; try contradiction. cbn [bind]. eauto.
Qed.
End Table.
