(* C144: the tables of strtk_nth_combination_example.cpp *)
From Verif Require Import Base Num_Model Num_Spec Num_Proofs2 Comb_Model Comb_Spec Comb_Spec2 Comb_Proofs Comb_Proofs3 Comb_Proofs4 Comb_Proofs5 Comb_Proofs6 Comb_Props Nthx_Model Nthx_Spec Nthx_Proofs.
From Coq Require Import Permutation.
Local Open Scope nat_scope.

(* one line per selection, in order: the numbers and the letters, the selected ones first *)
Theorem C144_table : forall fuel st n k, after_calls st -> 2 <= k -> k <= n -> n <= 190 -> n + 1 < fuel ->
  (N.of_nat (length (choices k (seq 0 n))) < 2 ^ 64)%N ->
  exists st' t, example01 fuel st n k = Ok (st', t ++ new_line ++ new_line) /\
    table line3 0 (map (full n) (choices k (seq 0 n))) t.
Proof.
  intros fuel st n k Hs Hk Hkn Hn Hf Hb. destruct (example01_ok n k fuel Hk Hkn Hn Hf Hb st (after_calls_ok _ Hs)) as (st' & t & E & _ & T). eauto.
Qed.
Print Assumptions C144_table.
Example C144_table_example : (' (_, t) <- example01 20 initial_statics 4 2 ;; Ok t) = Ok (
  str "0000 | 0123 | ABCD" ++ endl ++ str "0001 | 0213 | ACBD" ++ endl ++ str "0002 | 0312 | ADBC" ++ endl ++
  str "0003 | 1203 | BCAD" ++ endl ++ str "0004 | 1302 | BDAC" ++ endl ++ str "0005 | 2301 | CDAB" ++ endl ++ endl ++ endl).
Proof. vm_compute. reflexivity. Qed.

(* what nth_combination_sequence gives for i is what i steps of next_combination give *)
Theorem C144_both : forall fuel st n k, after_calls st -> 2 <= k -> k <= n -> n <= 190 -> n + 1 < fuel ->
  (N.of_nat (length (choices k (seq 0 n))) < 2 ^ 64)%N ->
  exists st' t, example02 fuel st n k = Ok (st', t ++ new_line ++ new_line) /\
    table line4 0 (map (full n) (choices k (seq 0 n))) t.
Proof.
  intros fuel st n k Hs Hk Hkn Hn Hf Hb. destruct (example02_ok n k fuel Hk Hkn Hn Hf Hb st (after_calls_ok _ Hs)) as (st' & t & E & _ & T). eauto.
Qed.
Print Assumptions C144_both.
Example C144_both_example : (' (_, t) <- example02 20 initial_statics 3 2 ;; Ok t) = Ok (
  str "0000 | 012 | ABC | ABC" ++ endl ++ str "0001 | 021 | ACB | ACB" ++ endl ++ str "0002 | 120 | BCA | BCA" ++ endl ++ endl ++ endl).
Proof. vm_compute. reflexivity. Qed.

(* from any selection on, next_combination gives the rest of the table, with the same numbers *)
Theorem C144_resume : forall fuel st first n k, after_calls st -> 2 <= k -> k <= n -> n <= 190 -> n + 1 < fuel ->
  (N.of_nat (length (choices k (seq 0 n))) < 2 ^ 64)%N -> first < length (choices k (seq 0 n)) -> length (choices k (seq 0 n)) < fuel ->
  exists st' t, example03 fuel st first n k = Ok (st', t) /\
    table line2 first (skipn first (map (full n) (choices k (seq 0 n)))) t.
Proof.
  intros fuel st first n k Hs Hk Hkn Hn Hf Hb Hi Hc. destruct (example03_ok n k fuel Hk Hkn Hn Hf Hb st first (after_calls_ok _ Hs) Hi Hc) as (st' & t & E & _ & T). eauto.
Qed.
Print Assumptions C144_resume.
Example C144_resume_example : (' (_, t) <- example03 20 initial_statics 4 4 2 ;; Ok t) = Ok (
  str "0004 | BDAC" ++ endl ++ str "0005 | CDAB" ++ endl).
Proof. vm_compute. reflexivity. Qed.

(* the whole program *)
Theorem C144_program : forall fuel first n k, 2 <= k -> k <= n -> n <= 190 -> n + 1 < fuel ->
  (N.of_nat (length (choices k (seq 0 n))) < 2 ^ 64)%N -> first < length (choices k (seq 0 n)) -> length (choices k (seq 0 n)) < fuel ->
  let rows := map (full n) (choices k (seq 0 n)) in
  exists a b c, nth_main fuel first n k = Ok (a ++ new_line ++ new_line ++ b ++ new_line ++ new_line ++ c) /\
    table line3 0 rows a /\ table line4 0 rows b /\ table line2 first (skipn first rows) c.
Proof.
  intros fuel first n k Hk Hkn Hn Hf Hb Hi Hc rows.
  destruct (example01_ok n k fuel Hk Hkn Hn Hf Hb _ (after_calls_ok _ no_calls)) as (st1 & a & E1 & S1 & T1).
  destruct (example02_ok n k fuel Hk Hkn Hn Hf Hb st1 S1) as (st2 & b & E2 & S2 & T2).
  destruct (example03_ok n k fuel Hk Hkn Hn Hf Hb st2 first S2 Hi Hc) as (st3 & c & E3 & _ & T3).
  exists a, b, c. unfold nth_main. rewrite E1. cbn [bind]. rewrite E2. cbn [bind]. rewrite E3. cbn [bind].
  split; [|auto]. now rewrite <- !app_assoc.
Qed.
Print Assumptions C144_program.
Example C144_program_example : nth_main 20 1 3 2 = Ok (
  str "0000 | 012 | ABC" ++ endl ++ str "0001 | 021 | ACB" ++ endl ++ str "0002 | 120 | BCA" ++ endl ++ endl ++ endl ++
  str "0000 | 012 | ABC | ABC" ++ endl ++ str "0001 | 021 | ACB | ACB" ++ endl ++ str "0002 | 120 | BCA | BCA" ++ endl ++ endl ++ endl ++
  str "0001 | ACB" ++ endl ++ str "0002 | BCA" ++ endl).
Proof. vm_compute. reflexivity. Qed.

(* the rows: every selection of k of n once; the first k of a row are the selection, the others
   follow in order, so a row is an arrangement of all n numbers *)
Theorem C144_rows : forall n k row, In row (map (full n) (choices k (seq 0 n))) ->
  In (firstn k row) (choices k (seq 0 n)) /\ skipn k row = others n (firstn k row) /\ Permutation row (seq 0 n).
Proof.
  intros n k row H. apply in_map_iff in H. destruct H as (c & <- & H). pose proof (proj1 (choices_in _ _ _) H) as [Hl Hc].
  unfold full. rewrite firstn_app, skipn_app, <- Hl, Nat.sub_diag, firstn_all, skipn_all. cbn [firstn skipn app]. rewrite app_nil_r.
  split; [now rewrite Hl|]. split; [reflexivity|].
  apply NoDup_Permutation; [|apply seq_NoDup|].
  - assert (Nc : NoDup c). { clear -Hc. assert (N : NoDup (seq 0 n)) by apply seq_NoDup. revert N. induction Hc as [|x c l S IH|x c l S IH]; intros N; [constructor| |]; inversion N; subst; auto.
      constructor; auto. intros I. pose proof (subseq_in _ _ _ S I). contradiction. }
    clear -Nc. assert (D : forall x, In x c -> ~ In x (others n c)).
    { intros x I J. unfold others in J. apply filter_In in J. destruct J as [_ J]. apply negb_true_iff in J. rewrite <- not_true_iff_false in J. apply J. apply existsb_exists. exists x. split; [exact I|apply Nat.eqb_refl]. }
    assert (No : NoDup (others n c)) by (apply NoDup_filter, seq_NoDup). revert D No. generalize (others n c) as o. intros o D No.
    induction Nc as [|x c Hx Nc IH]; [exact No|]. cbn [app]. constructor.
    + rewrite in_app_iff. intros [I|I]; [contradiction|]. exact (D x (or_introl eq_refl) I).
    + apply IH. intros y I. apply D. now right.
  - intros x. rewrite in_app_iff. split.
    + intros [I|I]; [exact (subseq_in _ _ _ Hc I)|]. unfold others in I. apply filter_In in I. tauto.
    + intros I. destruct (existsb (Nat.eqb x) c) eqn:E.
      * left. apply existsb_exists in E. destruct E as (y & I2 & E). apply Nat.eqb_eq in E. now subst.
      * right. unfold others. apply filter_In. split; [exact I|]. now rewrite E.
Qed.
Print Assumptions C144_rows.
Example C144_rows_example : map (full 4) (choices 3 (seq 0 4)) = [[0; 1; 2; 3]; [0; 1; 3; 2]; [0; 2; 3; 1]; [1; 2; 3; 0]].
Proof. reflexivity. Qed.

(* The comment in front of the program shows only the selected numbers and letters.
   complete_index is true unless the caller says otherwise: whenever something remains
   unselected, what is written is not the table of the comment. *)
Theorem C144_comment_refuted : forall fuel st n k, after_calls st -> 2 <= k -> k < n -> n <= 190 -> n + 1 < fuel ->
  (N.of_nat (length (choices k (seq 0 n))) < 2 ^ 64)%N ->
  exists st' t, example01 fuel st n k = Ok (st', t ++ new_line ++ new_line) /\
    forall u, table line3 0 (choices k (seq 0 n)) u -> length u < length t.
Proof.
  intros fuel st n k Hs Hk Hkn Hn Hf Hb. destruct (C144_table fuel st n k Hs Hk ltac:(lia) Hn Hf Hb) as (st' & t & E & ls & -> & Hl & G).
  exists st', (concat ls). split; [exact E|]. intros u (ds & -> & Hd & D). rewrite map_length in Hl.
  assert (Ne : 0 < length (choices k (seq 0 n))). { rewrite choices_length, seq_length. pose proof (binom_pos n k ltac:(lia)). lia. }
  assert (L : forall i d l, nth_error ds i = Some d -> nth_error ls i = Some l -> length d < length l).
  { intros i d l Ed El. assert (Hi : i < length (choices k (seq 0 n))) by (rewrite <- Hd; apply nth_error_Some; congruence).
    destruct (nth_error (choices k (seq 0 n)) i) as [c|] eqn:Ec; [|apply nth_error_None in Ec; lia].
    specialize (D i c d Ec Ed). specialize (G i (full n c) l). rewrite nth_error_map, Ec in G. specialize (G eq_refl El).
    destruct D as (a1 & b1 & (m1 & C1 & ->) & (t1 & R1 & ->) & ->). destruct G as (a2 & b2 & (m2 & C2 & ->) & (t2 & R2 & ->) & ->).
    rewrite (canonical_unique _ _ _ C1 C2). unfold full in R2. rewrite map_app in R2. apply Forall2_app_inv_r in R2. destruct R2 as (t3 & t4 & R3 & R4 & ->).
    assert (t3 = t1) as ->. { clear -R1 R3. revert t1 R1. induction R3; intros t1 R1; inversion R1; subst; [reflexivity|]. f_equal; [eapply canonical_unique; eauto|auto]. }
    unfold full. rewrite concat_app, map_app, !app_length, !map_length. apply nth_error_In in Ec. apply choices_in in Ec. destruct Ec as [Lc Sc].
    assert (Lo : 0 < length (others n c)).
    { pose proof (C144_rows n k (full n c)) as P. destruct P as (_ & _ & P); [apply in_map; apply choices_in; auto|]. apply Permutation_length in P. unfold full in P. rewrite app_length, seq_length in P. lia. }
    lia. }
  rewrite <- Hl in Ne, Hd. clear -L Hd Ne. revert ls L Hd Ne.
  assert (W : forall ls : list (list ascii), length ds = length ls -> (forall i d l, nth_error ds i = Some d -> nth_error ls i = Some l -> length d < length l) -> length (concat ds) + length ls <= length (concat ls)).
  { induction ds as [|d ds IH]; intros [|l ls] H L; try discriminate; [cbn; lia|]. cbn [concat length]. rewrite !app_length. pose proof (L 0 d l eq_refl eq_refl).
    cbn in H. specialize (IH ls ltac:(lia) (fun i => L (S i))). lia. }
  intros ls L Hd Ne. specialize (W ls Hd L). lia.
Qed.
Print Assumptions C144_comment_refuted.
Example C144_comment_example : (' (_, t) <- example01 20 initial_statics 6 4 ;; Ok (firstn 24 t)) = Ok (str "0000 | 012345 | ABCDEF" ++ endl ++ str "0").
Proof. vm_compute. reflexivity. Qed.

(* The selections of a single element are counted but cannot be had by their number *)
Theorem C144_single_refuted : forall fuel st n, 1 <= n -> n <= 190 -> example01 fuel st n 1 = UB /\ example02 fuel st n 1 = UB /\
  forall first, example03 fuel st first n 1 = UB.
Proof.
  intros fuel st n H1 Hn.
  assert (C : exists st' m, n_choose_k fuel st (N.of_nat n) (N.of_nat 1) = Ok (st', N.of_nat (S m))).
  { unfold n_choose_k. destruct n as [|[|n]]; [lia|exists st, 0; reflexivity|]. exists st, (S n).
    replace (N.of_nat (S (S n)) <? N.of_nat 1)%N with false by (symmetry; apply N.ltb_ge; lia).
    replace (N.of_nat (S (S n)) =? 0)%N with false by (symmetry; apply N.eqb_neq; lia).
    replace (N.of_nat (S (S n)) =? N.of_nat 1)%N with false by (symmetry; apply N.eqb_neq; lia). reflexivity. }
  destruct C as (st' & m & C). unfold example01, example02, example03. rewrite char_list_ok by exact Hn. cbn [bind]. rewrite C. cbn [bind].
  rewrite Nat2N.id. unfold letters_of, nth_combination_range, nth_combination_back.
  change (N.of_nat 1) with 1%N. split; [|split].
  - cbn [for_up]. unfold indices_of, nth_combination_back. change (N.of_nat 1) with 1%N. now rewrite k_one_ub.
  - cbn [for_up]. unfold indices_of, nth_combination_back. change (N.of_nat 1) with 1%N. now rewrite k_one_ub.
  - intros first. now rewrite k_one_ub.
Qed.
Print Assumptions C144_single_refuted.
Example C144_single_example : example01 20 initial_statics 6 1 = UB /\ (' (_, c) <- n_choose_k 20 initial_statics 6 1 ;; Ok c) = Ok 6%N.
Proof. split; vm_compute; reflexivity. Qed.
