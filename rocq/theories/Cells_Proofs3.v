(* A cell that is no number ends token_grid_test11. *)
From Verif Require Import Base Grid_Spec Grid_Model Grid_Rep Grid_Proofs Grid_Proofs2 Table_Model Table_Spec Table_Proofs Table_Proofs2 Cells_Model Cells_Spec Cells_Proofs Cells_Proofs2.
Local Open Scope nat_scope.

Lemma for_up_ub {S} (body : nat -> S -> outcome S) n : forall i st,
  (forall j st, i <= j < i + n -> body j st <> OutOfFuel) -> (exists j, i <= j < i + n /\ forall st, body j st = UB) -> for_up i n body st = UB.
Proof.
  induction n as [|n IH]; intros i st Hf (j & Hj & Hu); [lia|]. cbn [for_up]. destruct (Nat.eq_dec j i) as [->|Hne]; [now rewrite Hu|].
  specialize (Hf i st ltac:(lia)) as Hi. destruct (body i st) as [st'| |]; [|reflexivity|congruence]. cbn [bind].
  apply IH; [intros k st2 Hk; apply Hf; lia|]. exists j. split; [lia|exact Hu].
Qed.
Lemma for_up_fuel {S} (body : nat -> S -> outcome S) n : forall i st,
  (forall j st, i <= j < i + n -> body j st <> OutOfFuel) -> for_up i n body st <> OutOfFuel.
Proof.
  induction n as [|n IH]; intros i st Hf; [discriminate|]. cbn [for_up].
  specialize (Hf i st ltac:(lia)) as Hi. destruct (body i st) as [st'| |]; [|discriminate|congruence]. cbn [bind].
  apply IH. intros k st2 Hk. apply Hf. lia.
Qed.

Section Averages.
Context {T : Type}.
Variables (conv : list ascii -> option T) (mean : T -> T -> T -> T).
Lemma get_cell text g rw r j t : is_row g rw r -> nth_error r j = Some t ->
  get conv text g rw (N.of_nat j) = match conv (sub text t) with Some v => Ok v | None => UB end.
Proof. intros (_ & _ & _ & H) Hj. unfold get. now rewrite (H j t Hj). Qed.
Lemma test11_ub rows m i j x : table ","%char rows -> small (length (concat rows)) -> rectangle m rows -> 3 <= length rows ->
  nth_error rows i = Some x -> (exists c, nth_error x j = Some c /\ conv c = None) ->
  test11 conv mean (table_text ","%char rows) = UB.
Proof.
  intros Ht Hs Hr H3 Hx (c & Hc & Hn).
  destruct (load_cells (compressed (str ",")) (table_text ","%char rows) rows eq_refl (cells_compressed ","%char rows comma_in Ht) Hs) as (g & rs & E & Hg & _ & _ & Hm).
  unfold test11. rewrite E. cbn [bind]. set (text := table_text ","%char rows) in *. clearbody text.
  assert (Hl : length rs = length rows) by (rewrite <- Hm; now rewrite map_length).
  assert (Hsm : (N.of_nat (length rs) < 2 ^ 32)%N) by exact (small_rows g rs Hg).
  assert (Hlen : forall k r, nth_error rs k = Some r -> length r = m).
  { intros k r Hk. unfold rectangle in Hr. rewrite Forall_forall in Hr. assert (Hq : length (map (sub text) r) = m).
    { apply Hr. rewrite <- Hm. apply in_map. eapply nth_error_In; exact Hk. }
    rewrite map_length in Hq. exact Hq. }
  assert (Hbad : exists r t, nth_error rs i = Some r /\ nth_error r j = Some t /\ conv (sub text t) = None).
  { unfold tok in *. rewrite <- Hm, nth_error_map in Hx. destruct (nth_error rs i) as [r|]; cbn [option_map] in Hx; [|discriminate]. injection Hx as <-. rewrite nth_error_map in Hc.
    destruct (nth_error r j) as [t|] eqn:Et; cbn [option_map] in Hc; [|discriminate]. injection Hc as <-. eauto. }
  clear Hx Hc Hn x c. destruct Hbad as (rb & tb & Hi & Hj & Hn).
  assert (Hil : i < length rs) by (eapply nth_error_some_lt; exact Hi). assert (Hjm : j < m) by (rewrite <- (Hlen _ _ Hi); eapply nth_error_some_lt; exact Hj).
  assert (Esub : sub64 (N.of_nat (length rs)) 1 = N.of_nat (length rs - 1)).
  { unfold sub64. replace ((N.of_nat (length rs) + 2 ^ 64 - 1))%N with (N.of_nat (length rs - 1) + 1 * 2 ^ 64)%N by lia. rewrite N.mod_add by discriminate. apply N.mod_small. lia. }
  rewrite (row_count_ok _ _ Hg), Esub. unfold for_range at 1. change (N.to_nat 0) with 0. rewrite Nat.sub_0_r, Nat2N.id.
  (* one line: undefined if one of its cells is, and never anything but a line or undefined *)
  assert (Hline : forall k st, 0 < k < length rs - 1 ->
    let line := (rw <- row g (N.of_nat k) ;; nx <- row g (N.of_nat k + 1) ;; pv <- row g (N.of_nat k - 1) ;;
         line <- for_range 0 (r_size rw) (fun c line => a <- get conv text g rw c ;; b <- get conv text g nx c ;; d <- get conv text g pv c ;; Ok (line ++ [mean a b d])) [] ;;
         Ok (st ++ [Some line])) in
    line <> OutOfFuel /\ (k - 1 <= i <= k + 1 -> line = UB)).
  { intros k st Hk. destruct k as [|k]; [lia|].
    destruct (nth_error rs (S k)) as [r|] eqn:E0; [|apply nth_error_None in E0; lia].
    destruct (nth_error rs (S (S k))) as [r2|] eqn:E2; [|apply nth_error_None in E2; lia]. destruct (nth_error rs k) as [r1|] eqn:E1; [|apply nth_error_None in E1; lia].
    destruct (row_ok _ _ _ _ Hg E0) as (rw & -> & _ & Hrow). cbn [bind].
    replace (N.of_nat (S k) + 1)%N with (N.of_nat (S (S k))) by lia. destruct (row_ok _ _ _ _ Hg E2) as (rw2 & -> & _ & Hrow2). cbn [bind].
    replace (N.of_nat (S k) - 1)%N with (N.of_nat k) by lia. destruct (row_ok _ _ _ _ Hg E1) as (rw1 & -> & _ & Hrow1). cbn [bind].
    pose proof (proj1 Hrow) as Hsz. rewrite Hsz. unfold for_range. change (N.to_nat 0) with 0. rewrite Nat.sub_0_r, Nat2N.id.
    rewrite (Hlen _ _ E0).
    assert (Hcell : forall q st', q < m -> exists t t2 t1, nth_error r q = Some t /\ nth_error r2 q = Some t2 /\ nth_error r1 q = Some t1 /\
      (a <- get conv text g rw (N.of_nat q) ;; b <- get conv text g rw2 (N.of_nat q) ;; d <- get conv text g rw1 (N.of_nat q) ;; Ok (st' ++ [mean a b d])) =
      match conv (sub text t), conv (sub text t2), conv (sub text t1) with Some a, Some b, Some d => Ok (st' ++ [mean a b d]) | _, _, _ => UB end).
    { intros q st' Hq. destruct (nth_error r q) as [t|] eqn:F0; [|apply nth_error_None in F0; rewrite (Hlen _ _ E0) in F0; lia].
      destruct (nth_error r2 q) as [t2|] eqn:F2; [|apply nth_error_None in F2; rewrite (Hlen _ _ E2) in F2; lia].
      destruct (nth_error r1 q) as [t1|] eqn:F1; [|apply nth_error_None in F1; rewrite (Hlen _ _ E1) in F1; lia].
      exists t, t2, t1. repeat split. rewrite (get_cell _ _ _ _ _ _ Hrow F0), (get_cell _ _ _ _ _ _ Hrow2 F2), (get_cell _ _ _ _ _ _ Hrow1 F1).
      destruct (conv (sub text t)), (conv (sub text t2)), (conv (sub text t1)); reflexivity. }
    assert (Hof : forall q (st' : list T), 0 <= q < 0 + m ->
      (a <- get conv text g rw (N.of_nat q) ;; b <- get conv text g rw2 (N.of_nat q) ;; d <- get conv text g rw1 (N.of_nat q) ;; Ok (st' ++ [mean a b d])) <> OutOfFuel).
    { intros q st' Hq. destruct (Hcell q st' ltac:(lia)) as (t & t2 & t1 & _ & _ & _ & ->). destruct (conv (sub text t)), (conv (sub text t2)), (conv (sub text t1)); discriminate. }
    split.
    - intros Ho. pose proof (for_up_fuel _ m 0 [] Hof) as Hf. destruct (for_up 0 m _ []); cbn [bind] in Ho; congruence.
    - intros Hik. rewrite (for_up_ub _ m 0 [] Hof); [reflexivity|]. exists j. split; [lia|]. intros st'.
      destruct (Hcell j st' Hjm) as (t & t2 & t1 & F0 & F2 & F1 & ->).
      destruct (Nat.eq_dec i (S k)) as [->|]; [replace t with tb by congruence; now rewrite Hn|].
      destruct (Nat.eq_dec i (S (S k))) as [->|]; [replace t2 with tb by congruence; rewrite Hn; now destruct (conv (sub text t))|].
      assert (i = k) as -> by lia. replace t1 with tb by congruence. rewrite Hn. now destruct (conv (sub text t)), (conv (sub text t2)). }
  apply for_up_ub.
  - intros k st Hk. destruct ((0 <? N.of_nat k)%N && (N.of_nat k <? N.of_nat (length rs - 1))%N) eqn:Ek; [|discriminate].
    apply andb_true_iff in Ek as [K1 K2]. apply N.ltb_lt in K1, K2. apply (Hline k st). lia.
  - set (k := Nat.max 1 (Nat.min i (length rs - 2))). exists k. split; [lia|]. intros st.
    rewrite (proj2 (N.ltb_lt 0 (N.of_nat k))) by lia. rewrite (proj2 (N.ltb_lt (N.of_nat k) (N.of_nat (length rs - 1)))) by lia. cbn [andb].
    apply (Hline k st); lia.
Qed.
End Averages.
