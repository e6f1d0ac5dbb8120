From Verif Require Import Base Split_Model Split_Spec Parse_Spec Grid_Spec Grid_Model Grid_Rep Grid_Proofs Grid_Proofs2 GridJoin_Model GridJoin_Spec.
Local Open Scope nat_scope.

Section Joins.
Variables (buf : list ascii) (g : grid) (rs : list (list tok)).
Hypothesis Hg : represents g rs.
Hypothesis Hw : within buf rs.

Lemma in_buffer i r j t : nth_error rs i = Some r -> nth_error r j = Some t -> length (sub buf t) = snd t - fst t /\ fst t <= snd t.
Proof.
  intros Hi Hj. apply nth_error_In in Hi, Hj. unfold within in Hw. rewrite Forall_forall in Hw. specialize (Hw _ Hi). rewrite Forall_forall in Hw.
  destruct (Hw _ Hj) as [H1 H2]. destruct t as [x y]. cbn [fst snd] in *. split; [now apply sub_length|auto].
Qed.
Lemma step_eq (d : list ascii) t (b : bool) (st : list ascii * bool) : length (sub buf t) = snd t - fst t -> fst t <= snd t ->
  (let '(result, appended) := st in
   let result := if negb (length d =? 0) && appended then result ++ d else result in
   if negb (fst t =? snd t) then if b then Ok (result ++ sub buf t, true) else Ok (result, false) else Ok (result, false)) =
  Ok (join_step d (if b then sub buf t else []) st).
Proof.
  intros L O. destruct st as [result appended]. unfold join_step. destruct (Nat.eqb_spec (fst t) (snd t)) as [E|E]; cbn [negb].
  - assert (sub buf t = []) as -> by (apply length_zero_iff_nil; lia). destruct b; reflexivity.
  - destruct b; [|reflexivity]. destruct (Nat.eqb_spec (length (sub buf t)) 0) as [Z|Z]; [lia|]. reflexivity.
Qed.

Lemma join_row_if_ok p i r d result : nth_error rs i = Some r ->
  join_row_if p buf g (N.of_nat i) d result =
    Ok (true, result ++ joined d (map (fun t => if p t then sub buf t else []) (if S i <? length rs then r else removelast r))).
Proof.
  intros Hi. pose proof (nth_error_some_lt _ _ _ Hi) as Hlt. destruct (row_at _ _ _ _ Hg Hi) as (base & E1 & _ & Hne & Hle & Hs & E3 & Hmid & Hend).
  unfold join_row_if. rewrite (row_count_ok _ _ Hg), (proj2 (N.leb_gt _ _)) by lia. rewrite at_nat, E1. cbn [bind fst snd].
  assert (Hr : 0 < length r) by (destruct r; [congruence|cbn; lia]).
  replace (N.of_nat i <? N.of_nat (length rs) - 1)%N with (S i <? length rs)
    by (destruct (Nat.ltb_spec (S i) (length rs)), (N.ltb_spec (N.of_nat i) (N.of_nat (length rs) - 1)); auto; lia).
  set (r' := if S i <? length rs then r else removelast r).
  assert (Hr' : length r' = if S i <? length rs then length r else length r - 1).
  { unfold r'. destruct (S i <? length rs); [reflexivity|]. rewrite removelast_firstn_len, firstn_length. lia. }
  assert (He : (N.of_nat (base + length r - 1) + (if (S i <? length rs)%nat then 1 else 0))%N = N.of_nat (base + length r')).
  { rewrite Hr'. destruct (S i <? length rs); lia. }
  rewrite He, !at_nat.
  assert (Hr0 : exists t, rd (tokens g) base = Ok t).
  { destruct r as [|t r0]; [congruence|]. specialize (E3 0 t eq_refl). rewrite Nat.add_0_r in E3. eauto. }
  destruct Hr0 as (t0 & ->). cbn [bind].
  assert (Hrd : exists t, rd (tokens g) (base + length r') = Ok t).
  { destruct (nth_error (tokens g) (base + length r')) as [t|] eqn:En; [exists t; now apply rd_nth|]. apply nth_error_None in En.
    destruct (Nat.ltb_spec (S i) (length rs)); lia. }
  destruct Hrd as (t1 & ->). cbn [bind]. unfold for_range. rewrite !Nat2N.id. replace (base + length r' - base) with (length r') by lia.
  rewrite (for_up_fold _ (fun st t => join_step d (if p t then sub buf t else []) st) r').
  - cbn [bind]. pose proof (join_fold d (map (fun t => if p t then sub buf t else []) r') result false) as J. cbn [andb app] in J.
    match goal with |- context [fold_left ?f r' ?s0] =>
      replace (fold_left f r' s0) with (fold_left (fun st t => join_step d t st) (map (fun t => if p t then sub buf t else []) r') s0)
        by (symmetry; apply (fold_map (fun st t => join_step d t st) (fun t => if p t then sub buf t else []))) end.
    destruct (fold_left _ (map _ r') _) as [x y]. cbn [fst] in J. subst x. reflexivity.
  - intros j t st Hj.
    assert (Hj' : nth_error r j = Some t).
    { unfold r' in Hj. destruct (S i <? length rs); [exact Hj|]. rewrite removelast_firstn_len in Hj. pose proof (nth_error_some_lt _ _ _ Hj) as Hjl. rewrite firstn_length in Hjl.
      rewrite nth_error_firstn in Hj. destruct (Nat.ltb_spec j (Nat.pred (length r))); [exact Hj|discriminate]. }
    destruct (in_buffer _ _ _ _ Hi Hj') as [L O]. rewrite <- (step_eq d t (p t) st L O). destruct st as [res app]. rewrite at_nat, (E3 j t Hj'). reflexivity.
Qed.
Lemma join_row_if_bad p i d result : length rs <= i -> join_row_if p buf g (N.of_nat i) d result = Ok (false, result).
Proof. intros H. unfold join_row_if. rewrite (row_count_ok _ _ Hg), (proj2 (N.leb_le _ _)) by lia. reflexivity. Qed.

(* the loop of join_column_if on the rows *)
Definition col_step (p : N -> list tok -> bool) (c : nat) (last_row : N) (d : list ascii) (i : nat) (st : list ascii * bool) (r : list tok) : list ascii * bool :=
  match nth_error r c with
  | None => st
  | Some t =>
      let text := if p (N.of_nat i) r then sub buf t else [] in
      if (last_row =? N.of_nat i)%N then (fst st ++ text, nonempty text) else join_step d text st
  end.
Lemma picked_fold p c last d l : forall k st, (forall j, k <= j < k + length l -> last <> N.of_nat j) ->
  foldi (col_step p c last d) k l st = fold_left (fun st t => join_step d t st) (@picked tok (sub buf) (fun i => p (N.of_nat i)) c k l) st.
Proof.
  induction l as [|r l IH]; intros k st H; cbn [foldi picked]; [reflexivity|]. rewrite IH by (intros j Hj; apply H; cbn [length]; lia).
  unfold col_step at 1. destruct (nth_error r c) as [t|]; [|reflexivity]. cbn [fold_left].
  destruct (N.eqb_spec last (N.of_nat k)) as [E|E]; [|reflexivity]. exfalso. apply (H k); [cbn [length]; lia|exact E].
Qed.
Lemma join_column_if_loop p a b c d result : (N.of_nat c <= max_c g)%N -> a <= b -> b <= length rs ->
  join_column_if p buf g (N.of_nat c) (N.of_nat a, N.of_nat b) d result =
    Ok (true, fst (foldi (col_step p c (sub32 (N.of_nat b) 1) d) a (slice rs a b) (result, false))).
Proof.
  intros Hc Hab Hb. unfold join_column_if. rewrite (proj2 (N.ltb_ge _ _) Hc), (valid_rows _ _ Hg), (proj2 (Nat.leb_le _ _) Hab), (proj2 (Nat.leb_le _ _) Hb). cbn [negb andb fst snd].
  set (last := sub32 (N.of_nat b) 1).
  rewrite (rows_loop rs _ (col_step p c last d) a b (result, false) Hab Hb).
  - cbn [bind]. destruct (foldi _ _ _ _) as [x y]. reflexivity.
  - intros i r [res app] Hi. destruct (cell_at _ _ Hg i r c Hi) as (ix & E0 & E & Ht). destruct (row_ok _ _ _ _ Hg Hi) as (rw & Er & _ & Hrow).
    rewrite E0. cbn [bind]. rewrite E. unfold col_step. destruct (nth_error r c) as [t|] eqn:En.
    + pose proof (nth_error_some_lt _ _ _ En). rewrite (proj2 (N.ltb_lt _ _)) by lia. rewrite Er. cbn [bind]. rewrite (row_tok _ _ _ Hrow _ _ En). cbn [bind].
      rewrite (row_tokens_ok _ _ _ Hrow). cbn [bind]. destruct (in_buffer _ _ _ _ Hi En) as [L O].
      destruct (N.eqb_spec last (N.of_nat i)) as [El|El]; cbn [negb].
      * rewrite andb_false_r. cbn [fst]. destruct (Nat.eqb_spec (fst t) (snd t)) as [Z|Z]; cbn [negb].
        -- assert (sub buf t = []) as -> by (apply length_zero_iff_nil; lia). destruct (p (N.of_nat i) r); cbn [nonempty]; now rewrite app_nil_r.
        -- destruct (p (N.of_nat i) r); [|cbn [nonempty]; now rewrite app_nil_r]. destruct (sub buf t); [cbn in L; lia|reflexivity].
      * rewrite andb_true_r. rewrite <- (step_eq d t (p (N.of_nat i) r) (res, app) L O). reflexivity.
    + apply nth_error_None in En. rewrite (proj2 (N.ltb_ge _ _)) by lia. reflexivity.
Qed.
Lemma foldi_app {S A} (f : nat -> S -> A -> S) l1 : forall l2 k st, foldi f k (l1 ++ l2) st = foldi f (k + length l1) l2 (foldi f k l1 st).
Proof. induction l1 as [|x l1 IH]; intros l2 k st; cbn [app foldi length]; [now rewrite Nat.add_0_r|]. rewrite IH. f_equal. lia. Qed.
Lemma join_column_if_ok p a b c d result : (N.of_nat c <= max_c g)%N -> a <= b -> b <= length rs ->
  join_column_if p buf g (N.of_nat c) (N.of_nat a, N.of_nat b) d result =
    Ok (true, result ++ joined d (@picked tok (sub buf) (fun i => p (N.of_nat i)) c a (slice rs a (b - 1))) ++
              (if a <? b then concat (@picked tok (sub buf) (fun i => p (N.of_nat i)) c (b - 1) (slice rs (b - 1) b)) else [])).
Proof.
  intros Hc Hab Hb. rewrite join_column_if_loop by assumption. f_equal. f_equal.
  destruct (Nat.ltb_spec a b) as [L|L].
  - pose proof (small_rows _ _ Hg) as Hs. unfold small in Hs.
    assert (Hlast : sub32 (N.of_nat b) 1 = N.of_nat (b - 1)).
    { unfold sub32, u32. change (1 mod 2 ^ 32)%N with 1%N. replace (N.of_nat b + 2 ^ 32 - 1)%N with (N.of_nat (b - 1) + 1 * 2 ^ 32)%N by lia. rewrite N.mod_add by discriminate. apply N.mod_small. lia. }
    rewrite Hlast.
    assert (Hsl : slice rs a b = slice rs a (b - 1) ++ slice rs (b - 1) b).
    { unfold slice. replace (b - a) with ((b - 1 - a) + (b - (b - 1))) by lia. rewrite <- (firstn_skipn (b - 1 - a) (skipn a rs)) at 1.
      rewrite firstn_app. rewrite firstn_length, skipn_length. rewrite firstn_firstn. replace (Nat.min (b - 1 - a + (b - (b - 1))) (b - 1 - a)) with (b - 1 - a) by lia.
      f_equal. rewrite skipn_skipn. replace (b - 1 - a + a) with (b - 1) by lia. f_equal. lia. }
    assert (Hl1 : length (slice rs a (b - 1)) = b - 1 - a) by (apply slice_length; lia).
    rewrite Hsl, foldi_app, Hl1. replace (a + (b - 1 - a)) with (b - 1) by lia.
    rewrite (picked_fold p c (N.of_nat (b - 1)) d (slice rs a (b - 1)) a) by (intros j Hj; rewrite Hl1 in Hj; lia).
    pose proof (join_fold d (@picked tok (sub buf) (fun i => p (N.of_nat i)) c a (slice rs a (b - 1))) result false) as J. cbn [andb app] in J.
    destruct (fold_left _ (picked _ _ _ _ _) _) as [x y]. cbn [fst] in J. subst x.
    assert (Hl2 : length (slice rs (b - 1) b) = 1) by (rewrite slice_length; lia).
    destruct (slice rs (b - 1) b) as [|r [|? ?]]; try discriminate. cbn [foldi picked]. unfold col_step. rewrite N.eqb_refl.
    destruct (nth_error r c) as [t|]; cbn [fst concat]; [now rewrite app_nil_r, app_assoc|now rewrite app_nil_r].
  - assert (a = b) by lia. subst b. unfold slice. rewrite Nat.sub_diag. replace (a - 1 - a) with 0 by lia. cbn. now rewrite app_nil_r.
Qed.
End Joins.
