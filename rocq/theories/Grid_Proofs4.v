From Verif Require Import Base Split_Model Split_Spec Split_Proofs Split_Proofs2 Edit_Proofs Parse_Spec Grid_Spec Grid_Model Grid_Rep Grid_Proofs Grid_Proofs2 Grid_Proofs3.
Local Open Scope nat_scope.

Section Removal.
Variables (g : grid) (rs : list (list tok)) (a b : nat).
Hypothesis Hg : represents g rs.
Hypothesis Hab : a <= b.
Hypothesis Hb : b <= length rs.
Variable mk : nat -> list tok -> list bool.
Hypothesis Hmk : forall i r, length (mk i r) = length r.

Fixpoint kept (k : nat) (l : list (list tok)) : list (list tok) :=
  match l with [] => [] | r :: l => keep (mk k r) r :: kept (S k) l end.
Fixpoint masks (k : nat) (l : list (list tok)) : list bool :=
  match l with [] => [] | r :: l => mk k r ++ masks (S k) l end.
Lemma kept_snoc l r : forall k, kept k (l ++ [r]) = kept k l ++ [keep (mk (k + length l) r) r].
Proof.
  induction l as [|x l IH]; intros k; cbn [app kept length]; [now rewrite Nat.add_0_r|]. rewrite IH. replace (S k + length l) with (k + S (length l)) by lia. reflexivity.
Qed.
Lemma masks_snoc l r : forall k, masks k (l ++ [r]) = masks k l ++ mk (k + length l) r.
Proof.
  induction l as [|x l IH]; intros k; cbn [app masks length]; [now rewrite Nat.add_0_r, app_nil_r|]. rewrite IH, <- app_assoc.
  replace (S k + length l) with (k + S (length l)) by lia. reflexivity.
Qed.
Lemma kept_length l : forall k, length (kept k l) = length l.
Proof. induction l; intros k; cbn; auto. Qed.
Lemma masks_length l : forall k, length (masks k l) = length (concat l).
Proof. induction l as [|r l IH]; intros k; cbn; auto. rewrite !app_length, IH, Hmk. reflexivity. Qed.
Lemma keep_masks l : forall k, keep (masks k l) (concat l) = concat (kept k l).
Proof. induction l as [|r l IH]; intros k; cbn [masks concat kept]; [reflexivity|]. rewrite keep_app by apply Hmk. now rewrite IH. Qed.

Lemma new_entry B D K R n c : small (B + D + n) -> K + R = D -> 0 < n -> c <= n ->
  (u32 (sub64 (N.of_nat (B + D)) (N.of_nat R)), sub32 (snd (entry (B + D) n)) (N.of_nat R + N.of_nat c)) = entry (B + K) (n - c).
Proof.
  unfold small. intros Hs Hk Hn Hc. unfold entry. cbn [fst snd]. f_equal.
  - unfold sub64. replace (N.of_nat (B + D) + 2 ^ 64 - N.of_nat R)%N with (N.of_nat (B + K) + 1 * 2 ^ 64)%N by (change (2 ^ 64)%N with 18446744073709551616%N; lia).
    rewrite N.mod_add by discriminate. rewrite N.mod_small by (change (2 ^ 64)%N with 18446744073709551616%N; change (2 ^ 32)%N with 4294967296%N in Hs; lia).
    rewrite u32_small by lia. reflexivity.
  - rewrite (sub32_small (N.of_nat (B + D + n))) by lia. rewrite sub32_two by lia. f_equal. lia.
Qed.

Definition body_ok (body : N -> list row_ix * N * list N * list N -> outcome (list row_ix * N * list N * list N)) : Prop :=
  forall i r s ix removed rl tl, nth_error rs i = Some r -> nth_error ix i = Some (entry s (length r)) -> small (s + length r) ->
    r <> [] -> (forall j t, nth_error r j = Some t -> rd (tokens g) (s + j) = Ok t) ->
    let m := mk i r in
    let removed' := (removed + N.of_nat (length (pos 0 m)))%N in
    let e := (u32 (sub64 (N.of_nat s) removed), sub32 (snd (entry s (length r))) removed') in
    token_count e = N.of_nat (length (keep m r)) ->
    body (N.of_nat i) (ix, removed, rl, tl) =
      (ix' <- set_ ix (N.of_nat i) e ;;
       Ok (ix', removed', (if isnil (keep m r) then rl ++ [N.of_nat i] else rl), tl ++ map N.of_nat (pos s m))).

Lemma removal_loop body : body_ok body ->
  for_range (N.of_nat a) (N.of_nat b) body (rows g, 0%N, [], []) =
  let pre := firstn a rs in let mid := slice rs a b in let post := skipn b rs in
  Ok (eindexed 0 pre ++ eindexed (length (concat pre)) (kept a mid) ++ eindexed (length (concat pre) + length (concat mid)) post,
      N.of_nat (length (pos 0 (masks a mid))),
      map N.of_nat (pos (length pre) (map isnil (kept a mid))),
      map N.of_nat (pos (length (concat pre)) (masks a mid))).
Proof.
  intros Hbody. cbv zeta. set (pre := firstn a rs). set (mid := slice rs a b). set (post := skipn b rs).
  assert (Ers : rs = pre ++ mid ++ post).
  { unfold pre, mid, post, slice. rewrite <- (firstn_skipn a rs) at 1. f_equal. rewrite <- (firstn_skipn (b - a) (skipn a rs)) at 1. f_equal.
    rewrite skipn_skipn. f_equal. lia. }
  assert (Lp : length pre = a) by (unfold pre; rewrite firstn_length; lia).
  assert (Lm : length mid = b - a) by (unfold mid; apply slice_length; lia).
  pose proof Hg as Hg'. apply represents_e in Hg' as (H1 & H2 & H3 & H4).
  set (B := length (concat pre)).
  assert (G : forall rest dn, mid = dn ++ rest ->
    for_up (a + length dn) (length rest) (fun i => body (N.of_nat i))
      (eindexed 0 pre ++ eindexed B (kept a dn) ++ eindexed (B + length (concat dn)) (rest ++ post),
       N.of_nat (length (pos 0 (masks a dn))), map N.of_nat (pos a (map isnil (kept a dn))), map N.of_nat (pos B (masks a dn))) =
    Ok (eindexed 0 pre ++ eindexed B (kept a mid) ++ eindexed (B + length (concat mid)) post,
       N.of_nat (length (pos 0 (masks a mid))), map N.of_nat (pos a (map isnil (kept a mid))), map N.of_nat (pos B (masks a mid)))).
  { induction rest as [|r rest IH]; intros dn Ed; cbn [length for_up app].
    - rewrite app_nil_r in Ed. now rewrite Ed.
    - set (i := a + length dn).
      assert (Er : rs = (pre ++ dn) ++ r :: rest ++ post) by (rewrite Ers, Ed, <- !app_assoc; reflexivity).
      assert (Hi : nth_error rs i = Some r).
      { rewrite Er, nth_error_app2 by (rewrite app_length; lia). rewrite app_length. replace (i - (length pre + length dn)) with 0 by (unfold i; lia). reflexivity. }
      assert (Hr : r <> []) by (rewrite Forall_forall in H3; apply H3; eapply nth_error_In; eauto).
      assert (Hlr : 0 < length r) by (destruct r; [congruence|cbn; lia]).
      set (D := length (concat dn)). set (K := length (concat (kept a dn))). set (R := length (pos 0 (masks a dn))).
      assert (HKR : K + R = D).
      { unfold K, R, D. rewrite <- keep_masks. apply keep_len. apply masks_length. }
      assert (Hsm : small (B + D + length r)).
      { eapply small_le; [|exact H4]. rewrite Er, !concat_app, !app_length. cbn [concat]. rewrite app_length. unfold B, D. lia. }
      cbn [eindexed].
      set (c := length (pos 0 (mk i r))).
      assert (Hc : length (keep (mk i r) r) + c = length r) by (apply keep_len, Hmk).
      assert (Ene : (u32 (sub64 (N.of_nat (B + D)) (N.of_nat R)), sub32 (snd (entry (B + D) (length r))) (N.of_nat R + N.of_nat c)) = entry (B + K) (length r - c))
        by (apply new_entry; auto; lia).
      rewrite (Hbody i r (B + D)).
      + cbv zeta. fold c. rewrite Ene.
        assert (Eset : forall tl0 v w, set_ (eindexed 0 pre ++ eindexed B (kept a dn) ++ v :: tl0) (N.of_nat i) w =
           Ok (eindexed 0 pre ++ eindexed B (kept a dn) ++ w :: tl0)).
        { intros tl0 v w. rewrite set_nat. rewrite !app_assoc. replace i with (length (eindexed 0 pre ++ eindexed B (kept a dn)))
            by (rewrite app_length, !eindexed_length, kept_length; unfold i; lia). apply wr_here. }
        rewrite Eset. cbn [bind].
        specialize (IH (dn ++ [r])). rewrite <- app_assoc in IH. cbn [app] in IH. specialize (IH Ed). rewrite <- IH. clear IH.
        rewrite app_length. cbn [length]. replace (a + (length dn + 1)) with (S i) by (unfold i; lia).
        rewrite kept_snoc, masks_snoc, (eindexed_app B (kept a dn)), !pos_app, map_app, pos_app, !map_app, concat_app, app_length. fold i K D.
        cbn [eindexed map pos concat]. rewrite !app_nil_r. rewrite (map_length isnil), kept_length. rewrite masks_length. fold D.
        assert (EA : N.of_nat (length (pos 0 (masks a dn) ++ pos (0 + D) (mk i r))) = (N.of_nat R + N.of_nat c)%N).
        { rewrite app_length. rewrite (pos_len (mk i r) (0 + D) 0). fold R c. lia. }
        rewrite EA. replace (length r - c) with (length (keep (mk i r) r)) by lia. rewrite <- app_assoc. cbn [app].
        replace (B + D + length r) with (B + (D + length r)) by lia. f_equal. f_equal. f_equal.
        unfold i. destruct (isnil (keep (mk (a + length dn) r) r)); cbn [map pos]; [reflexivity|now rewrite app_nil_r].
      + exact Hi.
      + rewrite !app_assoc, nth_error_app2 by (rewrite app_length, !eindexed_length, kept_length; unfold i; lia).
        rewrite app_length, !eindexed_length, kept_length. replace (i - (length pre + length dn)) with 0 by (unfold i; lia). reflexivity.
      + exact Hsm.
      + exact Hr.
      + intros j t Hj. apply rd_nth. rewrite H1, Er, !concat_app. cbn [concat].
        rewrite nth_error_app2 by (rewrite app_length; unfold B, D; lia). rewrite app_length. replace (B + D + j - (length (concat pre) + length (concat dn))) with j by (unfold B, D; lia).
        rewrite nth_error_app1 by (eapply nth_error_some_lt; eauto). exact Hj.
      + fold c. rewrite Ene. rewrite entry_count by (eapply small_le; [|exact Hsm]; lia). f_equal. lia. }
  unfold for_range. rewrite !Nat2N.id. rewrite <- Lm. specialize (G mid [] eq_refl). cbn [length concat kept masks pos map eindexed app] in G. rewrite !Nat.add_0_r in G.
  rewrite H2. rewrite Ers at 1. rewrite eindexed_app. cbn [plus]. fold B. change (N.of_nat 0) with 0%N in G. rewrite G. rewrite Lp. reflexivity.
Qed.

Lemma removal_finish body : body_ok body -> exists g',
  ('(ix, removed, rl, tl) <- for_range (N.of_nat a) (N.of_nat b) body (rows g, 0%N, [], []) ;;
   g' <- finish_removal g ix (N.of_nat b) removed rl tl ;; Ok (tl, g')) = Ok (map N.of_nat (pos (length (concat (firstn a rs))) (masks a (slice rs a b))), g') /\
  represents g' (firstn a rs ++ filter nonempty (kept a (slice rs a b)) ++ skipn b rs) /\ min_c g' = min_c g /\ max_c g' = max_c g.
Proof.
  intros Hbody. rewrite (removal_loop body Hbody). cbv zeta. cbn [bind].
  assert (Ers : rs = firstn a rs ++ slice rs a b ++ skipn b rs).
  { unfold slice. rewrite <- (firstn_skipn a rs) at 1. f_equal. rewrite <- (firstn_skipn (b - a) (skipn a rs)) at 1. f_equal.
    rewrite skipn_skipn. f_equal. lia. }
  pose proof Hg as Hg'. apply represents_e in Hg' as (H1 & H2 & H3 & H4). rewrite Ers in H3. apply Forall_app in H3 as [H3a H3b]. apply Forall_app in H3b as [_ H3c].
  destruct (finish_ok g (firstn a rs) (slice rs a b) (skipn b rs) (masks a (slice rs a b)) (kept a (slice rs a b))) as (g' & E & Hr & Hmin & Hmax); auto.
  - rewrite H1. rewrite Ers at 1. now rewrite !concat_app.
  - now rewrite H1.
  - apply masks_length.
  - apply keep_masks.
  - apply kept_length.
  - exists g'. split; [|auto]. replace (length (firstn a rs) + length (slice rs a b)) with b in E by (rewrite firstn_length, slice_length; lia).
    rewrite E. reflexivity.
Qed.
End Removal.

(* ------------------------------------------------------------------ *)
Lemma survivors_plain (q : list tok -> bool) l : forall k, survivors (fun _ => q) k l = filter (fun r => negb (q r)) l.
Proof. induction l as [|r l IH]; intros k; cbn; auto. rewrite IH. destruct (q r); reflexivity. Qed.

Definition row_mask (p : N -> list tok -> bool) (i : nat) (r : list tok) : list bool := repeat (p (N.of_nat i) r) (length r).
Lemma kept_survivors p l : Forall (fun r => r <> []) l -> forall k, filter nonempty (kept (row_mask p) k l) = survivors p k l.
Proof.
  induction 1 as [|r l Hr _ IH]; intros k; [reflexivity|]. cbn [kept filter survivors]. change (row_mask p k r) with (repeat (p (N.of_nat k) r) (length r)). destruct (p (N.of_nat k) r).
  - rewrite keep_true. cbn [nonempty]. apply IH.
  - rewrite keep_false. destruct r; [congruence|]. cbn [nonempty]. now rewrite IH.
Qed.

Lemma sub_is_row g s r i : small (s + length r) -> r <> [] -> (forall j t, nth_error r j = Some t -> rd (tokens g) (s + j) = Ok t) ->
  is_row g (Row i (token_count (entry s (length r))) (fst (entry s (length r)))) r.
Proof.
  intros Hs Hr Ht. split; [cbn [r_size]; now apply entry_count|]. split; [exact Hr|]. split; [eapply small_le; [|exact Hs]; lia|].
  intros j t Hj. unfold row_token, entry. cbn [r_begin fst]. rewrite <- Nat2N.inj_add, at_nat. now apply Ht.
Qed.

Lemma remove_row_if_ok p g rs a b : represents g rs -> a <= b -> b <= length rs ->
  exists g', remove_row_if p g (N.of_nat a, N.of_nat b) = Ok (true, g') /\
    represents g' (firstn a rs ++ survivors p a (slice rs a b) ++ skipn b rs) /\ min_c g' = min_c g /\ max_c g' = max_c g.
Proof.
  intros Hg Hab Hb. unfold remove_row_if. rewrite (valid_rows _ _ Hg), (proj2 (Nat.leb_le _ _) Hab), (proj2 (Nat.leb_le _ _) Hb). cbn [negb andb fst snd].
  match goal with |- context [for_range _ _ ?f _] => set (body := f) end.
  destruct (removal_finish g rs a b Hg Hab Hb (row_mask p) (fun i r => repeat_length _ _) body) as (g' & E & Hr & Hmin & Hmax).
  - intros i r s ix removed rl tl Hi Hix Hs Hne Ht. cbv zeta. intros Hcount. unfold body. rewrite at_nat, (rd_nth _ _ _ Hix). cbn [bind].
    unfold row. cbn [with_store rows]. rewrite at_nat, (rd_nth _ _ _ Hix). cbn [bind].
    rewrite (row_tokens_ok _ _ _ (sub_is_row g s r (N.of_nat i) Hs Hne Ht)). cbn [bind r_size]. rewrite entry_count by exact Hs.
    unfold row_mask in *. unfold entry. cbn [fst snd]. assert (0 < length r) by (destruct r; [congruence|cbn; lia]).
    unfold small in Hs. destruct (p (N.of_nat i) r).
    + rewrite pos_true, seq_length, keep_true in *. cbn [isnil nonempty negb]. rewrite pos_true.
      rewrite (sub32_small (N.of_nat (s + length r)) 1) by lia.
      replace (N.to_nat (N.of_nat (s + length r) - 1) + 1 - N.to_nat (N.of_nat s)) with (length r) by lia. rewrite Nat2N.id.
      reflexivity.
    + rewrite keep_false, !pos_false in *. cbn [length map] in *. rewrite app_nil_r. rewrite N.add_0_r.
      destruct r; [congruence|]. cbn [isnil nonempty negb]. reflexivity.
  - destruct (for_range _ _ body _) as [[[[ix removed] rl] tl]| |]; cbn [bind] in *; try discriminate.
    destruct (finish_removal g ix (N.of_nat b) removed rl tl) as [g0| |]; cbn [bind] in *; try discriminate.
    injection E as E1 E2. exists g'. rewrite E2. split; [reflexivity|]. split; [|auto].
    rewrite kept_survivors in Hr; [exact Hr|]. destruct Hg as (_ & _ & H3 & _). rewrite Forall_forall in H3. apply Forall_forall. intros x Hx. apply H3.
    destruct (In_nth_error _ _ Hx) as (j & Hj). apply (slice_nth rs a b j Hb) in Hj. eapply nth_error_In; eauto.
Qed.
Lemma remove_row_if_bad p g rs a b : represents g rs -> b < a \/ length rs < b -> remove_row_if p g (N.of_nat a, N.of_nat b) = Ok (false, g).
Proof.
  intros Hg H. unfold remove_row_if. rewrite (valid_rows _ _ Hg). destruct (Nat.leb_spec a b), (Nat.leb_spec b (length rs)); cbn; auto; lia.
Qed.

Definition tok_mask (p : tok -> bool) (_ : nat) (r : list tok) : list bool := map p r.
Lemma kept_filter p l : forall k, kept (tok_mask p) k l = map (filter (fun t => negb (p t))) l.
Proof. induction l as [|r l IH]; intros k; cbn; auto. rewrite IH. unfold tok_mask. now rewrite keep_filter. Qed.
Lemma masks_map p l : forall k, masks (tok_mask p) k l = map p (concat l).
Proof. induction l as [|r l IH]; intros k; cbn; auto. rewrite IH, map_app. reflexivity. Qed.
Lemma pos_filter p (l : list tok) : forall k, length (pos k (map p l)) = length (filter p l).
Proof. induction l as [|t l IH]; intros k; cbn; auto. destruct (p t); cbn; now rewrite IH. Qed.

Lemma remove_token_if_ok p g rs a b : represents g rs -> a <= b -> b <= length rs ->
  exists g', remove_token_if p g (N.of_nat a, N.of_nat b) = Ok (N.of_nat (length (filter p (concat (slice rs a b)))), g') /\
    represents g' (firstn a rs ++ filter nonempty (map (filter (fun t => negb (p t))) (slice rs a b)) ++ skipn b rs) /\
    (counts_right g rs -> counts_right g' (firstn a rs ++ filter nonempty (map (filter (fun t => negb (p t))) (slice rs a b)) ++ skipn b rs)).
Proof.
  intros Hg Hab Hb. unfold remove_token_if. rewrite (valid_rows _ _ Hg), (proj2 (Nat.leb_le _ _) Hab), (proj2 (Nat.leb_le _ _) Hb). cbn [negb andb fst snd].
  match goal with |- context [for_range (N.of_nat a) _ ?f _] => set (body := f) end.
  destruct (removal_finish g rs a b Hg Hab Hb (tok_mask p) (fun i r => map_length _ _) body) as (g' & E & Hr & Hmin & Hmax).
  - intros i r s ix removed rl tl Hi Hix Hs Hne Ht. cbv zeta. intros Hcount. unfold body. rewrite at_nat, (rd_nth _ _ _ Hix). cbn [bind].
    unfold row. cbn [with_store rows]. rewrite at_nat, (rd_nth _ _ _ Hix). cbn [bind].
    pose proof (sub_is_row g s r (N.of_nat i) Hs Hne Ht) as Hrow. set (rw := Row (N.of_nat i) _ _) in *.
    match goal with |- context [for_range 0 (r_size rw) ?f _] => set (inner := f) end.
    assert (Ein : for_range 0 (r_size rw) inner (removed, tl) =
      Ok ((removed + N.of_nat (length (pos 0 (map p r))))%N, tl ++ map N.of_nat (pos s (map p r)))).
    { destruct Hrow as (Hsz & _ & _ & Htok). unfold for_range. rewrite Hsz. change (N.to_nat 0) with 0. rewrite Nat.sub_0_r, Nat2N.id.
      rewrite (for_up_foldi _ (fun j '(removed, tl) t => if p t then ((removed + 1)%N, tl ++ [N.of_nat (s + j)]) else (removed, tl)) r).
      - f_equal. enough (G : forall l k removed tl, foldi (fun j '(removed, tl) t => if p t then ((removed + 1)%N, tl ++ [N.of_nat (s + j)]) else (removed, tl)) k l (removed, tl) =
          ((removed + N.of_nat (length (pos 0 (map p l))))%N, tl ++ map N.of_nat (pos (s + k) (map p l)))) by (rewrite G, Nat.add_0_r; reflexivity).
        clear. induction l as [|t l IH]; intros k removed tl; cbn [foldi map pos]; [cbn; rewrite app_nil_r; f_equal; lia|].
        destruct (p t); rewrite IH; cbn [length map]; rewrite (pos_len _ 1 0); rewrite Nat.add_succ_r; [rewrite <- app_assoc; cbn [app]; f_equal; lia|reflexivity].
      - intros j t [rem0 tl0] Hj. unfold inner. cbn [plus]. rewrite (Htok _ _ Hj). cbn [bind]. unfold entry. cbn [fst]. rewrite <- Nat2N.inj_add. destruct (p t); reflexivity. }
    rewrite Ein. cbn [bind]. unfold tok_mask in *. unfold entry at 1. cbn [fst].
    match goal with |- context [token_count ?e] => replace (token_count e) with (N.of_nat (length (keep (map p r) r))) by (symmetry; exact Hcount) end.
    replace (N.of_nat (length (keep (map p r) r)) =? 0)%N with (isnil (keep (map p r) r)) by (destruct (keep (map p r) r); reflexivity).
    reflexivity.
  - destruct (for_range _ _ body _) as [[[[ix removed] rl] tl]| |]; cbn [bind] in *; try discriminate.
    destruct (finish_removal g ix (N.of_nat b) removed rl tl) as [g0| |]; cbn [bind] in *; try discriminate.
    injection E as E1 E2. subst g0. rewrite kept_filter in Hr. rewrite masks_map in E1.
    assert (Elen : length tl = length (filter p (concat (slice rs a b)))) by (rewrite E1, map_length; apply pos_filter).
    rewrite Elen. destruct tl as [|k tl].
    + cbn [bind]. exists g'. split; [reflexivity|]. split; [exact Hr|]. intros Hc.
      assert (Hnone : forall t, In t (concat (slice rs a b)) -> p t = false).
      { intros t Ht. destruct (p t) eqn:Ep; [|reflexivity]. exfalso. assert (Hin : In t (filter p (concat (slice rs a b)))) by (apply filter_In; auto).
        destruct (filter p (concat (slice rs a b))); [contradiction|discriminate]. }
      assert (Esl : filter nonempty (map (filter (fun t => negb (p t))) (slice rs a b)) = slice rs a b).
      { assert (Hn : Forall (fun r => r <> []) (slice rs a b)).
        { destruct Hg as (_ & _ & H3 & _). rewrite Forall_forall in H3. apply Forall_forall. intros x Hx. apply H3.
          destruct (In_nth_error _ _ Hx) as (j & Hj). apply (slice_nth rs a b j Hb) in Hj. eapply nth_error_In; eauto. }
        revert Hnone. clear -Hn. induction Hn as [|r l Hr _ IH]; intros Hnone; [reflexivity|]. cbn [map filter].
        assert (Er : filter (fun t => negb (p t)) r = r).
        { clear Hr IH. assert (H : forall t, In t r -> p t = false) by (intros t Ht; apply Hnone; cbn [concat]; apply in_or_app; auto). clear Hnone.
          induction r as [|t r IH]; [reflexivity|]. cbn [filter]. rewrite (H t) by now left. cbn [negb]. f_equal. apply IH. intros u Hu. apply H. now right. }
        rewrite Er. destruct r; [congruence|]. cbn [nonempty]. f_equal. apply IH. intros u Hu. apply Hnone. cbn [concat]. apply in_or_app. auto. }
      rewrite Esl. assert (Ers : firstn a rs ++ slice rs a b ++ skipn b rs = rs).
      { unfold slice. rewrite <- (firstn_skipn a rs) at 4. f_equal. rewrite <- (firstn_skipn (b - a) (skipn a rs)) at 2. f_equal.
        rewrite skipn_skipn. f_equal. lia. }
      rewrite Ers. unfold counts_right in *. rewrite Hmin, Hmax. exact Hc.
    + destruct (update_minmax_ok _ _ Hr) as (g2 & E2 & T1 & T2 & T3). rewrite E2. cbn [bind]. exists g2. split; [reflexivity|]. split; [|auto].
      destruct Hr as (R1 & R2 & R3 & R4). split; [now rewrite T1|]. split; [now rewrite T2|]. auto.
Qed.
Lemma remove_token_if_bad p g rs a b : represents g rs -> b < a \/ length rs < b -> remove_token_if p g (N.of_nat a, N.of_nat b) = Ok (0%N, g).
Proof.
  intros Hg H. unfold remove_token_if. rewrite (valid_rows _ _ Hg). destruct (Nat.leb_spec a b), (Nat.leb_spec b (length rs)); cbn; auto; lia.
Qed.

Lemma enforce_ok g rs a b n : represents g rs -> a <= b -> b <= length rs ->
  exists g', enforce_column_count g (N.of_nat a, N.of_nat b) n = Ok g' /\
    represents g' (filter (fun r => (n =? N.of_nat (length r))%N) rs) /\ min_c g' = n /\ max_c g' = n.
Proof.
  intros Hg Hab Hb. unfold enforce_column_count. rewrite (valid_rows _ _ Hg), (proj2 (Nat.leb_le _ _) Hab), (proj2 (Nat.leb_le _ _) Hb). cbn [negb andb].
  rewrite (all_rows_ok _ _ Hg).
  destruct (remove_row_if_ok (fun _ ts => negb (n =? N.of_nat (length ts))%N) g rs 0 (length rs) Hg ltac:(lia) ltac:(lia)) as (g' & E & Hr & _).
  rewrite E. cbn [bind]. eexists. split; [reflexivity|]. split; [|split; reflexivity].
  rewrite survivors_plain, slice_all, skipn_all, app_nil_r in Hr. cbn [firstn app] in Hr.
  rewrite (filter_ext (fun r => negb (negb (n =? N.of_nat (length r))%N)) (fun r => (n =? N.of_nat (length r))%N)) in Hr by (intros; apply negb_involutive).
  exact Hr.
Qed.
Lemma enforce_min_max_ok g rs a b mn mx : represents g rs -> a <= b -> b <= length rs ->
  exists g', enforce_min_max_column_count g (N.of_nat a, N.of_nat b) mn mx = Ok g' /\
    represents g' (filter (fun r => (mn <=? N.of_nat (length r)) && (N.of_nat (length r) <=? mx))%N rs) /\ min_c g' = mn /\ max_c g' = mx.
Proof.
  intros Hg Hab Hb. unfold enforce_min_max_column_count. rewrite (valid_rows _ _ Hg), (proj2 (Nat.leb_le _ _) Hab), (proj2 (Nat.leb_le _ _) Hb). cbn [negb andb].
  rewrite (all_rows_ok _ _ Hg).
  destruct (remove_row_if_ok (fun _ ts => (N.of_nat (length ts) <? mn) || (mx <? N.of_nat (length ts)))%N g rs 0 (length rs) Hg ltac:(lia) ltac:(lia)) as (g' & E & Hr & _).
  rewrite E. cbn [bind]. eexists. split; [reflexivity|]. split; [|split; reflexivity].
  rewrite survivors_plain, slice_all, skipn_all, app_nil_r in Hr. cbn [firstn app] in Hr.
  rewrite (filter_ext _ (fun r => (mn <=? N.of_nat (length r)) && (N.of_nat (length r) <=? mx))%N) in Hr; [exact Hr|].
  intros r. rewrite negb_orb, !N.ltb_antisym, !negb_involutive. reflexivity.
Qed.
Lemma clear_ok g : represents (clear g) [].
Proof. split; [reflexivity|]. split; [reflexivity|]. split; [constructor|reflexivity]. Qed.

Lemma in_rows_false rs a b : in_rows rs a b = false -> b < a \/ length rs < b.
Proof. unfold in_rows. destruct (Nat.leb_spec a b), (Nat.leb_spec b (length rs)); cbn; intros; try discriminate; lia. Qed.
Lemma in_rows_true rs a b : in_rows rs a b = true -> a <= b /\ b <= length rs.
Proof. unfold in_rows. intros H. apply andb_true_iff in H as [H1 H2]. apply Nat.leb_le in H1, H2. auto. Qed.
Lemma run_op_ok g rs op : represents g rs -> exists g', run_op g op = Ok g' /\ represents g' (list_op rs op).
Proof.
  intros Hg. destruct op as [i|p a b|p a b|a b n|a b mn mx|]; cbn [run_op list_op].
  - destruct (remove_row_ok g rs i Hg) as (g' & E & H & _). eauto.
  - destruct (in_rows rs a b) eqn:Er.
    + apply in_rows_true in Er as [H1 H2]. destruct (remove_row_if_ok p g rs a b Hg H1 H2) as (g' & E & H & _). rewrite E. cbn. eauto.
    + apply in_rows_false in Er. rewrite (remove_row_if_bad p g rs a b Hg Er). cbn. eauto.
  - destruct (in_rows rs a b) eqn:Er.
    + apply in_rows_true in Er as [H1 H2]. destruct (remove_token_if_ok p g rs a b Hg H1 H2) as (g' & E & H & _). rewrite E. cbn. eauto.
    + apply in_rows_false in Er. rewrite (remove_token_if_bad p g rs a b Hg Er). cbn. eauto.
  - destruct (in_rows rs a b) eqn:Er.
    + apply in_rows_true in Er as [H1 H2]. destruct (enforce_ok g rs a b n Hg H1 H2) as (g' & E & H & _). eauto.
    + apply in_rows_false in Er. unfold enforce_column_count. rewrite (valid_rows _ _ Hg). exists g. split; [|exact Hg].
      destruct (Nat.leb_spec a b), (Nat.leb_spec b (length rs)); cbn; auto; lia.
  - destruct (in_rows rs a b) eqn:Er.
    + apply in_rows_true in Er as [H1 H2]. destruct (enforce_min_max_ok g rs a b mn mx Hg H1 H2) as (g' & E & H & _). eauto.
    + apply in_rows_false in Er. unfold enforce_min_max_column_count. rewrite (valid_rows _ _ Hg). exists g. split; [|exact Hg].
      destruct (Nat.leb_spec a b), (Nat.leb_spec b (length rs)); cbn; auto; lia.
  - eexists. split; [reflexivity|apply clear_ok].
Qed.
Lemma run_ops_ok ops : forall g rs, represents g rs -> exists g', run_ops g ops = Ok g' /\ represents g' (fold_left list_op ops rs).
Proof.
  induction ops as [|op ops IH]; intros g rs Hg; cbn [run_ops fold_left]; [eauto|].
  destruct (run_op_ok g rs op Hg) as (g1 & E & Hg1). rewrite E. cbn [bind]. now apply IH.
Qed.
