(* The sequences of draws that give a selection, for the code. *)
From Coq Require Import Permutation Factorial.
From Verif Require Import Base Comb_Model Comb_Spec Comb_Proofs Comb_Proofs5 Rand_Spec2 Rand_Proofs Rand_Proofs2 Rand_Proofs3 Rand_Proofs4.
Local Open Scope nat_scope.

Section Fill.
Context {T : Type}.
Variable s : list T.
Variable k : nat.
Variable f : nat -> nat.
Lemma fill_held rs : forall itr sel ps, k <= itr -> itr + length rs <= length s -> (forall i, i < length rs -> f (itr - k + i) = nth i rs 0) ->
  at_positions s ps sel -> length ps = k ->
  exists out, for_up itr (length rs)
      (fun itr sel =>
         if f (itr - k) <? k then e <- rd s itr ;; wr sel (f (itr - k)) e else Ok sel) sel = Ok out /\ at_positions s (kept k itr rs ps) out.
Proof.
  induction rs as [|r rs IH]; intros itr sel ps Hk Hl Hf Ha Hp; cbn [length for_up kept].
  - eauto.
  - cbn [length] in Hl. assert (E0 : f (itr - k) = r) by (specialize (Hf 0 ltac:(cbn; lia)); now rewrite Nat.add_0_r in Hf). rewrite E0.
    assert (Hls : length sel = k) by (rewrite <- (Comb_Proofs5.Forall2_length Ha); auto).
    assert (Hf2 : forall i, i < length rs -> f (S itr - k + i) = nth i rs 0).
    { intros i Hi. specialize (Hf (S i) ltac:(cbn; lia)). cbn [nth] in Hf. rewrite <- Hf. f_equal. lia. }
    unfold replace_one. destruct (Nat.ltb_spec r k) as [Hr|Hr].
    + destruct (nth_error s itr) as [e|] eqn:Ee; [|apply nth_error_None in Ee; lia]. rewrite (rd_nth _ _ _ Ee). cbn [bind]. rewrite wr_ok by lia. cbn [bind].
      apply IH; auto; try lia; [apply at_upd; auto|now rewrite upd_length].
    + cbn [bind]. apply IH; auto; lia.
Qed.
End Fill.

Lemma select_k_held {T} (d : T) (s : list T) k rs : 0 < k -> k <= length s -> length rs = length s - k ->
  exists out, select_k_randomly d (fun n => nth n rs 0 <? k) (fun n => nth n rs 0) s k = Ok (out, k) /\ at_positions s (held k rs) out.
Proof.
  intros H0 Hk Hl. unfold select_k_randomly. rewrite select_fill. cbn [bind]. replace (Nat.min k (length s)) with k by lia.
  replace (k =? 0) with false by (symmetry; apply Nat.eqb_neq; lia). rewrite Nat.ltb_irrefl.
  replace (k - length s) with 0 by lia. cbn [repeat]. rewrite app_nil_r, <- Hl.
  destruct (fill_held s k (fun n => nth n rs 0) rs k (firstn k s) (seq 0 k)) as (out & -> & Ha); try lia.
  - intros i _. now rewrite Nat.sub_diag.
  - replace (seq 0 k) with (firstn k (seq 0 (length s))); [apply at_firstn, at_seq|].
    replace (length s) with (k + (length s - k)) by lia. rewrite seq_app. rewrite <- (seq_length k 0) at 1. apply firstn_app_len.
  - apply seq_length.
  - exists out. split; [reflexivity|exact Ha].
Qed.

Lemma at_members {T} (s l : list T) : incl l s -> exists ps, at_positions s ps l.
Proof.
  induction l as [|x l IH]; intros H; [exists []; constructor|]. destruct IH as (ps & Hp); [intros y Hy; apply H; now right|].
  destruct (In_nth_error s x (H x (or_introl eq_refl))) as (p & E). exists (p :: ps). now constructor.
Qed.
Lemma at_permuted_back {T} (s : list T) ps qs xs ys : NoDup s -> at_positions s ps xs -> at_positions s qs ys -> Permutation xs ys -> Permutation ps qs.
Proof.
  intros Hn Hx Hy P. revert ps qs Hx Hy. induction P as [|x l l' P IH|x y l|l l' l'' P1 IH1 P2 IH2]; intros ps qs Hx Hy.
  - inversion Hx; inversion Hy; constructor.
  - inversion Hx as [|p ? ps' ? Ep Hx']; inversion Hy as [|q ? qs' ? Eq Hy']; subst.
    assert (p = q). { apply (proj1 (NoDup_nth_error s)); [exact Hn|eapply nth_error_some_lt; eauto|congruence]. } subst q. constructor. auto.
  - inversion Hx as [|p1 ? ps1 ? E1 Hx1]; subst. inversion Hx1 as [|p2 ? ps2 ? E2 Hx2]; subst.
    inversion Hy as [|q1 ? qs1 ? F1 Hy1]; subst. inversion Hy1 as [|q2 ? qs2 ? F2 Hy2]; subst.
    assert (p1 = q2). { apply (proj1 (NoDup_nth_error s)); [exact Hn|eapply nth_error_some_lt; eauto|congruence]. }
    assert (p2 = q1). { apply (proj1 (NoDup_nth_error s)); [exact Hn|eapply nth_error_some_lt; eauto|congruence]. }
    assert (ps2 = qs2) by (eapply at_unique; eauto). subst. apply perm_swap.
  - destruct (at_members s l') as (rs & Hr); [|eapply Permutation_trans; [apply IH1|apply IH2]; eauto].
    intros x Hi. apply (Permutation_in _ (Permutation_sym P1)) in Hi. clear - Hx Hi.
    induction Hx as [|p y ps l E _ IH]; [destruct Hi|]. destruct Hi as [<-|Hi]; [eapply nth_error_In; eauto|auto].
Qed.

Lemma count_select_k {T} (d : T) (s xs : list T) : NoDup s -> distinct_positions s xs ->
  there_are (fact (length s - length xs)) (fun rs => rising (S (length xs)) (length s - length xs) rs /\
    exists out, select_k_randomly d (fun n => nth n rs 0 <? length xs) (fun n => nth n rs 0) s (length xs) = Ok (out, length xs) /\ Permutation out xs).
Proof.
  intros Hn Hd. destruct (distinct_at s xs Hd) as (qs & Hnq & Hat & Hlt). pose proof (Comb_Proofs5.Forall2_length Hat) as Hlq.
  assert (Hi : incl qs (seq 0 (length s))) by (intros q Hq; apply in_seq; rewrite Forall_forall in Hlt; specialize (Hlt q Hq); lia).
  pose proof (NoDup_incl_length Hnq Hi) as Hle. rewrite seq_length in Hle.
  eapply are_iff; [|apply (held_count (length xs) (length s - length xs) qs Hnq Hlq)].
  - intros rs. cbv beta. split; intros (H & Hp); (split; [exact H|]).
    + destruct xs as [|x0 xs0] eqn:Exs.
      { exists []. split; [|constructor]. unfold select_k_randomly. rewrite select_fill. reflexivity. }
      rewrite <- Exs in *. assert (0 < length xs) by (rewrite Exs; cbn; lia). clear x0 xs0 Exs.
      destruct (select_k_held d s (length xs) rs) as (out & E & Ha); [lia|lia|apply H|]. exists out. split; [exact E|]. eapply at_permuted; eauto.
    + destruct Hp as (out & E & Hp). destruct xs as [|x0 xs0] eqn:Exs.
      { destruct (held_ok 0 rs) as (_ & L & _). cbn in *. apply length_zero_iff_nil in L, Hlq. rewrite L, Hlq. constructor. }
      rewrite <- Exs in *. assert (0 < length xs) by (rewrite Exs; cbn; lia). clear x0 xs0 Exs.
      destruct (select_k_held d s (length xs) rs) as (out' & E' & Ha); [lia|lia|apply H|]. assert (out' = out) by congruence. subst out'. exact (at_permuted_back s _ _ _ _ Hn Ha Hat Hp).
  - intros q Hq. rewrite Forall_forall in Hlt. specialize (Hlt q Hq). lia.
Qed.

(* the last draw that is 0 *)
Fixpoint last_zero (t : nat) (rs : list nat) (i : option nat) : option nat :=
  match rs with
  | [] => i
  | r :: rs => last_zero (S t) rs (if r =? 0 then Some t else i)
  end.
Lemma last_zero_snoc rs r : forall t i, last_zero t (rs ++ [r]) i = if r =? 0 then Some (t + length rs) else last_zero t rs i.
Proof.
  induction rs as [|r0 rs IH]; intros t i; cbn [app last_zero length]; [rewrite Nat.add_0_r; reflexivity|]. rewrite IH. replace (t + S (length rs)) with (S t + length rs) by lia. reflexivity.
Qed.
Lemma count_last_zero m : forall i, i < m -> there_are (fact (m - 1)) (fun rs => rising 1 m rs /\ last_zero 0 rs None = Some i).
Proof.
  induction m as [|m IH]; intros i Hi; [lia|]. replace (S m - 1) with m by lia.
  destruct (Nat.eq_dec i m) as [->|Ne].
  - eapply are_iff; [|apply (are_image _ _ (fun rs => rs ++ [0]) ltac:(intros a b _ _ E; apply app_inj_tail in E as [E _]; exact E) (rising_count m))].
    intros rs. cbv beta. split.
    + intros (rs' & H & ->). split; [apply rising_snoc; split; [exact H|lia]|]. rewrite last_zero_snoc. cbn. destruct H as [-> _]. reflexivity.
    + intros (H & E). destruct (rising_last _ _ _ H) as (rs' & r & ->). apply rising_snoc in H as [H Hr]. exists rs'. split; [exact H|].
      rewrite last_zero_snoc in E. destruct (Nat.eqb_spec r 0) as [R0|Nr]; [rewrite R0; reflexivity|]. exfalso.
      assert (G : forall rs t i0 i, last_zero t rs i0 = Some i -> i0 = Some i \/ i < t + length rs).
      { clear. induction rs as [|r rs IH]; intros t i0 i E; cbn [last_zero length] in *; [now left|]. apply IH in E as [E|E]; [|right; lia].
        destruct (r =? 0); [|now left]. right. assert (t = i) by congruence. lia. }
      apply G in E as [E|E]; [discriminate|]. destruct H as [Hl _]. lia.
  - assert (Hm : i < m) by lia. specialize (IH i Hm). replace (fact m) with (length (seq 1 m) * fact (m - 1)) by (rewrite seq_length; destruct m; [lia|]; cbn [Nat.sub fact]; rewrite Nat.sub_0_r; reflexivity).
    eapply are_iff; [|apply (are_union (fact (m - 1)) (seq 1 m) (fun r rs => exists rs', (rising 1 m rs' /\ last_zero 0 rs' None = Some i) /\ rs = rs' ++ [r])); [apply seq_NoDup| |]].
    + intros rs. cbv beta. split.
      * intros (r & Hr & rs' & (H & E) & ->). apply in_seq in Hr. split; [apply rising_snoc; split; [exact H|lia]|]. rewrite last_zero_snoc.
        replace (r =? 0) with false by (symmetry; apply Nat.eqb_neq; lia). exact E.
      * intros (H & E). destruct (rising_last _ _ _ H) as (rs' & r & ->). apply rising_snoc in H as [H Hr]. rewrite last_zero_snoc in E.
        destruct (Nat.eqb_spec r 0) as [R0|Nr]; [destruct H as [Hl _]; exfalso; assert (0 + length rs' = i) by congruence; lia|].
        exists r. split; [apply in_seq; lia|]. eauto.
    + intros r _. apply (are_image _ _ (fun rs' => rs' ++ [r])); [|exact IH]. intros x y _ _ E. apply app_inj_tail in E as [E _]. exact E.
    + intros r r' rs (a & _ & ->) (b & _ & E). apply app_inj_tail in E as [_ E]. exact E.
Qed.
Lemma select_1_last {T} (s : list T) f rs : forall t i0 , t + length rs = length s -> (forall i, i < length rs -> f (t + i) = nth i rs 0) ->
  (forall j, i0 = Some j -> j < length s) ->
  for_up t (length rs) (fun itr sel => if f itr =? 0 then e <- rd s itr ;; Ok (Some e) else Ok sel)
    (match i0 with Some j => nth_error s j | None => None end) = Ok (match last_zero t rs i0 with Some j => nth_error s j | None => None end).
Proof.
  induction rs as [|r rs IH]; intros t i0 Hl Hf H0; cbn [length for_up last_zero]; [reflexivity|]. cbn [length] in Hl.
  assert (E0 : f t = r) by (specialize (Hf 0 ltac:(cbn; lia)); now rewrite Nat.add_0_r in Hf). rewrite E0.
  assert (Hf2 : forall i, i < length rs -> f (S t + i) = nth i rs 0).
  { intros i Hi. specialize (Hf (S i) ltac:(cbn; lia)). cbn [nth] in Hf. rewrite <- Hf. f_equal. lia. }
  destruct (Nat.eqb_spec r 0) as [Hr|Hr].
  - destruct (nth_error s t) as [e|] eqn:Ee; [|apply nth_error_None in Ee; lia]. rewrite (rd_nth _ _ _ Ee). cbn [bind].
    rewrite <- Ee. apply (IH (S t) (Some t)); [lia|exact Hf2|]. intros j E. assert (t = j) by congruence. lia.
  - cbn [bind]. apply IH; [lia|exact Hf2|exact H0].
Qed.
Lemma count_select_1 {T} (s : list T) x : NoDup s -> In x s ->
  there_are (fact (length s - 1)) (fun rs => rising 1 (length s) rs /\ select_1_randomly (fun n => nth n rs 0 =? 0) s = Ok [x]).
Proof.
  intros Hn Hx. destruct (In_nth_error s x Hx) as (i & Ei). pose proof (nth_error_some_lt _ _ _ Ei) as Hi.
  eapply are_iff; [|apply (count_last_zero (length s) i Hi)]. intros rs. cbv beta.
  assert (G : rising 1 (length s) rs -> select_1_randomly (fun n => nth n rs 0 =? 0) s = match last_zero 0 rs None with Some j => match nth_error s j with Some e => Ok [e] | None => UB end | None => UB end).
  { intros (Hl & _). unfold select_1_randomly. replace (length s =? 0) with false by (symmetry; apply Nat.eqb_neq; lia).
    pose proof (select_1_last s (fun n => nth n rs 0) rs 0 None) as E. rewrite Hl in E. rewrite E; [|lia|intros; reflexivity|discriminate]. cbn [bind].
    destruct (last_zero 0 rs None) as [j|]; [|reflexivity]. reflexivity. }
  split; intros (H & E); (split; [exact H|]); rewrite (G H) in *.
  - rewrite E, Ei. reflexivity.
  - destruct (last_zero 0 rs None) as [j|]; [|discriminate]. destruct (nth_error s j) as [e|] eqn:Ej; [|discriminate]. assert (e = x) by congruence. subst e.
    f_equal. apply (proj1 (NoDup_nth_error s)); [exact Hn|eapply nth_error_some_lt; eauto|congruence].
Qed.
