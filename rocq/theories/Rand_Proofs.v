(* Drawing without putting back: which draws give which selection. *)
From Coq Require Import Permutation.
From Verif Require Import Base Comb_Model Comb_Spec Comb_Proofs Comb_Proofs5.
Local Open Scope nat_scope.

(* the positions picked by the draws ds from index *)
Definition without (d : nat) (index : list nat) : list nat := firstn d index ++ skipn (S d) index.
Fixpoint picked (ds index : list nat) : option (list nat) :=
  match ds with
  | [] => Some []
  | d :: ds => match nth_error index d with
               | None => None
               | Some p => match picked ds (without d index) with Some ps => Some (p :: ps) | None => None end
               end
  end.
Lemma erase_without index d p : nth_error index d = Some p -> erase_at index d = Ok (without d index).
Proof.
  intros H. unfold erase_at. pose proof (nth_error_some_lt _ _ _ H). replace (d <? length index) with true by (symmetry; apply Nat.ltb_lt; auto). reflexivity.
Qed.
Lemma without_perm index d p : nth_error index d = Some p -> Permutation index (p :: without d index).
Proof. intros H. destruct (erase_ok _ _ _ H) as (s & E & P & _). rewrite (erase_without _ _ _ H) in E. congruence. Qed.
Lemma without_length index d p : nth_error index d = Some p -> length index = S (length (without d index)).
Proof. intros H. now rewrite (Permutation_length (without_perm _ _ _ H)). Qed.

Definition in_range (size : nat) (ds : list nat) : Prop := forall j d, nth_error ds j = Some d -> d < size - j.
Lemma in_range_cons size d ds : in_range size (d :: ds) <-> d < size /\ in_range (size - 1) ds.
Proof.
  split.
  - intros H. split; [specialize (H 0 d eq_refl); lia|]. intros j x Hx. specialize (H (S j) x Hx). lia.
  - intros [H0 H] [|j] x Hx; cbn in Hx; [injection Hx as ->; lia|]. specialize (H j x Hx). lia.
Qed.

Lemma picked_ok ds : forall index, in_range (length index) ds -> exists ps, picked ds index = Some ps.
Proof.
  induction ds as [|d ds IH]; intros index H; [exists []; reflexivity|]. apply in_range_cons in H as [H0 H]. cbn [picked].
  destruct (nth_error index d) as [p|] eqn:E; [|apply nth_error_None in E; lia].
  rewrite (without_length _ _ _ E) in H. cbn in H. rewrite Nat.sub_0_r in H. destruct (IH _ H) as (ps & ->). eauto.
Qed.
Lemma picked_sub ds : forall index ps, picked ds index = Some ps -> length ps = length ds /\ in_range (length index) ds /\ exists rest, Permutation (ps ++ rest) index.
Proof.
  induction ds as [|d ds IH]; intros index ps H; cbn [picked] in H.
  - injection H as <-. split; [reflexivity|]. split; [intros [|j] x Hx; discriminate|]. exists index. reflexivity.
  - destruct (nth_error index d) as [p|] eqn:E; [|discriminate]. destruct (picked ds (without d index)) as [qs|] eqn:Eq; [|discriminate].
    injection H as <-. destruct (IH _ _ Eq) as (Hl & Hr & rest & Hp). split; [cbn; congruence|]. split.
    + apply in_range_cons. rewrite (without_length _ _ _ E). pose proof (nth_error_some_lt _ _ _ E). rewrite (without_length _ _ _ E) in H.
      split; [exact H|]. cbn. now rewrite Nat.sub_0_r.
    + exists rest. cbn [app]. rewrite Hp. symmetry. now apply without_perm.
Qed.
Lemma picked_reach ps : forall index, NoDup ps -> incl ps index -> exists ds, picked ds index = Some ps.
Proof.
  induction ps as [|p ps IH]; intros index Hn Hi; [exists []; reflexivity|]. inversion Hn as [|? ? Hp Hn']; subst.
  destruct (In_nth_error index p (Hi p (or_introl eq_refl))) as (d & E).
  destruct (IH (without d index) Hn') as (ds & Eq).
  { intros q Hq. assert (In q index) as H by (apply Hi; now right). apply (Permutation_in _ (without_perm _ _ _ E)) in H. destruct H as [->|H]; [contradiction|exact H]. }
  exists (d :: ds). cbn [picked]. now rewrite E, Eq.
Qed.
Lemma picked_inj ds : forall ds' index ps, NoDup index -> picked ds index = Some ps -> picked ds' index = Some ps -> ds = ds'.
Proof.
  induction ds as [|d ds IH]; intros [|d' ds'] index ps Hn H H'; cbn [picked] in *.
  - reflexivity.
  - injection H as <-. destruct (nth_error index d'); [|discriminate]. destruct (picked ds' _); discriminate.
  - injection H' as <-. destruct (nth_error index d); [|discriminate]. destruct (picked ds _); discriminate.
  - destruct (nth_error index d) as [p|] eqn:E; [|discriminate]. destruct (picked ds (without d index)) as [qs|] eqn:Eq; [|discriminate].
    destruct (nth_error index d') as [p'|] eqn:E'; [|discriminate]. destruct (picked ds' (without d' index)) as [qs'|] eqn:Eq'; [|discriminate].
    assert (p' = p /\ qs' = qs /\ ps = p :: qs) as (-> & -> & ->) by (split; [|split]; congruence).
    assert (d = d'). { apply (proj1 (NoDup_nth_error index)); [exact Hn|eapply nth_error_some_lt; eauto|congruence]. }
    subst d'. f_equal. apply (IH ds' (without d index) qs); auto.
    apply (Permutation_NoDup (without_perm _ _ _ E)) in Hn. now inversion Hn.
Qed.


Section Loops.
Context {T : Type}.
Variable s : list T.
Variable draw : nat -> nat.

Lemma perm_loop ds : forall index out n ps xs fuel, (forall j, j < length ds -> draw (n + j) = nth j ds 0) -> length index = length ds ->
  picked ds index = Some ps -> at_positions s ps xs -> length ds < fuel ->
  loop fuel
    (fun '(index, out, n) =>
       if length index =? 0 then Ok (inr out)
       else
         let idx := draw n in
         p <- rd index idx ;; e <- rd s p ;;
         index <- erase_at index idx ;;
         Ok (inl (index, out ++ [e], S n))) (index, out, n) = Ok (out ++ xs).
Proof.
  induction ds as [|d ds IH]; intros index out n ps xs fuel Hd Hl Hp Ha Hf; (destruct fuel as [|fuel]; [cbn in Hf; lia|]); cbn [picked] in Hp.
  - injection Hp as <-. inversion Ha. rewrite app_nil_r. cbn [loop]. cbn in Hl. rewrite Hl. reflexivity.
  - destruct (nth_error index d) as [p|] eqn:E; [|discriminate]. destruct (picked ds (without d index)) as [qs|] eqn:Eq; [|discriminate].
    injection Hp as <-. inversion Ha as [|? x ? ys Hx Ha']; subst. cbn [loop]. rewrite Hl. cbn [length Nat.eqb]. cbv zeta.
    assert (Ed : draw n = d) by (specialize (Hd 0 ltac:(cbn; lia)); rewrite Nat.add_0_r in Hd; exact Hd). rewrite Ed.
    rewrite (rd_nth _ _ _ E). cbn [bind]. rewrite (rd_nth _ _ _ Hx). cbn [bind]. rewrite (erase_without _ _ _ E). cbn [bind].
    rewrite (IH _ _ (S n) qs ys fuel); auto.
    + rewrite <- app_assoc. reflexivity.
    + intros j Hj. specialize (Hd (S j) ltac:(cbn; lia)). cbn [nth] in Hd. rewrite <- Hd. f_equal. lia.
    + rewrite (without_length _ _ _ E) in Hl. cbn in Hl. lia.
    + cbn in Hf. lia.
Qed.
Lemma comb_loop ds : forall index out n ps xs fuel, (forall j, j < length ds -> draw (n + j) = nth j ds 0) ->
  picked ds index = Some ps -> at_positions s ps xs -> length ds < fuel ->
  loop fuel
      (fun '(index, out, n, set_size) =>
         if set_size =? 0 then Ok (inr (Some out))
         else
           let idx := draw n in
           p <- rd index idx ;; e <- rd s p ;;
           index <- erase_at index idx ;;
           Ok (inl (index, out ++ [e], S n, set_size - 1)))
      (index, out, n, length ds) = Ok (Some (out ++ xs)).
Proof.
  induction ds as [|d ds IH]; intros index out n ps xs fuel Hd Hp Ha Hf; (destruct fuel as [|fuel]; [cbn in Hf; lia|]); cbn [picked] in Hp.
  - injection Hp as <-. inversion Ha. rewrite app_nil_r. reflexivity.
  - destruct (nth_error index d) as [p|] eqn:E; [|discriminate]. destruct (picked ds (without d index)) as [qs|] eqn:Eq; [|discriminate].
    injection Hp as <-. inversion Ha as [|? x ? ys Hx Ha']; subst. cbn [loop length Nat.eqb]. cbv zeta.
    assert (Ed : draw n = d) by (specialize (Hd 0 ltac:(cbn; lia)); rewrite Nat.add_0_r in Hd; exact Hd). rewrite Ed.
    rewrite (rd_nth _ _ _ E). cbn [bind]. rewrite (rd_nth _ _ _ Hx). cbn [bind]. rewrite (erase_without _ _ _ E). cbn [bind Nat.sub]. rewrite Nat.sub_0_r.
    rewrite (IH _ _ (S n) qs ys fuel); auto.
    + rewrite <- app_assoc. reflexivity.
    + intros j Hj. specialize (Hd (S j) ltac:(cbn; lia)). cbn [nth] in Hd. rewrite <- Hd. f_equal. lia.
    + cbn in Hf. lia.
Qed.
End Loops.

Lemma at_unique {A} (s : list A) ps qs xs : NoDup s -> at_positions s ps xs -> at_positions s qs xs -> ps = qs.
Proof.
  intros Hn H. revert qs. induction H as [|p x ps xs Hp _ IH]; intros qs H'; inversion H' as [|q ? qs' ? Hq H2]; subst; [reflexivity|].
  f_equal; [|auto]. apply (proj1 (NoDup_nth_error s)); [exact Hn|eapply nth_error_some_lt; eauto|congruence].
Qed.
Lemma perm_positions {A} (s xs : list A) : Permutation xs s -> exists ps, at_positions s ps xs /\ Permutation ps (seq 0 (length s)).
Proof.
  intros P. destruct s as [|d s0] eqn:Es; [apply Permutation_sym, Permutation_nil in P; subst xs; exists []; split; constructor|]. rewrite <- Es in *. clear s0 Es.
  pose proof (map_nth_seq d s) as M. rewrite <- M in P at 1.
  destruct (Permutation_map_inv _ _ P) as (ps & -> & P2). exists ps. split; [|now symmetry].
  assert (F : Forall (fun p => p < length s) ps) by (apply Forall_forall; intros p Hp; apply (Permutation_in _ (Permutation_sym P2)) in Hp; apply in_seq in Hp; lia).
  clear -F. induction F as [|p ps Hp F IH]; constructor; auto. apply nth_error_nth'. exact Hp.
Qed.
Lemma distinct_at {A} (s xs : list A) : distinct_positions s xs -> exists ps, NoDup ps /\ at_positions s ps xs /\ Forall (fun p => p < length s) ps.
Proof.
  intros (ps & Hn & Hl & H). exists ps. split; [exact Hn|].
  clear Hn. revert xs Hl H. induction ps as [|p ps IH]; intros [|x xs] Hl H; cbn in Hl; try lia; [split; constructor|].
  destruct (IH xs) as [H1 H2]; [lia|intros i Hi; exact (H (S i) ltac:(cbn; lia))|].
  destruct (H 0 ltac:(cbn; lia)) as (q & E & Ex & Hq). cbn in E, Ex. assert (q = p) by congruence. subst q. split; constructor; auto.
Qed.


Lemma fair_permutation {T} (s p : list T) : NoDup s -> Permutation p s ->
  exists! ds, (length ds = length s /\ in_range (length s) ds) /\ random_permutation (fun n => nth n ds 0) s = Ok p.
Proof.
  intros Hn P. destruct (perm_positions s p P) as (ps & Ha & Hp).
  assert (NoDup ps) as Hnp by (eapply Permutation_NoDup; [symmetry; exact Hp|apply seq_NoDup]).
  destruct (picked_reach ps (seq 0 (length s)) Hnp) as (ds & E); [intros q Hq; eapply Permutation_in; eauto|].
  destruct (picked_sub _ _ _ E) as (Hl & Hr & _). rewrite seq_length in Hr.
  assert (El : length ds = length s) by (rewrite <- Hl, (Permutation_length Hp), seq_length; reflexivity).
  exists ds. split.
  - split; [auto|]. unfold random_permutation. rewrite (perm_loop s _ ds _ _ _ ps p); auto; [rewrite seq_length; auto|lia].
  - intros ds' ((El' & Hr') & E'). destruct (picked_ok ds' (seq 0 (length s))) as (ps' & Ep'); [rewrite seq_length; exact Hr'|].
    destruct (picked_sub _ _ _ Ep') as (Hl' & _ & rest & Hp').
    destruct (at_ex s ps') as (xs & Hx). { intros q Hq. enough (In q (seq 0 (length s))) as H by (apply in_seq in H; lia). eapply Permutation_in; [exact Hp'|]. apply in_or_app. auto. }
    unfold random_permutation in E'. rewrite (perm_loop s _ ds' _ _ _ ps' xs) in E'; auto; [|rewrite seq_length; auto|lia].
    cbn [app] in E'. assert (xs = p) by congruence. subst xs.
    assert (ps' = ps) as -> by exact (at_unique s _ _ _ Hn Hx Ha). eapply picked_inj; [|exact E|exact Ep']. apply seq_NoDup.
Qed.
Lemma fair_combination {T} (s xs : list T) : NoDup s -> distinct_positions s xs ->
  exists! ds, (length ds = length xs /\ in_range (length s) ds) /\ random_combination (fun n => nth n ds 0) s (length xs) = Ok (Some xs).
Proof.
  intros Hn P. destruct (distinct_at s xs P) as (ps & Hnp & Ha & Hp).
  assert (Hi : incl ps (seq 0 (length s))) by (intros q Hq; apply in_seq; rewrite Forall_forall in Hp; specialize (Hp q Hq); lia).
  destruct (picked_reach ps (seq 0 (length s)) Hnp Hi) as (ds & E).
  destruct (picked_sub _ _ _ E) as (Hl & Hr & _). rewrite seq_length in Hr.
  assert (El : length ds = length xs) by (rewrite <- Hl; exact (Forall2_length Ha)).
  assert (Hle : length xs <= length s) by (rewrite <- El, <- Hl, <- (seq_length (length s) 0); now apply NoDup_incl_length).
  exists ds. unfold random_combination. replace (length s <? length xs) with false by (symmetry; apply Nat.ltb_ge; lia). split.
  - split; [auto|]. rewrite <- El. rewrite (comb_loop s _ ds _ _ _ ps xs); auto.
  - intros ds' ((El' & Hr') & E'). destruct (picked_ok ds' (seq 0 (length s))) as (ps' & Ep'); [rewrite seq_length; exact Hr'|].
    destruct (picked_sub _ _ _ Ep') as (Hl' & _ & rest & Hp').
    destruct (at_ex s ps') as (ys & Hx). { intros q Hq. enough (In q (seq 0 (length s))) as H by (apply in_seq in H; lia). eapply Permutation_in; [exact Hp'|]. apply in_or_app. auto. }
    rewrite <- El' in E'. rewrite (comb_loop s _ ds' _ _ _ ps' ys) in E'; auto.
    cbn [app] in E'. assert (ys = xs) by congruence. subst ys.
    assert (ps' = ps) as -> by exact (at_unique s _ _ _ Hn Hx Ha). eapply picked_inj; [|exact E|exact Ep']. apply seq_NoDup.
Qed.
