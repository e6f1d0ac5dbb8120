(* Overloads of nth_combination / nth_permutation over ranges; random selection. *)
From Verif Require Import Base Comb_Model Comb_Spec Comb_Proofs Comb_Proofs2 Comb_Proofs3 Comb_Proofs4.
From Coq Require Import Permutation.

Lemma Forall2_length {A B} (P : A -> B -> Prop) l l' : Forall2 P l l' -> length l = length l'.
Proof. induction 1; simpl; congruence. Qed.
Arguments Forall2_length {A B P l l'}.

(* xs are the elements of s at the positions ps *)
Definition at_positions {A} (s : list A) (ps : list nat) (xs : list A) : Prop :=
  Forall2 (fun p x => nth_error s p = Some x) ps xs.

Lemma at_ex {A} (s : list A) ps : (forall p, In p ps -> p < length s) -> exists xs, at_positions s ps xs.
Proof.
  induction ps as [|p ps IH]; intros H; [exists []; constructor|].
  destruct IH as (xs & Hx); [intros; apply H; right; auto|].
  destruct (nth_error s p) as [x|] eqn:E.
  - exists (x :: xs). constructor; auto.
  - apply nth_error_None in E. specialize (H p (or_introl eq_refl)). lia.
Qed.

Lemma at_map {A} (d : A) s ps xs : at_positions s ps xs -> xs = map (fun p => nth p s d) ps.
Proof.
  induction 1 as [|p x ps xs H _ IH]; [reflexivity|]. simpl. rewrite <- IH. f_equal.
  symmetry. apply nth_error_nth. exact H.
Qed.

Lemma map_nth_seq {A} (d : A) s : map (fun p => nth p s d) (seq 0 (length s)) = s.
Proof.
  induction s as [|x s IH]; [reflexivity|]. cbn [length seq map nth]. f_equal.
  rewrite <- seq_shift, map_map. exact IH.
Qed.

Lemma at_seq {A} (s : list A) : at_positions s (seq 0 (length s)) s.
Proof.
  unfold at_positions. enough (forall a b, s = a ++ b -> Forall2 (fun p x => nth_error s p = Some x) (seq (length a) (length b)) b) as H
   by (apply (H [] s); reflexivity).
  intros a b. revert a. induction b as [|x b IH]; intros a E; [constructor|].
  cbn [length seq]. constructor.
  - rewrite E, nth_error_app2, Nat.sub_diag by lia. reflexivity.
  - replace (S (length a)) with (length (a ++ [x])) by (rewrite app_length; simpl; lia). apply IH.
    rewrite <- app_assoc. exact E.
Qed.

Lemma at_perm {A} (s : list A) ps xs : at_positions s ps xs -> Permutation ps (seq 0 (length s)) -> Permutation xs s.
Proof.
  intros H P. destruct s as [|d s'] eqn:Es.
  - apply Permutation_sym, Permutation_nil in P. subst ps. inversion H. constructor.
  - rewrite <- Es in *. rewrite (at_map d s ps xs H).
    transitivity (map (fun p => nth p s d) (seq 0 (length s))); [apply Permutation_map; exact P|].
    rewrite map_nth_seq. reflexivity.
Qed.

Lemma at_distinct {A} (s : list A) ps xs : at_positions s ps xs -> NoDup ps -> distinct_positions s xs.
Proof.
  intros H Hn. exists ps. split; auto.
  assert (length ps = length xs) as El by (eapply Forall2_length; eauto). split; auto.
  intros i Hi. revert xs H El i Hi. clear Hn. induction ps as [|p ps IH]; intros xs H El i Hi; simpl in Hi; [lia|].
  inversion H as [|p' x ps' xs' Hx Hrest]; subst. destruct i.
  - exists p. cbn. split; [reflexivity|]. split; [exact Hx|]. apply nth_error_Some. congruence.
  - cbn. apply IH; auto; simpl in El; lia.
Qed.

Lemma gather_ok {A} (s : list A) (ps : list nat) xs : at_positions s ps xs ->
  for_up 0 (length (map N.of_nat ps))
    (fun i acc => v <- rd (map N.of_nat ps) i ;; e <- rdN s v ;; Ok (acc ++ [e])) [] = Ok xs.
Proof.
  intros H. rewrite map_length. apply holds_eq.
  assert (length ps = length xs) as El by (eapply Forall2_length; eauto).
  pose proof (for_up_rule (S := list A) (fun i acc => acc = firstn i xs)
    (fun i acc => v <- rd (map N.of_nat ps) i ;; e <- rdN s v ;; Ok (acc ++ [e])) (length ps) 0) as R.
  eapply holds_weaken; [apply R|].
  - intros i acc Hi ->. destruct (nth_error ps i) as [p|] eqn:Ep; [|apply nth_error_None in Ep; lia].
    assert (exists x, nth_error xs i = Some x /\ nth_error s p = Some x) as (x & Ex & Esx).
    { clear -H Ep. revert i Ep. induction H as [|p' x' ps xs Hx _ IH]; intros i Ep; destruct i; try discriminate; cbn in *.
      - injection Ep as <-. eauto.
      - auto. }
    rewrite (rd_nth _ i (N.of_nat p)) by (rewrite nth_error_map, Ep; reflexivity). cbn [bind].
    rewrite (rdN_ok s (N.of_nat p) x) by (rewrite Nat2N.id; exact Esx). cbn [bind holds].
    symmetry. apply firstn_S_nth. exact Ex.
  - reflexivity.
  - intros acc ->. cbn [plus]. rewrite El. apply firstn_all.
Qed.

(* erase *)
Lemma erase_ok {T} (s : list T) i x : nth_error s i = Some x ->
  exists s', erase_at s i = Ok s' /\ Permutation s (x :: s') /\ length s = S (length s').
Proof.
  intros H. unfold erase_at. assert (i < length s) as Hi by (apply nth_error_Some; congruence).
  replace (i <? length s) with true by (symmetry; apply Nat.ltb_lt; auto).
  eexists. split; [reflexivity|].
  assert (s = firstn i s ++ x :: skipn (S i) s) as E by (rewrite <- (skipn_nth_cons _ _ _ H), firstn_skipn; reflexivity).
  split.
  - rewrite E at 1. symmetry. apply Permutation_middle.
  - rewrite E at 1. rewrite !app_length. simpl. lia.
Qed.

Lemma random_permutation_ok {T} (draw : nat -> nat) (s : list T) :
  (forall n, n < length s -> draw n < length s - n) ->
  exists out, random_permutation draw s = Ok out /\ Permutation out s.
Proof.
  intros Hd. apply holds_ex. unfold random_permutation.
  apply (loop_rule (fun '(index, out, n) => exists ps, at_positions s ps out /\
           Permutation (ps ++ index) (seq 0 (length s)) /\ n = length ps /\ n + length index = length s)
     (fun '(index, out, n) => length index)).
  - intros [[index out] n] (ps & Hat & Hp & -> & El).
    destruct (length index =? 0) eqn:E.
    + apply Nat.eqb_eq in E. destruct index; [|discriminate]. rewrite app_nil_r in Hp. cbn. eapply at_perm; eauto.
    + apply Nat.eqb_neq in E. cbv zeta.
      specialize (Hd (length ps) ltac:(lia)).
      destruct (nth_error index (draw (length ps))) as [p|] eqn:Ep; [|apply nth_error_None in Ep; lia].
      rewrite (rd_nth _ _ _ Ep). cbn [bind].
      assert (p < length s) as Hps.
      { enough (In p (seq 0 (length s))) as Hin by (apply in_seq in Hin; lia).
        eapply Permutation_in; [exact Hp|]. apply in_or_app. right. eapply nth_error_In; eauto. }
      destruct (nth_error s p) as [e|] eqn:Ee; [|apply nth_error_None in Ee; lia].
      rewrite (rd_nth _ _ _ Ee). cbn [bind].
      destruct (erase_ok _ _ _ Ep) as (index' & -> & Hp' & Hl'). cbn [bind holds]. split; [|lia].
      exists (ps ++ [p]). split; [apply Forall2_app; auto|]. split.
      * rewrite <- app_assoc. cbn [app]. rewrite <- Hp. apply Permutation_app_head. symmetry. exact Hp'.
      * rewrite app_length. cbn [length]. lia.
  - exists []. split; [constructor|]. split; [reflexivity|]. split; [reflexivity|]. apply seq_length.
  - rewrite seq_length. lia.
Qed.

Lemma random_combination_ok {T} (draw : nat -> nat) (s : list T) k :
  (forall n, n < length s -> draw n < length s - n) ->
  (k <= length s -> exists out, random_combination draw s k = Ok (Some out) /\ length out = k /\ distinct_positions s out) /\
  (length s < k -> random_combination draw s k = Ok None).
Proof.
  intros Hd. unfold random_combination. split; intros Hk.
  2:{ replace (length s <? k) with true by (symmetry; apply Nat.ltb_lt; lia). reflexivity. }
  replace (length s <? k) with false by (symmetry; apply Nat.ltb_ge; lia).
  enough (holds (loop (S k)
      (fun '(index, out, n, set_size) =>
         if set_size =? 0 then Ok (inr (Some out))
         else
           let idx := draw n in
           p <- rd index idx ;; e <- rd s p ;;
           index <- erase_at index idx ;;
           Ok (inl (index, out ++ [e], S n, set_size - 1)))
      (seq 0 (length s), [], 0, k))
    (fun r => exists out, r = Some out /\ length out = k /\ distinct_positions s out)) as H.
  { apply holds_ex in H. destruct H as (r & E & out & -> & Hl & Hout). exists out. split; [exact E|auto]. }
  apply (loop_rule (fun '(index, out, n, m) => exists ps, at_positions s ps out /\
           Permutation (ps ++ index) (seq 0 (length s)) /\ n = length ps /\ n + length index = length s /\ n + m = k)
     (fun '(index, out, n, m) => m)).
  - intros [[[index out] n] m] (ps & Hat & Hp & -> & El & Em).
    destruct (m =? 0) eqn:E.
    + apply Nat.eqb_eq in E. subst m. exists out. split; [reflexivity|].
      split; [rewrite <- (Forall2_length Hat); lia|]. eapply at_distinct; eauto.
      assert (NoDup (ps ++ index)) as Hn by (eapply Permutation_NoDup; [symmetry; exact Hp|apply seq_NoDup]).
      clear -Hn. induction ps as [|p ps IH]; [constructor|]. simpl in Hn. inversion Hn; subst. constructor; auto.
      intros Hin. apply H1. apply in_or_app. auto.
    + apply Nat.eqb_neq in E. cbv zeta.
      specialize (Hd (length ps) ltac:(lia)).
      destruct (nth_error index (draw (length ps))) as [p|] eqn:Ep; [|apply nth_error_None in Ep; lia].
      rewrite (rd_nth _ _ _ Ep). cbn [bind].
      assert (p < length s) as Hps.
      { enough (In p (seq 0 (length s))) as Hin by (apply in_seq in Hin; lia).
        eapply Permutation_in; [exact Hp|]. apply in_or_app. right. eapply nth_error_In; eauto. }
      destruct (nth_error s p) as [e|] eqn:Ee; [|apply nth_error_None in Ee; lia].
      rewrite (rd_nth _ _ _ Ee). cbn [bind].
      destruct (erase_ok _ _ _ Ep) as (index' & -> & Hp' & Hl'). cbn [bind holds]. split; [|lia].
      exists (ps ++ [p]). split; [apply Forall2_app; auto|]. split.
      * rewrite <- app_assoc. cbn [app]. rewrite <- Hp. apply Permutation_app_head. symmetry. exact Hp'.
      * rewrite app_length. cbn [length]. lia.
  - exists []. split; [constructor|]. split; [reflexivity|]. split; [reflexivity|]. rewrite seq_length. simpl. lia.
  - lia.
Qed.

(* reservoir sampling *)
Lemma at_upd {A} (s : list A) ps xs i p x : at_positions s ps xs -> nth_error s p = Some x ->
  at_positions s (upd ps i p) (upd xs i x).
Proof.
  intros H Hp. revert i. induction H as [|q y ps xs Hq H IH]; intros i; destruct i; cbn [upd]; constructor; auto.
  apply IH.
Qed.

Lemma nodup_upd (ps : list nat) i p : NoDup ps -> ~ In p ps -> NoDup (upd ps i p).
Proof.
  intros Hn. revert i. induction Hn as [|q ps Hq Hn IH]; intros i Hp; destruct i; cbn; try constructor.
  - intros H. apply Hp. right. exact H.
  - exact Hn.
  - intros H. assert (In q ps \/ q = p) as [H'|H'].
    { clear -H. revert i H. induction ps as [|a ps IH]; intros i H; destruct i; cbn in *; try tauto.
      - intuition.
      - destruct H as [->|H]; [auto|]. apply IH in H. tauto. }
    + auto.
    + apply Hp. left. auto.
  - apply IH. intros H. apply Hp. right. exact H.
Qed.

Lemma in_upd_or {A} (l : list A) i v x : In x (upd l i v) -> In x l \/ x = v.
Proof.
  revert i. induction l as [|a l IH]; intros i H; destruct i; cbn in *; try tauto.
  - intuition.
  - destruct H as [->|H]; [auto|]. apply IH in H. tauto.
Qed.

Lemma select_fill {T} (d : T) (s : list T) k :
  loop (S (length s))
      (fun '(sel, index) =>
         if (index <? k) && negb (index =? length s) then
           e <- rd s index ;; sel <- wr sel index e ;; Ok (inl (sel, S index))
         else Ok (inr (sel, index)))
      (repeat d k, 0) = Ok (firstn k s ++ repeat d (k - length s), Nat.min k (length s)).
Proof.
  apply holds_eq.
  apply (loop_rule (fun '(sel, index) => index <= k /\ index <= length s /\ sel = firstn index s ++ repeat d (k - index))
     (fun '(sel, index) => length s - index)).
  - intros [sel index] (H1 & H2 & ->).
    destruct ((index <? k) && negb (index =? length s)) eqn:E.
    + apply andb_true_iff in E. destruct E as [Ea Eb]. apply Nat.ltb_lt in Ea.
      apply negb_true_iff, Nat.eqb_neq in Eb.
      destruct (nth_error s index) as [e|] eqn:Ee; [|apply nth_error_None in Ee; lia].
      rewrite (rd_nth _ _ _ Ee). cbn [bind].
      replace (k - index) with (S (k - S index)) by lia. cbn [repeat].
      rewrite wr_pos by (rewrite firstn_length; lia). cbn [bind holds].
      split; [|lia]. split; [lia|]. split; [lia|]. rewrite (firstn_S_nth _ _ _ Ee), <- app_assoc. reflexivity.
    + cbn [holds]. apply andb_false_iff in E. destruct E as [E|E].
      * apply Nat.ltb_ge in E. assert (index = k) as -> by lia. rewrite Nat.sub_diag.
        replace (k - length s) with 0 by lia. f_equal. lia.
      * apply negb_false_iff, Nat.eqb_eq in E. subst index. rewrite firstn_all, firstn_all2 by lia. f_equal. lia.
  - split; [lia|]. split; [lia|]. rewrite Nat.sub_0_r. reflexivity.
  - lia.
Qed.

Lemma at_firstn {A} (s : list A) k ps xs : at_positions s ps xs -> at_positions s (firstn k ps) (firstn k xs).
Proof.
  intros H. revert k. induction H as [|p x ps xs Hx H IH]; intros k; destruct k; cbn [firstn]; constructor; auto.
  apply IH.
Qed.

Lemma select_k_ok {T} (d : T) keep draw (s : list T) k : (forall n, draw n < k) ->
  exists out, select_k_randomly d keep draw s k = Ok (out, length out) /\
    length out = Nat.min k (length s) /\ distinct_positions s out.
Proof.
  intros Hd. unfold select_k_randomly. rewrite select_fill. cbn [bind].
  destruct (Nat.min k (length s) =? 0) eqn:E0.
  { apply Nat.eqb_eq in E0. exists []. split; [reflexivity|]. split; [auto|]. exists []. split; [constructor|]. split; [reflexivity|].
    simpl. lia. }
  apply Nat.eqb_neq in E0.
  destruct (Nat.min k (length s) <? k) eqn:E1.
  { apply Nat.ltb_lt in E1. replace (Nat.min k (length s)) with (length s) by lia.
    replace (firstn k s) with s by (symmetry; apply firstn_all2; lia). rewrite firstn_app_len. exists s. split; [reflexivity|]. split; [lia|].
    eapply at_distinct; [apply at_seq|]. apply seq_NoDup. }
  apply Nat.ltb_ge in E1. assert (k <= length s) as Hk by lia. replace (Nat.min k (length s)) with k by lia.
  replace (k - length s) with 0 by lia. cbn [repeat]. rewrite app_nil_r.
  enough (holds (for_up k (length s - k)
      (fun itr sel =>
         if keep (itr - k) then e <- rd s itr ;; wr sel (draw (itr - k)) e else Ok sel) (firstn k s))
     (fun sel => length sel = k /\ distinct_positions s sel)) as H.
  { apply holds_ex in H. destruct H as (sel & -> & Hl & Hsel). cbn [bind]. exists sel. rewrite Hl. auto. }
  pose proof (for_up_rule (S := list T) (fun itr sel => exists ps, at_positions s ps sel /\ NoDup ps /\ length ps = k /\
        forall p, In p ps -> p < itr)
    (fun itr sel =>
         if keep (itr - k) then e <- rd s itr ;; wr sel (draw (itr - k)) e else Ok sel) (length s - k) k) as R.
  eapply holds_weaken; [apply R|].
  - intros itr sel Hi (ps & Hat & Hn & Hl & Hlt).
    assert (length sel = k) as Hls by (rewrite <- (Forall2_length Hat); auto).
    destruct (keep (itr - k)).
    + destruct (nth_error s itr) as [e|] eqn:Ee; [|apply nth_error_None in Ee; lia].
      rewrite (rd_nth _ _ _ Ee). cbn [bind]. specialize (Hd (itr - k)).
      rewrite wr_ok by lia. cbn [holds]. exists (upd ps (draw (itr - k)) itr).
      split; [apply at_upd; auto|]. split; [apply nodup_upd; auto; intros Hin; apply Hlt in Hin; lia|].
      split; [rewrite upd_length; auto|]. intros p Hp. apply in_upd_or in Hp. destruct Hp as [Hp|Hp]; [apply Hlt in Hp; lia|lia].
    + cbn [holds]. exists ps. split; [auto|]. split; [auto|]. split; [auto|]. intros p Hp. apply Hlt in Hp. lia.
  - exists (seq 0 k). split.
    + replace (seq 0 k) with (firstn k (seq 0 (length s))); [apply at_firstn, at_seq|].
      replace (length s) with (k + (length s - k)) by lia. rewrite seq_app.
      rewrite <- (seq_length k 0) at 1. apply firstn_app_len.
    + split; [apply seq_NoDup|]. split; [apply seq_length|]. intros p Hp. apply in_seq in Hp. lia.
  - intros sel (ps & Hat & Hn & Hl & _). split; [rewrite <- (Forall2_length Hat); auto|]. eapply at_distinct; eauto.
Qed.

Lemma select_1_ok {T} keep (s : list T) : keep 0 = true -> s <> [] ->
  exists x, select_1_randomly keep s = Ok [x] /\ In x s.
Proof.
  intros Hk Hs. unfold select_1_randomly. destruct s as [|a s0]; [congruence|]. set (s := a :: s0) in *.
  replace (length s =? 0) with false by reflexivity.
  enough (holds (for_up 0 (length s)
      (fun itr sel => if keep itr then e <- rd s itr ;; Ok (Some e) else Ok sel) None)
    (fun sel => exists x, sel = Some x /\ In x s)) as H.
  { apply holds_ex in H. destruct H as (sel & -> & x & -> & Hin). cbn [bind]. eauto. }
  pose proof (for_up_rule (S := option T) (fun i sel => i = 0 /\ sel = None \/ exists x, sel = Some x /\ In x s)
     (fun itr sel => if keep itr then e <- rd s itr ;; Ok (Some e) else Ok sel) (length s) 0) as R.
  eapply holds_weaken; [apply R|].
  - intros i sel Hi HI. destruct (keep i) eqn:Ek.
    + destruct (nth_error s i) as [e|] eqn:Ee; [|apply nth_error_None in Ee; lia].
      rewrite (rd_nth _ _ _ Ee). cbn [bind holds]. right. exists e. split; [reflexivity|]. eapply nth_error_In; eauto.
    + cbn [holds]. destruct HI as [[-> _]|HI]; [congruence|]. right. exact HI.
  - left. auto.
  - intros sel [[H _]|H]; [simpl in H; lia|exact H].
Qed.
