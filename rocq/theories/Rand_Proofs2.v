(* Random permutations and combinations, with the doubles of the generator. *)
From Coq Require Import Permutation ZArith SpecFloat.
From Verif Require Import Base Comb_Model Comb_Spec Comb_Proofs Comb_Proofs5 Rand_Model Rand_Spec Rand_Float Rand_Proofs.
Local Open Scope nat_scope.

(* the doubles us give the draws ds, when there are size positions at first *)
Inductive drawn : nat -> list spec_float -> list nat -> Prop :=
| drawn_nil size : drawn size [] []
| drawn_cons size u us d ds : to_size (dmul (of_size size) u) = Ok d -> drawn (size - 1) us ds -> drawn size (u :: us) (d :: ds).

Lemma drawn_ok us : forall size, (Z.of_nat size <= 2 ^ 53)%Z -> length us <= size -> Forall unit_double us ->
  exists ds, drawn size us ds /\ in_range size ds /\ length ds = length us.
Proof.
  induction us as [|u us IH]; intros size H53 Hl Hu.
  - exists []. split; [constructor|]. split; [intros [|j] d E; discriminate|reflexivity].
  - inversion Hu; subst. cbn in Hl. destruct (index_in_range size ltac:(lia) H53 u) as (d & E & Hd); [assumption|].
    destruct (IH (size - 1)) as (ds & H & Hr & El); [lia|lia|assumption|]. exists (d :: ds). split; [now constructor|]. split; [now apply in_range_cons|cbn; congruence].
Qed.
Lemma drawn_reach ds : forall size, (Z.of_nat size <= 2 ^ 51)%Z -> in_range size ds ->
  exists us, drawn size us ds /\ Forall unit_double us /\ length us = length ds.
Proof.
  induction ds as [|d ds IH]; intros size H51 H.
  - exists []. repeat constructor.
  - apply in_range_cons in H as [Hd H]. assert (Z.of_nat size <= 2 ^ 53)%Z by (eapply Z.le_trans; [exact H51|]; now apply Z.pow_le_mono_r).
    destruct (index_reachable size ltac:(lia) ltac:(assumption) d H51 Hd) as (u & Hu & E).
    destruct (IH (size - 1)) as (us & Hd' & Hus & El); [lia|exact H|]. exists (u :: us). split; [now constructor|]. split; [now constructor|cbn; congruence].
Qed.

Section Loops.
Context {T : Type}.
Variable s : list T.

Lemma perm_loop_r us rest ds : forall index out ps xs fuel, drawn (length index) us ds -> length index = length ds ->
  picked ds index = Some ps -> at_positions s ps xs -> length ds < fuel ->
  loop fuel
    (fun '(index, out, us) =>
       if length index =? 0 then Ok (inr out)
       else
         ' (u, us) <- next us ;;
         idx <- to_size (dmul (of_size (length index)) u) ;;
         p <- rd index idx ;; e <- rd s p ;;
         index <- erase_at index idx ;;
         Ok (inl (index, out ++ [e], us))) (index, out, us ++ rest) = Ok (out ++ xs).
Proof.
  revert us. induction ds as [|d ds IH]; intros us index out ps xs fuel Hd Hl Hp Ha Hf; (destruct fuel as [|fuel]; [cbn in Hf; lia|]); cbn [picked] in Hp.
  - injection Hp as <-. inversion Ha. rewrite app_nil_r. cbn [loop]. cbn in Hl. rewrite Hl. reflexivity.
  - destruct (nth_error index d) as [p|] eqn:E; [|discriminate]. destruct (picked ds (without d index)) as [qs|] eqn:Eq; [|discriminate].
    injection Hp as <-. inversion Ha as [|? x ? ys Hx Ha']; subst. inversion Hd as [|? u us' ? ? Ed Hd']; subst. cbn [loop app next bind].
    replace (length index =? 0) with false by (rewrite Hl; reflexivity). rewrite Ed. cbn [bind].
    rewrite (rd_nth _ _ _ E). cbn [bind]. rewrite (rd_nth _ _ _ Hx). cbn [bind]. rewrite (erase_without _ _ _ E). cbn [bind].
    pose proof (without_length _ _ _ E) as Ew. rewrite (IH us' _ _ qs ys fuel); auto.
    + rewrite <- app_assoc. reflexivity.
    + replace (length (without d index)) with (length index - 1) by lia. exact Hd'.
    + cbn in Hl. lia.
    + cbn in Hf. lia.
Qed.
Lemma comb_loop_r us rest ds : forall index out ps xs fuel, drawn (length index) us ds ->
  picked ds index = Some ps -> at_positions s ps xs -> length ds < fuel ->
  loop fuel
      (fun '(index, out, us, set_size) =>
         if set_size =? 0 then Ok (inr (Some out))
         else
           ' (u, us) <- next us ;;
           idx <- to_size (dmul (of_size (length index)) u) ;;
           p <- rd index idx ;; e <- rd s p ;;
           index <- erase_at index idx ;;
           Ok (inl (index, out ++ [e], us, set_size - 1)))
      (index, out, us ++ rest, length ds) = Ok (Some (out ++ xs)).
Proof.
  revert us. induction ds as [|d ds IH]; intros us index out ps xs fuel Hd Hp Ha Hf; (destruct fuel as [|fuel]; [cbn in Hf; lia|]); cbn [picked] in Hp.
  - injection Hp as <-. inversion Ha. rewrite app_nil_r. reflexivity.
  - destruct (nth_error index d) as [p|] eqn:E; [|discriminate]. destruct (picked ds (without d index)) as [qs|] eqn:Eq; [|discriminate].
    injection Hp as <-. inversion Ha as [|? x ? ys Hx Ha']; subst. inversion Hd as [|? u us' ? ? Ed Hd']; subst. cbn [loop length Nat.eqb app next bind].
    rewrite Ed. cbn [bind].
    rewrite (rd_nth _ _ _ E). cbn [bind]. rewrite (rd_nth _ _ _ Hx). cbn [bind]. rewrite (erase_without _ _ _ E). cbn [bind Nat.sub]. rewrite Nat.sub_0_r.
    pose proof (without_length _ _ _ E) as Ew. rewrite (IH us' _ _ qs ys fuel); auto.
    + rewrite <- app_assoc. reflexivity.
    + replace (length (without d index)) with (length index - 1) by lia. exact Hd'.
    + cbn in Hf. lia.
Qed.

Lemma nodup_front (a b : list nat) : NoDup (a ++ b) -> NoDup a.
Proof. induction a as [|x a IH]; intros H; [constructor|]. inversion H; subst. constructor; [intros Hx; apply H2; apply in_or_app; auto|auto]. Qed.
Lemma picked_at ds ps : picked ds (seq 0 (length s)) = Some ps -> exists xs, at_positions s ps xs.
Proof.
  intros E. destruct (picked_sub _ _ _ E) as (_ & _ & rest & P). apply at_ex. intros q Hq.
  enough (In q (seq 0 (length s))) as H by (apply in_seq in H; lia). eapply Permutation_in; [exact P|]. apply in_or_app. auto.
Qed.

Lemma permutation_r_ok us : (Z.of_nat (length s) <= 2 ^ 53)%Z -> Forall unit_double us -> length s <= length us ->
  exists p, random_permutation_r us s = Ok p /\ Permutation p s.
Proof.
  intros H53 Hu Hl. set (n := length s) in *.
  destruct (drawn_ok (firstn n us) n H53) as (ds & Hd & Hr & El); [rewrite firstn_length; lia|apply Forall_forall; intros x Hx; rewrite Forall_forall in Hu; apply Hu; rewrite <- (firstn_skipn n us); apply in_or_app; auto|].
  rewrite firstn_length, Nat.min_l in El by lia.
  destruct (picked_ok ds (seq 0 n)) as (ps & Ep); [rewrite seq_length; exact Hr|]. destruct (picked_at _ _ Ep) as (xs & Hx).
  exists xs. split.
  - unfold random_permutation_r. fold n. rewrite <- (firstn_skipn n us) at 1. rewrite (perm_loop_r _ _ ds _ _ ps xs); auto; try (rewrite seq_length; auto). lia.
  - apply (at_perm s ps xs Hx). destruct (picked_sub _ _ _ Ep) as (Hl2 & _ & rest & P).
    assert (rest = []) as ->. { apply Permutation_length in P. rewrite app_length, seq_length in P. destruct rest; [reflexivity|cbn in P; lia]. }
    rewrite app_nil_r in P. exact P.
Qed.
Lemma permutation_r_reach p : (Z.of_nat (length s) <= 2 ^ 51)%Z -> Permutation p s ->
  exists us, length us = length s /\ Forall unit_double us /\ random_permutation_r us s = Ok p.
Proof.
  intros H51 P. destruct (perm_positions s p P) as (ps & Ha & Hp).
  assert (NoDup ps) as Hnp by (eapply Permutation_NoDup; [symmetry; exact Hp|apply seq_NoDup]).
  destruct (picked_reach ps (seq 0 (length s)) Hnp) as (ds & E); [intros q Hq; eapply Permutation_in; eauto|].
  destruct (picked_sub _ _ _ E) as (Hl & Hr & _). rewrite seq_length in Hr.
  assert (El : length ds = length s) by (rewrite <- Hl, (Permutation_length Hp), seq_length; reflexivity).
  destruct (drawn_reach ds (length s) H51 Hr) as (us & Hd & Hu & Eu). exists us. split; [congruence|]. split; [exact Hu|].
  unfold random_permutation_r. rewrite <- (app_nil_r us). rewrite (perm_loop_r _ _ ds _ _ ps p); auto; try (rewrite seq_length; auto). lia.
Qed.
Lemma combination_r_ok us k : (Z.of_nat (length s) <= 2 ^ 53)%Z -> Forall unit_double us -> k <= length us -> k <= length s ->
  exists xs, random_combination_r us s k = Ok (Some xs) /\ length xs = k /\ distinct_positions s xs.
Proof.
  intros H53 Hu Hl Hk. set (n := length s) in *.
  destruct (drawn_ok (firstn k us) n H53) as (ds & Hd & Hr & El); [rewrite firstn_length; lia|apply Forall_forall; intros x Hx; rewrite Forall_forall in Hu; apply Hu; rewrite <- (firstn_skipn k us); apply in_or_app; auto|].
  rewrite firstn_length, Nat.min_l in El by lia.
  destruct (picked_ok ds (seq 0 n)) as (ps & Ep); [rewrite seq_length; exact Hr|]. destruct (picked_at _ _ Ep) as (xs & Hx).
  destruct (picked_sub _ _ _ Ep) as (Hl2 & _ & rest & P).
  exists xs. split; [|split].
  - unfold random_combination_r. fold n. replace (n <? k) with false by (symmetry; apply Nat.ltb_ge; lia).
    pose proof (comb_loop_r (firstn k us) (skipn k us) ds (seq 0 n) [] ps xs (S k)) as H. rewrite firstn_skipn, El, seq_length in H. apply H; auto.
  - rewrite <- (Comb_Proofs5.Forall2_length Hx). lia.
  - apply (at_distinct s ps xs Hx). apply (nodup_front ps rest). eapply Permutation_NoDup; [symmetry; exact P|apply seq_NoDup].
Qed.
Lemma combination_r_reach xs : (Z.of_nat (length s) <= 2 ^ 51)%Z -> distinct_positions s xs ->
  exists us, length us = length xs /\ Forall unit_double us /\ random_combination_r us s (length xs) = Ok (Some xs).
Proof.
  intros H51 P. destruct (distinct_at s xs P) as (ps & Hnp & Ha & Hp).
  assert (Hi : incl ps (seq 0 (length s))) by (intros q Hq; apply in_seq; rewrite Forall_forall in Hp; specialize (Hp q Hq); lia).
  destruct (picked_reach ps (seq 0 (length s)) Hnp Hi) as (ds & E).
  destruct (picked_sub _ _ _ E) as (Hl & Hr & _). rewrite seq_length in Hr.
  assert (El : length ds = length xs) by (rewrite <- Hl; exact (Comb_Proofs5.Forall2_length Ha)).
  assert (Hle : length xs <= length s) by (rewrite <- El, <- Hl, <- (seq_length (length s) 0); now apply NoDup_incl_length).
  destruct (drawn_reach ds (length s) H51 Hr) as (us & Hd & Hu & Eu). exists us. split; [congruence|]. split; [exact Hu|].
  unfold random_combination_r. replace (length s <? length xs) with false by (symmetry; apply Nat.ltb_ge; lia).
  rewrite <- (app_nil_r us). rewrite <- El. rewrite (comb_loop_r _ _ ds _ _ ps xs); auto; try (rewrite seq_length; auto).
Qed.
End Loops.
