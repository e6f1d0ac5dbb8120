(* Random selection, with the doubles of the generator. *)
From Coq Require Import Permutation ZArith SpecFloat.
From Verif Require Import Base Comb_Model Comb_Spec Comb_Proofs Comb_Proofs5 Real_Spec Rand_Model Rand_Spec Rand_Float Rand_Float2 Rand_Proofs Rand_Proofs2.
Local Open Scope nat_scope.

Lemma next_ok us : Forall unit_double us -> 0 < length us ->
  exists u us', next us = Ok (u, us') /\ unit_double u /\ Forall unit_double us' /\ length us = S (length us').
Proof. destruct us as [|u us]; cbn [length]; intros H Hl; [lia|]. inversion H; subst. exists u, us. auto. Qed.

Lemma select_1_r_ok {T} us (s : list T) : Forall unit_double us -> length s <= length us -> s <> [] ->
  exists x, select_1_randomly_r us s = Ok [x] /\ In x s.
Proof.
  intros Hu Hl Hs. unfold select_1_randomly_r. destruct s as [|a s0]; [congruence|]. set (s := a :: s0) in *.
  replace (length s =? 0) with false by reflexivity.
  set (body := fun (itr : nat) '(sel, us) => ' (u, us) <- next us ;;
         if SFltb u (ddiv (b64 1 0) (of_size (S itr))) then e <- rd s itr ;; Ok (Some e, us) else Ok (sel, us)).
  assert (holds (for_up 0 (length s) body (None, us)) (fun '(sel, _) => exists x, sel = Some x /\ In x s)) as H.
  { pose proof (for_up_rule (S := option T * list spec_float) (fun i '(sel, us) => (i = 0 /\ sel = None \/ exists x, sel = Some x /\ In x s) /\ Forall unit_double us /\ length s <= i + length us)
      body (length s) 0 (None, us)) as R.
    eapply holds_weaken; [apply R|].
    - intros i [sel vs] Hi (HI & Hv & Hlv). unfold body. destruct (next_ok vs Hv ltac:(lia)) as (u & vs' & -> & U & Hv' & El). cbn [bind].
      destruct (SFltb u _) eqn:Ek.
      + destruct (nth_error s i) as [e|] eqn:Ee; [|apply nth_error_None in Ee; lia]. rewrite (rd_nth _ _ _ Ee). cbn [bind holds].
        split; [|split; [assumption|lia]]. right. exists e. split; [reflexivity|]. eapply nth_error_In; eauto.
      + cbn [holds]. split; [|split; [assumption|lia]]. destruct HI as [[-> _]|HI]; [|now right]. rewrite unit_below_one in Ek by assumption. discriminate.
    - split; [left; auto|]. split; [assumption|lia].
    - intros [sel vs] ([[H _]|H] & _); [cbn in H; lia|exact H]. }
  apply holds_ex in H. destruct H as ([sel vs] & -> & x & -> & Hin). cbn [bind]. eauto.
Qed.

Lemma select_1_r_reach {T} (s : list T) x : (Z.of_nat (length s) <= 2 ^ 52)%Z -> In x s ->
  exists us, length us = length s /\ Forall unit_double us /\ select_1_randomly_r us s = Ok [x].
Proof.
  intros H52 Hx. destruct (In_nth_error s x Hx) as (i & Ei). pose proof (nth_error_some_lt _ _ _ Ei) as Hi.
  exists (repeat bottom (S i) ++ repeat top (length s - S i)). split; [rewrite app_length, !repeat_length; lia|]. split.
  { apply Forall_app. split; apply Forall_forall; intros u Hu; apply repeat_spec in Hu; subst u; [apply bottom_unit|apply top_unit]. }
  unfold select_1_randomly_r. replace (length s =? 0) with false by (symmetry; apply Nat.eqb_neq; lia).
  set (body := fun (itr : nat) '(sel, us) => ' (u, us) <- next us ;;
         if SFltb u (ddiv (b64 1 0) (of_size (S itr))) then e <- rd s itr ;; Ok (Some e, us) else Ok (sel, us)).
  assert (holds (for_up 0 (length s) body (None, repeat bottom (S i) ++ repeat top (length s - S i))) (fun '(sel, _) => sel = Some x)) as H.
  { pose proof (for_up_rule (S := option T * list spec_float) (fun j '(sel, us) =>
        (i < j -> sel = Some x) /\ us = repeat bottom (S i - j) ++ repeat top (length s - Nat.max j (S i)))
      body (length s) 0 (None, repeat bottom (S i) ++ repeat top (length s - S i))) as R.
    eapply holds_weaken; [apply R|].
    - intros j [sel vs] Hj (HI & ->). unfold body. destruct (Nat.le_gt_cases j i) as [Hji|Hji].
      + replace (S i - j) with (S (i - j)) by lia. cbn [repeat app next bind].
        assert (Ek : SFltb bottom (ddiv (b64 1 0) (of_size (S j))) = true).
        { destruct j as [|j]; [apply unit_below_one, bottom_unit|]. apply (bottom_keeps 1); lia. }
        rewrite Ek. destruct (nth_error s j) as [e|] eqn:Ee; [|apply nth_error_None in Ee; lia]. rewrite (rd_nth _ _ _ Ee). cbn [bind holds].
        split; [intros H; assert (j = i) by lia; subst j; congruence|]. replace (S i - S j) with (i - j) by lia. do 2 f_equal. lia.
      + replace (S i - j) with 0 by lia. replace (length s - Nat.max j (S i)) with (S (length s - S j)) by lia. cbn [repeat app next bind].
        change (b64 1 0) with (of_size 1). rewrite (top_rejects 1 (S j)) by lia. cbn [holds]. split; [intros _; apply HI; exact Hji|].
        replace (S i - S j) with 0 by lia. cbn [repeat app]. f_equal. lia.
    - split; [lia|]. rewrite Nat.max_r by lia. reflexivity.
    - intros [sel vs] (H & _). apply H. lia. }
  apply holds_ex in H. destruct H as ([sel vs] & -> & ->). reflexivity.
Qed.

Section Select_k.
Context {T : Type}.
Variable s : list T.
Variable k : nat.
Definition step (itr : nat) (st : list T * spec_float * list spec_float) : outcome (list T * spec_float * list spec_float) :=
  let '(sel, n, us) := st in
  ' (u, us) <- next us ;;
  ' (sel, us) <-
    (if SFltb u (ddiv (of_size k) n) then
       ' (u, us) <- next us ;;
       i <- to_size (dmul u (of_size k)) ;;
       e <- rd s itr ;; sel <- wr sel i e ;; Ok (sel, us)
     else Ok (sel, us)) ;;
  Ok (sel, dadd n (b64 1 0), us).
Lemma select_k_eq d us : 0 < k -> k <= length s -> select_k_randomly_r d us s k =
  (' (sel, _, _) <- for_up k (length s - k) step (firstn k s, of_size (S k), us) ;; Ok (sel, k)).
Proof.
  intros H0 Hk. unfold select_k_randomly_r. rewrite select_fill. cbn [bind]. replace (Nat.min k (length s)) with k by lia.
  replace (k =? 0) with false by (symmetry; apply Nat.eqb_neq; lia). rewrite Nat.ltb_irrefl.
  replace (k - length s) with 0 by lia. cbn [repeat]. rewrite app_nil_r. reflexivity.
Qed.

Lemma select_k_r_ok d us : (Z.of_nat k <= 2 ^ 53)%Z -> Forall unit_double us -> 2 * (length s - k) <= length us ->
  exists out, select_k_randomly_r d us s k = Ok (out, length out) /\
    length out = Nat.min k (length s) /\ distinct_positions s out.
Proof.
  intros H53 Hu Hl. destruct (Nat.eq_dec k 0) as [K0|K0].
  { exists []. unfold select_k_randomly_r. rewrite select_fill, K0. cbn. split; [reflexivity|]. split; [reflexivity|]. exists []. split; [constructor|]. split; [reflexivity|]. cbn. lia. }
  destruct (Nat.lt_ge_cases (length s) k) as [Hs|Hs].
  { unfold select_k_randomly_r. rewrite select_fill. cbn [bind]. replace (Nat.min k (length s)) with (length s) by lia.
    destruct (length s =? 0) eqn:E0.
    { apply Nat.eqb_eq in E0. exists []. split; [reflexivity|]. split; [cbn; lia|]. exists []. split; [constructor|]. split; [reflexivity|]. cbn. lia. }
    replace (length s <? k) with true by (symmetry; apply Nat.ltb_lt; lia).
    replace (firstn k s) with s by (symmetry; apply firstn_all2; lia). rewrite firstn_app_len. exists s. split; [reflexivity|]. split; [lia|].
    eapply at_distinct; [apply at_seq|]. apply seq_NoDup. }
  rewrite select_k_eq by lia.
  assert (holds (for_up k (length s - k) step (firstn k s, of_size (S k), us)) (fun '(sel, _, _) => length sel = k /\ distinct_positions s sel)) as H.
  { pose proof (for_up_rule (S := list T * spec_float * list spec_float) (fun itr '(sel, _, us) => (exists ps, at_positions s ps sel /\ NoDup ps /\ length ps = k /\
        forall p, In p ps -> p < itr) /\ Forall unit_double us /\ 2 * (length s - itr) <= length us) step (length s - k) k) as R.
    eapply holds_weaken; [apply R|].
    - intros itr [[sel n] vs] Hi ((ps & Hat & Hn & Hlp & Hlt) & Hv & Hlv). unfold step.
      assert (length sel = k) as Hls by (rewrite <- (Comb_Proofs5.Forall2_length Hat); auto).
      destruct (next_ok vs Hv ltac:(lia)) as (u & vs' & -> & U & Hv' & El). cbn [bind]. destruct (SFltb u _).
      + destruct (next_ok vs' Hv' ltac:(lia)) as (u2 & vs2 & -> & U2 & Hv2 & El2). cbn [bind].
        destruct (index_in_range k ltac:(lia) H53 u2 U2) as (i & Ei & Hik). rewrite dmul_comm, Ei. cbn [bind].
        destruct (nth_error s itr) as [e|] eqn:Ee; [|apply nth_error_None in Ee; lia]. rewrite (rd_nth _ _ _ Ee). cbn [bind].
        rewrite wr_ok by lia. cbn [bind holds]. split; [|split; [assumption|lia]]. exists (upd ps i itr).
        split; [apply at_upd; auto|]. split; [apply nodup_upd; auto; intros Hin; apply Hlt in Hin; lia|].
        split; [rewrite upd_length; auto|]. intros p Hp. apply in_upd_or in Hp. destruct Hp as [Hp|Hp]; [apply Hlt in Hp; lia|lia].
      + cbn [bind holds]. split; [|split; [assumption|lia]]. exists ps. split; [auto|]. split; [auto|]. split; [auto|]. intros p Hp. apply Hlt in Hp. lia.
    - split; [|split; [assumption|lia]]. exists (seq 0 k). split; [|split; [apply seq_NoDup|]; split; [apply seq_length|]; intros p Hp; apply in_seq in Hp; lia].
      replace (seq 0 k) with (firstn k (seq 0 (length s))); [apply at_firstn, at_seq|].
      replace (length s) with (k + (length s - k)) by lia. rewrite seq_app. rewrite <- (seq_length k 0) at 1. apply firstn_app_len.
    - intros [[sel n] vs] ((ps & Hat & Hn & Hlp & _) & _). split; [rewrite <- (Comb_Proofs5.Forall2_length Hat); auto|]. eapply at_distinct; eauto. }
  apply holds_ex in H. destruct H as ([[sel n] vs] & -> & Hls & Hd). cbn [bind]. exists sel. rewrite Hls. split; [reflexivity|]. split; [lia|exact Hd].
Qed.

(* towards a chosen set of positions *)
Lemma spare (ps qs : list nat) q : NoDup ps -> NoDup qs -> length qs <= length ps -> In q qs -> ~ In q ps -> exists i p, nth_error ps i = Some p /\ ~ In p qs.
Proof.
  intros Hp Hq Hl Iq Nq.
  assert (D : Forall (fun p => In p qs) ps \/ Exists (fun p => ~ In p qs) ps).
  { clear. induction ps as [|p ps [IH|IH]]; [left; constructor| |right; now constructor].
    destruct (in_dec Nat.eq_dec p qs); [left; now constructor|right; now constructor]. }
  destruct D as [D|D].
  - exfalso. assert (incl (q :: ps) qs) as Hi. { intros x [<-|Hx]; [exact Iq|]. rewrite Forall_forall in D. auto. }
    apply NoDup_incl_length in Hi; [|now constructor]. cbn in Hi. lia.
  - apply Exists_exists in D as (p & Ip & Np). apply In_nth_error in Ip as (i & Ei). eauto.
Qed.
Lemma step_reach (K0 : 0 < k) (K51 : (Z.of_nat k <= 2 ^ 51)%Z) (S52 : (Z.of_nat (length s) <= 2 ^ 52)%Z) qs : NoDup qs -> length qs = k -> forall cnt itr sel ps,
  k <= itr -> itr + cnt = length s -> at_positions s ps sel -> NoDup ps -> length ps = k -> (forall p, In p ps -> p < itr) ->
  (forall q, In q qs -> q < itr -> In q ps) ->
  exists us sel' ps' n, Forall unit_double us /\ for_up itr cnt step (sel, of_size (S itr), us) = Ok (sel', n, []) /\
    at_positions s ps' sel' /\ NoDup ps' /\ length ps' = k /\ (forall q, In q qs -> q < length s -> In q ps').
Proof.
  intros Hnq Hlq. induction cnt as [|cnt IH]; intros itr sel ps Hk Hc Hat Hn Hl Hlt Hin.
  - exists [], sel, ps, (of_size (S itr)). split; [constructor|]. split; [reflexivity|]. split; [exact Hat|]. split; [exact Hn|]. split; [exact Hl|]. intros q Hq H. apply Hin; [exact Hq|lia].
  - assert (length sel = k) as Hls by (rewrite <- (Comb_Proofs5.Forall2_length Hat); auto).
    assert (S53 : (Z.of_nat (length s) < 2 ^ 53)%Z) by (eapply Z.le_lt_trans; [exact S52|reflexivity]).
    destruct (in_dec Nat.eq_dec itr qs) as [Hq|Hq].
    + assert (Nq : ~ In itr ps) by (intros H; apply Hlt in H; lia).
      destruct (spare ps qs itr Hn Hnq ltac:(lia) Hq Nq) as (i & p & Ei & Np). pose proof (nth_error_some_lt _ _ _ Ei) as Hi.
      destruct (nth_error s itr) as [e|] eqn:Ee; [|apply nth_error_None in Ee; lia].
      destruct (index_reachable k K0 ltac:(eapply Z.le_trans; [exact K51|discriminate]) i K51 ltac:(lia)) as (u & Hu & Eu).
      destruct (IH (S itr) (upd sel i e) (upd ps i itr)) as (us & sel' & ps' & n & Hus & Ef & R).
      * lia.
      * lia.
      * apply at_upd; auto.
      * apply nodup_upd; auto.
      * rewrite upd_length; auto.
      * intros x Hx. apply in_upd_or in Hx. destruct Hx as [Hx|Hx]; [apply Hlt in Hx; lia|lia].
      * intros q Hq2 Hlt2. destruct (Nat.eq_dec q itr) as [->|Ne].
        -- apply (nth_error_In _ i). apply nth_error_upd_same. lia.
        -- assert (In q ps) as H by (apply Hin; [exact Hq2|lia]). apply In_nth_error in H as (j & Ej).
           apply (nth_error_In _ j). rewrite nth_error_upd_other; [exact Ej|]. intros ->. assert (p = q) by congruence. subst p. contradiction.
      * exists (bottom :: u :: us), sel', ps', n. split; [constructor; [apply bottom_unit|constructor; assumption]|]. split; [|exact R].
        cbn [for_up]. unfold step at 1. cbn [next bind]. rewrite bottom_keeps by lia. cbn [next bind]. rewrite dmul_comm, Eu. cbn [bind].
        rewrite (rd_nth _ _ _ Ee). cbn [bind]. rewrite wr_ok by lia. cbn [bind]. rewrite dadd_one by lia. exact Ef.
    + destruct (IH (S itr) sel ps) as (us & sel' & ps' & n & Hus & Ef & R); auto; try lia.
      * intros x Hx. apply Hlt in Hx. lia.
      * intros q Hq2 Hlt2. apply Hin; [exact Hq2|]. assert (q <> itr) by congruence. lia.
      * exists (top :: us), sel', ps', n. split; [constructor; [apply top_unit|assumption]|]. split; [|exact R].
        cbn [for_up]. unfold step at 1. cbn [next bind]. rewrite top_rejects by lia. cbn [bind]. rewrite dadd_one by lia. exact Ef.
Qed.
End Select_k.

Lemma at_permuted {T} (s : list T) ps qs xs ys : at_positions s ps xs -> at_positions s qs ys -> Permutation ps qs -> Permutation xs ys.
Proof.
  intros Hx Hy P. destruct s as [|d s0].
  { destruct Hx as [|p x ps xs H _]; [|destruct p; discriminate]. apply Permutation_nil in P. subst qs. inversion Hy. constructor. }
  rewrite (at_map d _ _ _ Hx), (at_map d _ _ _ Hy). now apply Permutation_map.
Qed.
Lemma select_k_r_reach {T} (d : T) (s : list T) xs : (Z.of_nat (length s) <= 2 ^ 51)%Z -> distinct_positions s xs ->
  exists us out, Forall unit_double us /\ select_k_randomly_r d us s (length xs) = Ok (out, length xs) /\ Permutation out xs.
Proof.
  intros H51 Hd. destruct (distinct_at s xs Hd) as (qs & Hnq & Hat & Hlt).
  pose proof (Comb_Proofs5.Forall2_length Hat) as Hlq.
  assert (Hi : incl qs (seq 0 (length s))) by (intros q Hq; apply in_seq; rewrite Forall_forall in Hlt; specialize (Hlt q Hq); lia).
  pose proof (NoDup_incl_length Hnq Hi) as Hle. rewrite seq_length in Hle.
  destruct xs as [|x0 xs0] eqn:Exs.
  { exists [], []. split; [constructor|]. split; [|constructor]. unfold select_k_randomly_r. rewrite select_fill. reflexivity. }
  rewrite <- Exs in *. assert (0 < length xs) by (rewrite Exs; cbn; lia). clear x0 xs0 Exs.
  destruct (step_reach s (length xs) ltac:(lia) ltac:(lia) ltac:(eapply Z.le_trans; [exact H51|discriminate]) qs Hnq Hlq (length s - length xs) (length xs) (firstn (length xs) s) (seq 0 (length xs)))
    as (us & sel & ps & n & Hu & Ef & Ha & Hn & Hl & Hin).
  - lia.
  - lia.
  - replace (seq 0 (length xs)) with (firstn (length xs) (seq 0 (length s))); [apply at_firstn, at_seq|].
    replace (length s) with (length xs + (length s - length xs)) by lia. rewrite seq_app. rewrite <- (seq_length (length xs) 0) at 1. apply firstn_app_len.
  - apply seq_NoDup.
  - apply seq_length.
  - intros p Hp. apply in_seq in Hp. lia.
  - intros q Hq Hq2. apply in_seq. lia.
  - exists us, sel. split; [exact Hu|]. rewrite select_k_eq by lia. rewrite Ef. cbn [bind]. split; [reflexivity|].
    apply (at_permuted s ps qs); auto. symmetry. apply NoDup_Permutation_bis; [exact Hnq|lia|].
    intros q Hq. apply Hin; [exact Hq|]. rewrite Forall_forall in Hlt. auto.
Qed.
