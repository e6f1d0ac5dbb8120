(* Rounding errors of a sum and a mean. *)
From Verif Require Import Base Num_Spec Real_Model Real_Spec Real_Float Real_Spec2 Real_Proofs5 Real_Proofs6 Numstats_Spec Numstats_Spec2.
From Coq Require Import ZArith Lia QArith Qabs Qpower Qfield Lqa SpecFloat.
Local Open Scope Q_scope.

Lemma rho_2 k : (Z.of_nat k <= 2 ^ 52)%Z -> rho k <= 2.
Proof.
  intros H. pose proof (rho_bernoulli k ltac:(lia)) as B. pose proof (rho_pos k).
  assert (Hk : inject_Z (Z.of_nat k) <= 4503599627370496 # 1) by (change (4503599627370496 # 1) with (inject_Z (2 ^ 52)); apply Real_Proofs5.inj_le; lia).
  set (x := inject_Z (Z.of_nat k)) in *. nra.
Qed.

Lemma top_ok : T 307 * 2 <= largest.
Proof. apply Qle_bool_iff. vm_compute. reflexivity. Qed.
Lemma bottom_ok : p2 (-1021) * 2 <= T (-306).
Proof. apply Qle_bool_iff. vm_compute. reflexivity. Qed.
Lemma bottom_2 : p2 (-1022) <= T (-290).
Proof. apply Qle_bool_iff. vm_compute. reflexivity. Qed.

Lemma valid_normal m e : bounded 53 1024 m e = true -> p2 (-1022) <= magnitude m e -> normal m e.
Proof.
  unfold bounded, canonical_mantissa. intros H L. apply andb_true_iff in H. destruct H as [H1 H2]. apply Zeq_bool_eq in H1. apply Z.leb_le in H2.
  rewrite digits_log in H1. unfold fexp, emin in H1. destruct (Z.log2_spec (Zpos m) eq_refl) as [B1 B2].
  assert (U : (-1022 < Z.log2 (Zpos m) + 1 + e)%Z).
  { apply p2_lt_inv. eapply Qle_lt_trans; [exact L|]. unfold magnitude. rewrite p2_plus. apply mul_lt_r; [|apply p2_pos].
    rewrite <- p2_Z by (pose proof (Z.log2_nonneg (Zpos m)); lia). apply Real_Proofs5.inj_lt. exact B2. }
  assert (D : Z.log2 (Zpos m) = 52%Z) by lia. rewrite D in B1, B2. split; [|lia]. split; [exact B1|exact B2].
Qed.

(* a double that holds a number *)
Lemma held_approx v q : valid_binary 53 1024 v = true -> value v = Some q -> q == 0 \/ T (-290) <= q ->
  v = S754_zero true \/ approx 0 q v.
Proof.
  intros Hv E H. destruct v as [s|s| |s m e]; cbn [value] in E; try discriminate.
  - assert (q = 0) by congruence. subst q. destruct s; [now left|]. right. left. split; reflexivity.
  - right. pose proof (magnitude_pos m e) as Pm. pose proof (T_pos (-290)). cbn [valid_binary] in Hv. destruct s.
    + assert (q = - magnitude m e) by congruence. subst q. exfalso. destruct H; lra.
    + assert (q = magnitude m e) by congruence. subst q. right. split; [auto|]. exists m, e. split; [reflexivity|]. split.
      * apply valid_normal; [exact Hv|]. eapply Qle_trans; [apply bottom_2|]. destruct H; [exfalso; lra|auto].
      * apply close_refl.
Qed.

Lemma approx_add_long k x y a b : approx k x a -> approx k y b -> x + y <= T 307 -> (Z.of_nat k <= 2 ^ 52)%Z ->
  approx (k + 1) (x + y) (SFadd 53 1024 a b).
Proof.
  intros [(Hx & ->)|(Hx & m1 & e1 & -> & N1 & C1)] [(Hy & ->)|(Hy & m2 & e2 & -> & N2 & C2)] Hm Hk.
  - left. rewrite Hx, Hy. split; reflexivity.
  - apply (approx_mono k); [lia|]. right. split; [lra|]. exists m2, e2. split; [reflexivity|]. split; [exact N2|]. eapply close_eq; [|reflexivity|exact C2]. rewrite Hx. ring.
  - apply (approx_mono k); [lia|]. right. split; [lra|]. exists m1, e1. split; [reflexivity|]. split; [exact N1|]. eapply close_eq; [|reflexivity|exact C1]. rewrite Hy. ring.
  - right. split; [lra|].
    assert (C : close k (x + y) (magnitude m1 e1 + magnitude m2 e2)) by (now apply close_add).
    assert (R : magnitude m1 e1 + magnitude m2 e2 <= largest).
    { apply close_unfold in C. destruct C as (_ & B). eapply Qle_trans; [exact B|]. eapply Qle_trans; [|apply top_ok].
      pose proof (rho_2 k Hk). pose proof (rho_pos k). apply mul_le; lra. }
    destruct (add_step m1 e1 m2 e2 N1 N2 R) as (m & e & E & N & C').
    exists m, e. split; [exact E|]. split; [exact N|]. eapply close_trans; eassumption.
Qed.

Lemma sum_nonneg vs qs : holds_numbers vs qs -> 0 <= sum_of qs.
Proof.
  induction 1 as [|v q vs qs (_ & _ & H) _ IH]; cbn [sum_of fold_right]; [lra|]. fold (sum_of qs). pose proof (T_pos (-290)). destruct H; lra.
Qed.
Lemma sum_low vs qs : holds_numbers vs qs -> 0 < sum_of qs -> T (-290) <= sum_of qs.
Proof.
  induction 1 as [|v q vs qs (_ & _ & H) F IH]; cbn [sum_of fold_right]; [intros; exfalso; lra|]. fold (sum_of qs).
  pose proof (sum_nonneg _ _ F). intros S. destruct H; [|lra]. rewrite H in S |- *. rewrite Qplus_0_l in *. auto.
Qed.

Lemma zero_add a k x : approx k x a -> SFadd 53 1024 a (S754_zero true) = a.
Proof. intros [(_ & ->)|(_ & m & e & -> & _)]; reflexivity. Qed.

Lemma fold_approx vs qs : holds_numbers vs qs -> forall k x a, approx k x a -> 0 <= x -> x + sum_of qs <= T 307 -> (Z.of_nat (k + length vs) <= 2 ^ 52)%Z ->
  approx (k + length vs) (x + sum_of qs) (fold_left (SFadd 53 1024) vs a).
Proof.
  induction 1 as [|v q vs qs (V & E & H) F IH]; intros k x a A Hx Hs Hk; cbn [sum_of fold_right fold_left length] in *.
  - rewrite Nat.add_0_r. eapply approx_eq; [|exact A]. ring.
  - fold (sum_of qs) in *. pose proof (sum_nonneg _ _ F) as S0. pose proof (T_pos (-290)). assert (Hq : 0 <= q) by (destruct H; lra).
    assert (B : approx (k + 1) (x + q) (SFadd 53 1024 a v)).
    { destruct (held_approx v q V E H) as [->|B].
      - rewrite (zero_add a k x A). cbn [value] in E. assert (q = 0) by congruence. subst q. apply (approx_mono k); [lia|]. eapply approx_eq; [|exact A]. ring.
      - apply approx_add_long; [exact A|eapply approx_mono; [|exact B]; lia|lra|lia]. }
    replace (k + S (length vs))%nat with (k + 1 + length vs)%nat by lia. eapply approx_eq; [|apply (IH _ _ _ B); [lra|lra|lia]]. ring.
Qed.

(* the first addition, to 0, does not round *)
Lemma total_approx vs qs : holds_numbers vs qs -> sum_of qs <= T 307 -> (Z.of_nat (length vs) <= 2 ^ 52)%Z ->
  approx (length vs - 1) (sum_of qs) (total vs).
Proof.
  intros H Hs Hk. unfold total. destruct H as [|v q vs qs (V & E & H) F]; [left; split; reflexivity|].
  cbn [sum_of fold_right fold_left length] in *; fold (sum_of qs) in *. pose proof (T_pos (-290)). assert (Hq : 0 <= q) by (destruct H; lra).
  assert (B : approx 0 q (SFadd 53 1024 (S754_zero false) v)).
  { destruct (held_approx v q V E H) as [->|B]; [cbn [value] in E; assert (q = 0) by congruence; subst q; left; split; reflexivity|].
    destruct B as [(B & ->)|(B & m & e & -> & N & C)]; [left; split; [auto|reflexivity]|]. right. split; [auto|]. exists m, e. split; [reflexivity|]. auto. }
  replace (S (length vs) - 1)%nat with (0 + length vs)%nat by lia. apply fold_approx; auto. lia.
Qed.

Lemma mean_approx vs qs : holds_numbers vs qs -> vs <> [] -> sum_of qs <= T 307 -> (Z.of_nat (length vs) <= 2 ^ 50)%Z ->
  approx (length vs) (sum_of qs / inject_Z (Z.of_nat (length vs))) (mean vs).
Proof.
  intros H Hn Hs Hk. pose proof (total_approx vs qs H Hs ltac:(lia)) as A. pose proof (sum_low vs qs H) as L. unfold mean.
  assert (H1 : (1 <= length vs)%nat) by (destruct vs; [congruence|cbn; lia]). set (n := length vs) in *. clearbody n.
  assert (Hy : 0 < inject_Z (Z.of_nat n)) by (apply (Real_Proofs5.inj_lt 0); lia).
  assert (Hy1 : 1 <= inject_Z (Z.of_nat n)) by (apply (Real_Proofs5.inj_le 1); lia).
  assert (Hy2 : inject_Z (Z.of_nat n) <= T 16) by (rewrite <- T_Z by lia; apply Real_Proofs5.inj_le; etransitivity; [exact Hk|vm_compute; discriminate]).
  pose proof (approx_small (Z.of_nat n) ltac:(lia)) as D.
  destruct A as [(Hx & ->)|(Hx & m1 & e1 & -> & N1 & C1)]; destruct D as [(Hy' & _)|(_ & m2 & e2 & -> & N2 & C2)]; try (exfalso; lra).
  - left. rewrite Hx. split; [unfold Qdiv; ring|reflexivity].
  - specialize (L Hx). right. assert (P : 0 < sum_of qs / inject_Z (Z.of_nat n)) by (apply Qmult_lt_0_compat; [exact Hx|now apply Qinv_lt_0_compat]). split; [exact P|].
    pose proof (magnitude_pos m1 e1). pose proof (magnitude_pos m2 e2).
    assert (C : close (n - 1) (sum_of qs / inject_Z (Z.of_nat n)) (magnitude m1 e1 / magnitude m2 e2)).
    { replace (n - 1)%nat with (n - 1 + 0)%nat by lia.
      apply close_mul; try lra; auto; [apply Qlt_le_weak, Qinv_lt_0_compat; auto|apply Qlt_le_weak, Qinv_lt_0_compat; auto|]. apply close_inv; auto. }
    pose proof (rho_2 (n - 1) ltac:(lia)) as R2. pose proof (rho_pos (n - 1)) as R0. assert (C' := C). apply close_unfold in C'. destruct C' as (B1 & B2).
    assert (X1 : T (-306) <= sum_of qs / inject_Z (Z.of_nat n)).
    { apply (Qmult_le_r _ _ (inject_Z (Z.of_nat n))); [auto|]. setoid_replace (sum_of qs / inject_Z (Z.of_nat n) * inject_Z (Z.of_nat n)) with (sum_of qs) by (field; lra).
      eapply Qle_trans; [|exact L]. replace (-290)%Z with (-306 + 16)%Z by lia. rewrite T_plus, !(Qmult_comm (T (-306))). apply Qmult_le_compat_r; [exact Hy2|]. pose proof (T_pos (-306)). lra. }
    assert (X2 : sum_of qs / inject_Z (Z.of_nat n) <= T 307).
    { apply (Qmult_le_r _ _ (inject_Z (Z.of_nat n))); [auto|]. setoid_replace (sum_of qs / inject_Z (Z.of_nat n) * inject_Z (Z.of_nat n)) with (sum_of qs) by (field; lra).
      pose proof (T_pos 307). eapply Qle_trans; [exact Hs|]. rewrite <- (Qmult_1_r (T 307)) at 1. rewrite !(Qmult_comm (T 307)). apply Qmult_le_compat_r; [exact Hy1|lra]. }
    set (x := sum_of qs / inject_Z (Z.of_nat n)) in *. set (y := magnitude m1 e1 / magnitude m2 e2) in *.
    assert (Py : 0 < y) by (apply (close_pos (n - 1) x); auto).
    destruct (div_step m1 e1 m2 e2 N1 N2) as (m & e & E & N & C'); fold y.
    + apply (Qmult_le_r _ _ 2); [reflexivity|]. eapply Qle_trans; [apply bottom_ok|]. eapply Qle_trans; [exact X1|]. eapply Qle_trans; [exact B1|].
      rewrite !(Qmult_comm y). apply Qmult_le_compat_r; lra.
    + eapply Qle_trans; [exact B2|]. eapply Qle_trans; [|apply top_ok]. apply mul_le; lra.
    + exists m, e. split; [exact E|]. split; [exact N|]. replace n with (n - 1 + 1)%nat by lia. eapply close_trans; eassumption.
Qed.

Lemma approx_within k x d : approx k x d -> exists q, value d = Some q /\ within k x q.
Proof.
  intros [(E & ->)|(H & m & e & -> & N & C)].
  - exists 0. split; [reflexivity|]. now apply within_zero.
  - exists (magnitude m e). split; [reflexivity|]. now apply close_within.
Qed.
