(* The comparisons of random selection. *)
From Verif Require Import Base Real_Spec Real_Float Real_Spec2 Real_Round Real_Proofs5 Real_Proofs6 Numstats_Proofs2 Comb_Model Rand_Model Rand_Spec Rand_Float.
From Coq Require Import ZArith Lia QArith Qpower Lqa SpecFloat.
Local Open Scope Z_scope.

(* the largest double below 1 *)
Definition top : spec_float := S754_finite false (2 ^ 53 - 1) (-53).
Lemma top_unit : unit_double top.
Proof.
  split; [vm_compute; reflexivity|]. exists (magnitude (2 ^ 53 - 1) (-53)). split; [reflexivity|]. split.
  - right. eapply Qle_trans; [|apply normal_low; split; [split; [discriminate|reflexivity]|split; discriminate]]. apply Qle_refl.
  - vm_compute. reflexivity.
Qed.
Definition bottom : spec_float := S754_zero false.
Lemma bottom_unit : unit_double bottom.
Proof. split; [reflexivity|]. exists 0%Q. split; [reflexivity|]. split; [left; reflexivity|reflexivity]. Qed.

Lemma unit_below_one u : unit_double u -> SFltb u (ddiv (b64 1 0) (of_size 1)) = true.
Proof.
  intros H. replace (ddiv (b64 1 0) (of_size 1)) with (S754_finite false (2 ^ 52) (-52)) by (vm_compute; reflexivity).
  destruct (unit_cases u H) as [(b & ->)|(m & e & -> & Hm & He)]; [reflexivity|].
  unfold SFltb. cbn [SFcompare]. replace (e ?= -52) with Lt by (symmetry; apply Z.compare_lt_iff; lia). reflexivity.
Qed.

(* k / n *)
Lemma share k n : (0 < k < n)%nat -> Z.of_nat n <= 2 ^ 52 ->
  exists m e, ddiv (of_size k) (of_size n) = S754_finite false m e /\ 2 ^ 52 <= Zpos m < 2 ^ 53 /\ e <= -53.
Proof.
  intros Hk Hn. assert (H53 : Z.of_nat n <= 2 ^ 53) by (eapply Z.le_trans; [exact Hn|discriminate]).
  destruct (size_cases k) as (m1 & e1 & -> & B1 & R1 & D1); [lia|lia|]. destruct (size_cases n) as (m2 & e2 & -> & B2 & R2 & D2); [lia|lia|].
  assert (V1 := size_value k ltac:(lia) m1 e1 D1). assert (V2 := size_value n ltac:(lia) m2 e2 D2).
  set (K := Z.of_nat k) in *. set (N := Z.of_nat n) in *. assert (HK : 1 <= K <= N - 1) by lia. clearbody K N. clear D1 D2.
  assert (QK : (1 <= inject_Z K)%Q) by (apply (Real_Proofs5.inj_le 1); lia).
  assert (QKN : (inject_Z K + 1 <= inject_Z N)%Q). { change 1%Q with (inject_Z 1). rewrite <- inject_Z_plus. apply Real_Proofs5.inj_le. lia. }
  assert (QN : (inject_Z N <= p2 52)%Q) by (rewrite <- p2_Z by lia; apply Real_Proofs5.inj_le; exact Hn).
  set (a := inject_Z K) in *. set (b := inject_Z N) in *. clearbody a b.
  assert (Hx : (magnitude m1 e1 / magnitude m2 e2 == a / b)%Q) by (rewrite V1, V2; reflexivity).
  assert (Pb : (0 < b)%Q) by lra.
  assert (Lo : (p2 (-52) <= a / b)%Q).
  { apply Qle_shift_div_l; [exact Pb|]. assert (p2 (-52) * b <= p2 (-52) * p2 52)%Q by (rewrite !(Qmult_comm (p2 (-52))); apply mul_le_r; [exact QN|apply Qlt_le_weak, p2_pos]).
    rewrite <- p2_plus in H. change (p2 (-52 + 52)) with 1%Q in H. lra. }
  assert (Hi : (a / b <= 1 - p2 (-52))%Q).
  { apply Qle_shift_div_r; [exact Pb|]. assert (p2 (-52) * b <= p2 (-52) * p2 52)%Q by (rewrite !(Qmult_comm (p2 (-52))); apply mul_le_r; [exact QN|apply Qlt_le_weak, p2_pos]).
    rewrite <- p2_plus in H. change (p2 (-52 + 52)) with 1%Q in H. lra. }
  destruct (div_step m1 e1 m2 e2) as (m & e & E & (Bm & _) & C); [split; [exact B1|lia]|split; [exact B2|lia]| | |].
  - rewrite Hx. eapply Qle_trans; [|exact Lo]. apply Qpower_le_compat_l; [lia|unfold Qle; cbn; lia].
  - rewrite Hx. pose proof (p2_pos (-52)). apply Qle_trans with 1%Q; [lra|]. vm_compute. discriminate.
  - exists m, e. split; [exact E|]. split; [exact Bm|].
    destruct C as [_ C]. rewrite Hx in C. set (x := (a / b)%Q) in *. clearbody x.
    assert (M1 : (magnitude m e < 1)%Q).
    { eapply Qle_lt_trans; [exact C|]. eapply Qle_lt_trans; [apply mul_le_r; [exact Hi|]|]; [apply Qlt_le_weak; reflexivity|]. vm_compute. reflexivity. }
    apply Z.lt_succ_r. apply p2_lt_inv. change (Z.succ (-53)) with (-52).
    apply (Qmult_lt_l _ _ (p2 52) (p2_pos 52)). rewrite <- (p2_plus 52 (-52)). change (p2 (52 + -52)) with 1%Q.
    refine (Qle_lt_trans _ _ _ _ M1). unfold magnitude. rewrite <- p2_Z by lia. apply mul_le_r; [|apply Qlt_le_weak, p2_pos].
    apply Real_Proofs5.inj_le. lia.
Qed.

Lemma bottom_keeps k n : (0 < k < n)%nat -> Z.of_nat n <= 2 ^ 52 -> SFltb bottom (ddiv (of_size k) (of_size n)) = true.
Proof. intros H1 H2. destruct (share k n H1 H2) as (m & e & -> & _). reflexivity. Qed.
Lemma top_rejects k n : (0 < k < n)%nat -> Z.of_nat n <= 2 ^ 52 -> SFltb top (ddiv (of_size k) (of_size n)) = false.
Proof.
  intros H1 H2. destruct (share k n H1 H2) as (m & e & -> & Hm & He). unfold SFltb, top. cbn [SFcompare].
  destruct (Z.compare_spec (-53) e) as [<-|H|H]; [|lia|reflexivity].
  replace (Pos.compare_cont Eq (2 ^ 53 - 1) m) with (2 ^ 53 - 1 ?= m)%positive by reflexivity.
  destruct (Pos.compare_spec (2 ^ 53 - 1) m) as [H|H|H]; [reflexivity| |reflexivity]. lia.
Qed.

Lemma dadd_one n : (0 < n)%nat -> Z.of_nat (S n) <= 2 ^ 53 -> dadd (of_size n) (b64 1 0) = of_size (S n).
Proof.
  intros H0 H. unfold dadd, of_size.
  destruct (add_exact (b64 (Z.of_nat n) 0) (b64 1 0) (Z.of_nat n) 1) as [E|[(E & H1 & _)|(E & H1 & _)]].
  - apply small_exact. lia.
  - apply small_exact. lia.
  - lia.
  - rewrite E. replace (Z.of_nat (S n)) with (Z.of_nat n + 1) by lia. reflexivity.
  - lia.
  - lia.
Qed.
