(* The products and quotients of random selection. *)
From Verif Require Import Base Real_Spec Real_Float Real_Spec2 Real_Round Real_Proofs5 Real_Proofs6 Numstats_Proofs2 Comb_Model Rand_Model Rand_Spec.
From Coq Require Import ZArith Lia QArith Qpower Lqa SpecFloat.
Local Open Scope Z_scope.

(* a number of [0,1): zero or mantissa and exponent *)
Lemma unit_cases u : unit_double u -> (exists b, u = S754_zero b) \/
  exists m e, u = S754_finite false m e /\ 2 ^ 52 <= Zpos m < 2 ^ 53 /\ -1074 <= e <= -53.
Proof.
  intros (Hv & q & E & Hq & H1). destruct u as [b|b| |b m e]; cbn [value] in E; try discriminate; [left; eauto|right].
  pose proof (magnitude_pos m e) as Pm. cbn [valid_binary] in Hv. destruct b.
  - assert (q = (- magnitude m e)%Q) by congruence. subst q. pose proof (p2_pos (-1022)). exfalso. destruct Hq; lra.
  - assert (q = magnitude m e) by congruence. subst q. exists m, e. split; [reflexivity|].
    destruct (valid_normal m e Hv) as (Hm & He); [destruct Hq; [exfalso; lra|assumption]|]. split; [exact Hm|]. split; [lia|].
    apply Z.lt_succ_r. apply p2_lt_inv. change (Z.succ (-53)) with (-52).
    apply (Qmult_lt_l _ _ (p2 52) (p2_pos 52)). rewrite <- (p2_plus 52 (-52)). change (p2 (52 + -52)) with 1%Q.
    refine (Qle_lt_trans _ _ _ _ H1). unfold magnitude. rewrite <- p2_Z by lia. apply mul_le_r; [|apply Qlt_le_weak, p2_pos].
    apply Real_Proofs5.inj_le. lia.
Qed.

(* the integer part of m * 2^e *)
Definition whole (m : Z) (e : Z) : Z := if 0 <=? e then m * 2 ^ e else m / 2 ^ (- e).
Lemma p2_opp e : (p2 e * p2 (- e) == 1)%Q.
Proof. rewrite <- p2_plus. replace (e + - e) with 0 by lia. reflexivity. Qed.
Lemma whole_spec m e : (inject_Z (whole (Zpos m) e) <= magnitude m e < inject_Z (whole (Zpos m) e + 1))%Q.
Proof.
  unfold whole, magnitude. destruct (Z.leb_spec 0 e) as [He|He].
  - rewrite inject_Z_plus, inject_Z_mult, p2_Z by lia. change (inject_Z 1) with 1%Q. set (x := (inject_Z (Zpos m) * p2 e)%Q). lra.
  - assert (P : 0 < 2 ^ (- e)) by (apply Z.pow_pos_nonneg; lia).
    pose proof (Z.div_mod (Zpos m) (2 ^ (- e)) ltac:(lia)) as DM. pose proof (Z.mod_pos_bound (Zpos m) (2 ^ (- e)) P) as MB.
    set (w := Zpos m / 2 ^ (- e)) in *. pose proof (p2_pos e) as Pe. pose proof (p2_opp e) as Po.
    assert (E : (inject_Z w == inject_Z (w * 2 ^ (- e)) * p2 e)%Q) by (rewrite inject_Z_mult, p2_Z by lia; rewrite <- Qmult_assoc, (Qmult_comm (p2 (- e))), Po; ring).
    assert (E1 : (inject_Z (w + 1) == inject_Z ((w + 1) * 2 ^ (- e)) * p2 e)%Q) by (rewrite (inject_Z_mult (w + 1)), p2_Z by lia; rewrite <- Qmult_assoc, (Qmult_comm (p2 (- e))), Po; ring).
    rewrite E, E1. split; [apply mul_le_r; [apply Real_Proofs5.inj_le; lia|lra]|apply mul_lt_r; [apply Real_Proofs5.inj_lt; lia|lra]].
Qed.
Lemma whole_below m e V : (magnitude m e < inject_Z V)%Q -> 0 <= whole (Zpos m) e < V.
Proof.
  intros H. destruct (whole_spec m e) as [H1 H2]. split.
  - apply Z.lt_succ_r. rewrite Zlt_Qlt. change (Z.succ (whole (Zpos m) e)) with (whole (Zpos m) e + 1). eapply Qlt_trans; [|exact H2]. apply magnitude_pos.
  - rewrite Zlt_Qlt. eapply Qle_lt_trans; eassumption.
Qed.
Lemma whole_is m e V : (inject_Z V <= magnitude m e)%Q -> (magnitude m e < inject_Z (V + 1))%Q -> whole (Zpos m) e = V.
Proof.
  intros H1 H2. destruct (whole_spec m e) as [H3 H4].
  assert (V < whole (Zpos m) e + 1) by (rewrite Zlt_Qlt; eapply Qle_lt_trans; eassumption).
  assert (whole (Zpos m) e < V + 1) by (rewrite Zlt_Qlt; eapply Qle_lt_trans; eassumption). lia.
Qed.
Lemma to_size_whole m e n : 0 <= n < 2 ^ 64 -> whole (Zpos m) e = n -> to_size (S754_finite false m e) = Ok (Z.to_nat n).
Proof.
  intros Hn E. unfold to_size. fold (whole (Zpos m) e). rewrite E. cbv zeta.
  destruct (Z.eqb_spec n 0) as [->|H0]; [reflexivity|]. destruct (Z.ltb_spec n (2 ^ 64)); [reflexivity|lia].
Qed.

(* a size: mantissa and exponent *)
Lemma size_cases n : (0 < n)%nat -> Z.of_nat n <= 2 ^ 53 -> exists m e, of_size n = S754_finite false m e /\
  2 ^ 52 <= Zpos m < 2 ^ 53 /\ -52 <= e <= 1 /\ (e <= 0 /\ Zpos m = Z.of_nat n * 2 ^ (- e) \/ e = 1 /\ Z.of_nat n = 2 ^ 53 /\ Zpos m = 2 ^ 52).
Proof.
  intros H0 Hn. unfold of_size. destruct (small_exact (Z.of_nat n) ltac:(lia)) as [[H _]|(m & e & E & D & L)]; [lia|].
  exists m, e. split; [exact E|].
  assert (B : 2 ^ 52 <= Zpos m < 2 ^ 53). { pose proof (Z.log2_spec (Zpos m) eq_refl) as K. rewrite L in K. exact K. }
  split; [exact B|]. destruct D as [[He D]|[He D]].
  - destruct (Z.eq_dec e 0) as [->|Ne]; [split; [lia|left; split; [lia|]; change (2 ^ 0) with 1 in D; change (2 ^ (- 0)) with 1; lia]|].
    assert (e = 1 /\ Zpos m = 2 ^ 52) as [-> Em].
    { assert (2 ^ e <= 2).
      { destruct (Z.le_gt_cases (2 ^ e) 2) as [|K]; [assumption|]. exfalso. assert (2 ^ e <= 2 ^ 2 -> 2 ^ e = 2 ^ 2 \/ e < 2) by (intros; destruct (Z.lt_ge_cases e 2); [auto|left; assert (2 ^ 2 <= 2 ^ e) by (apply Z.pow_le_mono_r; lia); lia]). nia. }
      assert (e < 2). { destruct (Z.lt_ge_cases e 2); [assumption|]. assert (2 ^ 2 <= 2 ^ e) by (apply Z.pow_le_mono_r; lia). lia. }
      assert (e = 1) as -> by lia. split; [reflexivity|]. change (2 ^ 1) with 2 in D. lia. }
    split; [lia|]. right. rewrite Em in D. split; [reflexivity|]. split; [|exact Em]. rewrite D. reflexivity.
  - assert (- e < 53). { destruct (Z.lt_ge_cases (- e) 53); [assumption|]. assert (2 ^ 53 <= 2 ^ (- e)) by (apply Z.pow_le_mono_r; lia). nia. }
    split; [lia|]. left. auto.
Qed.

Lemma between I A n x z : 0 <= I < 2 ^ 51 -> 0 <= n -> 0 <= A -> I * 2 ^ A <= x -> 2 * x <= (2 * I + 1) * 2 ^ A ->
  2 ^ (n + 52) <= x -> - (2 ^ n) <= 2 * (z * 2 ^ n - x) <= 2 ^ n -> n + 1 < A /\ I * 2 ^ (A - n) <= z /\ z < (I + 1) * 2 ^ (A - n).
Proof.
  intros HI Hn HA G1 G2 G3 Ez. rewrite Z.pow_add_r in G3 by lia. assert (Pn : 0 < 2 ^ n) by (apply Z.pow_pos_nonneg; lia).
  assert (G4 : n + 1 < A).
  { destruct (Z.lt_ge_cases (n + 1) A) as [|K]; [assumption|]. exfalso.
    assert (K1 : 2 ^ A <= 2 ^ (n + 1)) by (apply Z.pow_le_mono_r; lia). rewrite Z.pow_add_r in K1 by lia. change (2 ^ 1) with 2 in K1.
    assert ((2 * I + 1) * 2 ^ A <= (2 * I + 1) * (2 ^ n * 2)) by (apply Z.mul_le_mono_nonneg_l; lia).
    assert ((2 * I + 1) * (2 ^ n * 2) <= (2 ^ 52 - 1) * (2 ^ n * 2)) by (apply Z.mul_le_mono_nonneg_r; lia). lia. }
  split; [exact G4|]. set (B := 2 ^ (A - n - 1)). assert (PB : 0 < B) by (apply Z.pow_pos_nonneg; lia).
  assert (EB : 2 ^ (A - n) = 2 * B) by (unfold B; rewrite <- Z.pow_succ_r by lia; f_equal; lia).
  assert (EA : 2 ^ A = 2 * B * 2 ^ n) by (rewrite <- EB, <- Z.pow_add_r by lia; f_equal; lia).
  rewrite EB. rewrite EA in *. set (P := 2 ^ n) in *. clearbody P B. split.
  - destruct (Z.le_gt_cases (I * (2 * B)) z) as [|K]; [assumption|]. exfalso.
    assert ((z + 1) * P <= I * (2 * B) * P) by (apply Z.mul_le_mono_nonneg_r; lia). lia.
  - destruct (Z.lt_ge_cases z ((I + 1) * (2 * B))) as [|K]; [assumption|]. exfalso.
    assert ((I + 1) * (2 * B) * P <= z * P) by (apply Z.mul_le_mono_nonneg_r; lia).
    assert (1 * P <= B * P) by (apply Z.mul_le_mono_nonneg_r; lia). lia.
Qed.

Section Product.
Variable N : nat.
Hypothesis N0 : (0 < N)%nat.
Hypothesis N1 : Z.of_nat N <= 2 ^ 53.

(* what multiplying by a number of [0,1) gives *)
Lemma product_round m2 e2 : 2 ^ 52 <= Zpos m2 < 2 ^ 53 -> -1074 <= e2 <= -53 ->
  exists m1 e1 z n m e, of_size N = S754_finite false m1 e1 /\ 2 ^ 52 <= Zpos m1 < 2 ^ 53 /\ -52 <= e1 <= 1 /\
    (e1 <= 0 /\ Zpos m1 = Z.of_nat N * 2 ^ (- e1) \/ e1 = 1 /\ Z.of_nat N = 2 ^ 53 /\ Zpos m1 = 2 ^ 52) /\
    n = Z.log2 (Zpos m1 * Zpos m2) - 52 /\ 52 <= n <= 53 /\ 2 ^ 52 <= z <= 2 ^ 53 /\
    - (2 ^ n) <= 2 * (z * 2 ^ n - Zpos m1 * Zpos m2) <= 2 ^ n /\
    dmul (of_size N) (S754_finite false m2 e2) = S754_finite false m e /\
    (Zpos m = z /\ e = e1 + e2 + n \/ 2 * Zpos m = z /\ e = e1 + e2 + n + 1).
Proof.
  intros B2 He2. destruct (size_cases N N0 N1) as (m1 & e1 & -> & B1 & He1 & D).
  exists m1, e1. unfold dmul. cbn [SFmul xorb].
  assert (LB : 104 <= Z.log2 (Zpos m1 * Zpos m2) <= 105).
  { pose proof (Z.log2_mul_below (Zpos m1) (Zpos m2) ltac:(lia) ltac:(lia)) as K1. pose proof (Z.log2_mul_above (Zpos m1) (Zpos m2) ltac:(lia) ltac:(lia)) as K2.
    rewrite (log2_53 _ B1), (log2_53 _ B2) in K1, K2. lia. }
  destruct (aux_normal 53 1024 ltac:(lia) false (Zpos (m1 * m2)) (e1 + e2) loc_Exact (Zpos (m1 * m2)) 1) as (z & Bz & Ez & Er).
  - lia.
  - rewrite Pos2Z.inj_mul. lia.
  - rewrite Pos2Z.inj_mul. lia.
  - lia.
  - cbn [inb]. lia.
  - rewrite Pos2Z.inj_mul in Ez, Er. replace (Z.log2 (Zpos m1 * Zpos m2) + 1 - 53) with (Z.log2 (Zpos m1 * Zpos m2) - 52) in * by lia.
    rewrite <- Pos2Z.inj_mul in Er.
    set (n := Z.log2 (Zpos (m1 * m2)) - 52) in Er.
    assert (En : Z.log2 (Zpos m1 * Zpos m2) - 52 = n) by (unfold n; now rewrite Pos2Z.inj_mul). rewrite En in Ez. rewrite Z.mul_1_l in Ez.
    destruct Er as [(Hz & Er)|(Hz & Er)].
    + exists z, n, (Z.to_pos z), (e1 + e2 + n). repeat (split; [solve [auto|lia]|]).
      replace (Zle_bool (e1 + e2 + n) (1024 - 53)) with true in Er by (symmetry; apply Z.leb_le; lia). split; [exact Er|]. left. split; [apply Z2Pos.id; lia|lia].
    + exists z, n, (Z.to_pos (2 ^ 52)), (e1 + e2 + n + 1). repeat (split; [solve [auto|lia]|]).
      replace (Zle_bool (e1 + e2 + n + 1) (1024 - 53)) with true in Er by (symmetry; apply Z.leb_le; lia). split; [exact Er|]. right. split; [rewrite Hz; reflexivity|lia].
Qed.

Lemma product_value z n m e e1 e2 : 0 <= n -> Zpos m = z /\ e = e1 + e2 + n \/ 2 * Zpos m = z /\ e = e1 + e2 + n + 1 ->
  (magnitude m e == inject_Z (z * 2 ^ n) * p2 e1 * p2 e2)%Q.
Proof.
  intros Hn [(<- & ->)|(<- & ->)]; unfold magnitude; rewrite !inject_Z_mult, (p2_Z n), !p2_plus by lia; [ring|].
  change (inject_Z 2) with (p2 1). ring.
Qed.
Lemma size_value m1 e1 : e1 <= 0 /\ Zpos m1 = Z.of_nat N * 2 ^ (- e1) \/ e1 = 1 /\ Z.of_nat N = 2 ^ 53 /\ Zpos m1 = 2 ^ 52 ->
  (inject_Z (Zpos m1) * p2 e1 == inject_Z (Z.of_nat N))%Q.
Proof.
  intros [(H & ->)|(-> & -> & ->)]; [|reflexivity]. rewrite inject_Z_mult, p2_Z by lia. pose proof (p2_opp e1) as E.
  rewrite <- Qmult_assoc, (Qmult_comm (p2 (- e1))), E. ring.
Qed.

Lemma index_in_range u : unit_double u -> exists i, to_size (dmul (of_size N) u) = Ok i /\ (i < N)%nat.
Proof.
  intros Hu. apply unit_cases in Hu. destruct Hu as [(b & ->)|(m2 & e2 & -> & B2 & He2)].
  { exists 0%nat. split; [|lia]. destruct (size_cases N N0 N1) as (m1 & e1 & -> & _). destruct b; reflexivity. }
  destruct (product_round m2 e2 B2 He2) as (m1 & e1 & z & n & m & e & E1 & B1 & He1 & D & En & Bn & Bz & Ez & -> & Em).
  assert (K : z * 2 ^ n < Zpos m1 * 2 ^ 53).
  { destruct (Z.eq_dec (Zpos m1) (2 ^ 52)) as [E|E].
    - assert (n = 52) as ->. { enough (Z.log2 (Zpos m1 * Zpos m2) < 105) by lia. apply Z.log2_lt_pow2; nia. }
      rewrite E in *. lia.
    - assert (2 ^ n <= 2 ^ 53) by (apply Z.pow_le_mono_r; lia). nia. }
  assert (W : 0 <= whole (Zpos m) e < Z.of_nat N).
  { apply whole_below. rewrite (product_value z n m e e1 e2 ltac:(lia) Em), <- (size_value m1 e1 D).
    pose proof (p2_pos e1) as P1. pose proof (p2_pos e2) as P2.
    apply Qlt_le_trans with (inject_Z (Zpos m1 * 2 ^ 53) * p2 e1 * p2 e2)%Q.
    - apply mul_lt_r; [|exact P2]. apply mul_lt_r; [|exact P1]. now apply Real_Proofs5.inj_lt.
    - rewrite inject_Z_mult, p2_Z by lia.
      assert (L : (p2 53 * p2 e2 <= 1)%Q).
      { rewrite <- p2_plus. change 1%Q with (p2 0). apply Qpower_le_compat_l; [lia|unfold Qle; cbn; lia]. }
      assert (0 <= inject_Z (Zpos m1))%Q by (apply (Real_Proofs5.inj_le 0); lia).
      setoid_replace (inject_Z (Zpos m1) * p2 53 * p2 e1 * p2 e2)%Q with ((p2 53 * p2 e2) * (inject_Z (Zpos m1) * p2 e1))%Q by ring.
      setoid_replace (inject_Z (Zpos m1) * p2 e1)%Q with (1 * (inject_Z (Zpos m1) * p2 e1))%Q at 2 by ring.
      apply mul_le_r; [exact L|]. apply Qmult_le_0_compat; lra. }
  exists (Z.to_nat (whole (Zpos m) e)). split; [|lia]. apply to_size_whole; [lia|reflexivity].
Qed.

(* every index can be drawn *)
Lemma index_reachable i : Z.of_nat N <= 2 ^ 51 -> (i < N)%nat -> exists u, unit_double u /\ to_size (dmul (of_size N) u) = Ok i.
Proof.
  intros N2 Hi. destruct (Nat.eq_dec i 0) as [->|I0].
  { exists (S754_zero false). split.
    - split; [reflexivity|]. exists 0%Q. split; [reflexivity|]. split; [left; reflexivity|reflexivity].
    - destruct (size_cases N N0 N1) as (m1 & e1 & -> & _). reflexivity. }
  set (I := Z.of_nat i). set (M := Z.of_nat N) in *. assert (HI : 0 < I < M) by lia.
  set (k := (I * 2 ^ 53 + M - 1) / M).
  assert (Hk : I * 2 ^ 53 <= M * k < I * 2 ^ 53 + M).
  { unfold k. pose proof (Z.div_mod (I * 2 ^ 53 + M - 1) M ltac:(lia)) as DM. pose proof (Z.mod_pos_bound (I * 2 ^ 53 + M - 1) M ltac:(lia)). lia. }
  assert (K0 : 0 < k).
  { destruct (Z.lt_ge_cases 0 k) as [|K]; [assumption|]. assert (M * k <= M * 0) by (apply Z.mul_le_mono_nonneg_l; lia). lia. }
  assert (K1 : k < 2 ^ 53).
  { destruct (Z.lt_ge_cases k (2 ^ 53)) as [|K]; [assumption|]. assert (M * 2 ^ 53 <= M * k) by (apply Z.mul_le_mono_nonneg_l; lia). lia. }
  set (L := Z.log2 k). pose proof (Z.log2_spec k K0) as KL. fold L in KL.
  assert (L0 : 0 <= L) by apply Z.log2_nonneg. assert (L1 : L < 53) by (apply Z.log2_lt_pow2; lia).
  set (m := k * 2 ^ (52 - L)).
  assert (Bm : 2 ^ 52 <= m < 2 ^ 53).
  { unfold m. assert (P : 0 < 2 ^ (52 - L)) by (apply Z.pow_pos_nonneg; lia).
    replace (2 ^ 52) with (2 ^ L * 2 ^ (52 - L)) by (rewrite <- Z.pow_add_r by lia; f_equal; lia).
    replace (2 ^ 53) with (2 ^ (Z.succ L) * 2 ^ (52 - L)) by (rewrite <- Z.pow_add_r by lia; f_equal; lia).
    split; [apply Z.mul_le_mono_nonneg_r|apply Z.mul_lt_mono_pos_r]; lia. }
  destruct m as [|m2|m2] eqn:Em2; try lia. set (e2 := -53 - (52 - L)).
  assert (Dm2 : Zpos m2 * 2 ^ 53 = k * 2 ^ (- e2)).
  { rewrite <- Em2. unfold m. rewrite <- Z.mul_assoc, <- Z.pow_add_r by lia. f_equal. f_equal. unfold e2. lia. }
  assert (He2 : e2 <= -53 /\ -105 <= e2) by (unfold e2; lia). clearbody e2.
  exists (S754_finite false m2 e2). split.
  - split.
    + cbn [valid_binary]. unfold bounded, canonical_mantissa. rewrite digits_log, (log2_53 _ Bm). apply andb_true_iff. split; [|apply Z.leb_le; lia].
      apply Zeq_is_eq_bool. unfold fexp, emin. lia.
    + exists (magnitude m2 e2). split; [reflexivity|]. split; [right; apply normal_low; split; [exact Bm|lia]|].
      unfold magnitude. apply Qlt_le_trans with (inject_Z (2 ^ 53) * p2 e2)%Q; [apply mul_lt_r; [apply Real_Proofs5.inj_lt; exact (proj2 Bm)|apply p2_pos]|].
      rewrite p2_Z, <- p2_plus by lia. change 1%Q with (p2 0). apply Qpower_le_compat_l; [lia|unfold Qle; cbn; lia].
  - destruct (product_round m2 e2 Bm ltac:(lia)) as (m1 & e1 & z & n & m' & e & E1 & B1 & He1 & D & En & Bn & Bz & Ez & -> & Em).
    destruct D as [(He & D1)|(_ & D & _)]; [|fold M in D; lia]. fold M in D1.
    set (A := - e1 - e2). assert (EA : Zpos m1 * Zpos m2 * 2 ^ 53 = M * k * 2 ^ A).
    { rewrite D1, <- Z.mul_assoc, Dm2. unfold A. replace (- e1 - e2) with (- e1 + - e2) by lia. rewrite Z.pow_add_r by (lia). ring. }
    assert (PA : 0 < 2 ^ A) by (apply Z.pow_pos_nonneg; unfold A; lia).
    set (x := Zpos m1 * Zpos m2) in *. assert (EA0 : A = - e1 - e2) by reflexivity. assert (A0 : 0 <= A) by (unfold A; lia). assert (X0 : 0 < x) by (unfold x; lia). clearbody k A x.
    assert (G1 : I * 2 ^ A <= x).
    { assert (I * 2 ^ 53 * 2 ^ A <= M * k * 2 ^ A) by (apply Z.mul_le_mono_nonneg_r; lia). lia. }
    assert (G2 : 2 * x <= (2 * I + 1) * 2 ^ A).
    { assert (M * k * 2 ^ A <= (I * 2 ^ 53 + 2 ^ 52) * 2 ^ A) by (apply Z.mul_le_mono_nonneg_r; lia). lia. }
    assert (G3 : 2 ^ (n + 52) <= x) by (replace (n + 52) with (Z.log2 x) by lia; apply Z.log2_spec; lia).
    destruct (between I A n x z) as (G4 & Z1 & Z2); try assumption; try lia. set (D := A - n) in *.
    assert (V : (magnitude m' e == inject_Z z * p2 (- D))%Q).
    { rewrite (product_value z n m' e e1 e2 ltac:(lia) Em), inject_Z_mult, p2_Z, <- !Qmult_assoc, <- !p2_plus by lia.
      replace (n + (e1 + e2)) with (- D) by (unfold D; lia). reflexivity. }
    pose proof (p2_pos (- D)) as Pd. assert (P1 : (p2 D * p2 (- D) == 1)%Q) by apply p2_opp.
    rewrite (to_size_whole m' e I); [unfold I; now rewrite Nat2Z.id|lia|].
    apply whole_is; rewrite V.
    + setoid_replace (inject_Z I)%Q with (inject_Z (I * 2 ^ D) * p2 (- D))%Q.
      2:{ rewrite inject_Z_mult, p2_Z, <- Qmult_assoc, P1 by lia. ring. }
      apply mul_le_r; [now apply Real_Proofs5.inj_le|lra].
    + setoid_replace (inject_Z (I + 1))%Q with (inject_Z ((I + 1) * 2 ^ D) * p2 (- D))%Q.
      2:{ rewrite (inject_Z_mult (I + 1)), p2_Z, <- Qmult_assoc, P1 by lia. ring. }
      apply mul_lt_r; [now apply Real_Proofs5.inj_lt|lra].
Qed.
End Product.

Lemma dmul_comm a b : dmul a b = dmul b a.
Proof.
  unfold dmul. destruct a as [s|s| |s m e], b as [s'|s'| |s' m' e']; cbn [SFmul]; try reflexivity; rewrite ?(xorb_comm s s'); try reflexivity.
  f_equal; [f_equal; apply Pos.mul_comm|apply Z.add_comm].
Qed.
