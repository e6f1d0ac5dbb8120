(* Exact sums and products of IEEE doubles that hold integers. *)
From Coq Require Import ZArith Lia SpecFloat.
Local Open Scope Z_scope.

Notation aux := (binary_round_aux 53 1024).
Notation R V := (binary_normalize 53 1024 V 0 false).

Lemma digits_log p : Zpos (digits2_pos p) = Z.log2 (Zpos p) + 1.
Proof.
  induction p as [p IH|p IH|]; cbn [digits2_pos]; [| |reflexivity].
  - rewrite Pos2Z.inj_succ, IH. rewrite Pos2Z.inj_xI. rewrite Z.log2_succ_double by lia. lia.
  - rewrite Pos2Z.inj_succ, IH. rewrite Pos2Z.inj_xO. rewrite Z.log2_double by lia. lia.
Qed.
Lemma zdigits_log m : 0 < m -> Zdigits2 m = Z.log2 m + 1.
Proof. destruct m; try lia. intros _. cbn [Zdigits2]. apply digits_log. Qed.

Lemma iter_pos_nat {A} (f : A -> A) p : forall x, iter_pos f p x = Nat.iter (Pos.to_nat p) f x.
Proof.
  assert (C : forall n x, Nat.iter n f (f x) = f (Nat.iter n f x)).
  { intros n x. induction n as [|n IH]; [reflexivity|]. exact (f_equal f IH). }
  assert (S : forall n k x, Nat.iter n f (Nat.iter k f x) = Nat.iter (n + k) f x).
  { intros n k x. induction n as [|n IH]; [reflexivity|]. exact (f_equal f IH). }
  induction p as [p IH|p IH|]; intros x; cbn [iter_pos].
  - rewrite !IH, S, C. rewrite Pos2Nat.inj_xI. replace (Datatypes.S (2 * Pos.to_nat p))%nat with (Datatypes.S (Pos.to_nat p + Pos.to_nat p)) by lia. reflexivity.
  - rewrite !IH, S. rewrite Pos2Nat.inj_xO. f_equal. lia.
  - reflexivity.
Qed.

Definition clean m := Build_shr_record m false false.
Lemma shr_1_clean m : 0 < m -> shr_1 (clean (2 * m)) = clean m.
Proof. destruct m; try lia. reflexivity. Qed.
Lemma iter_clean k m : 0 < m -> Nat.iter k shr_1 (clean (m * 2 ^ Z.of_nat k)) = clean m.
Proof.
  revert m. induction k as [|k IH]; intros m Hm.
  - cbn. f_equal. lia.
  - change (Nat.iter (S k) shr_1 ?x) with (shr_1 (Nat.iter k shr_1 x)).
    replace (m * 2 ^ Z.of_nat (S k)) with ((2 * m) * 2 ^ Z.of_nat k) by (rewrite Nat2Z.inj_succ, Z.pow_succ_r by lia; ring).
    rewrite IH by lia. now apply shr_1_clean.
Qed.
Lemma iter_add {A} (f : A -> A) n k x : Nat.iter (n + k) f x = Nat.iter n f (Nat.iter k f x).
Proof. induction n as [|n IH]; [reflexivity|]. exact (f_equal f IH). Qed.

(* shr by n >= 0 *)
Lemma shr_nat mrs e n : 0 <= n -> shr mrs e n = (Nat.iter (Z.to_nat n) shr_1 mrs, e + n).
Proof.
  intros H. destruct n as [|p|p]; [|cbn [shr]; now rewrite iter_pos_nat|lia]. cbn. f_equal. lia.
Qed.
Lemma log2_shift m j : 0 < m -> 0 <= j -> Z.log2 (m * 2 ^ j) = Z.log2 m + j.
Proof. intros Hm Hj. rewrite Z.log2_mul_pow2 by lia. lia. Qed.

Lemma fexp_eq d : -1074 + 53 <= d -> fexp 53 1024 d = d - 53.
Proof. intros H. unfold fexp, emin. lia. Qed.

Lemma shr_fexp_shift m e j : 0 < m -> 0 <= j -> 53 <= Z.log2 m + 1 -> -1021 <= Z.log2 m + 1 + e ->
  shr_fexp 53 1024 (m * 2 ^ j) (e - j) loc_Exact = shr_fexp 53 1024 m e loc_Exact.
Proof.
  intros Hm Hj Hd He. unfold shr_fexp.
  assert (0 < 2 ^ j) by (apply Z.pow_pos_nonneg; lia).
  rewrite !zdigits_log by nia. rewrite log2_shift by lia. rewrite !fexp_eq by lia.
  rewrite !shr_nat by lia. cbn [shr_record_of_loc]. fold (clean m). fold (clean (m * 2 ^ j)). f_equal; [|lia].
  replace (Z.to_nat (Z.log2 m + j + 1 + (e - j) - 53 - (e - j))) with (Z.to_nat (Z.log2 m + 1 - 53) + Z.to_nat j)%nat by lia.
  rewrite iter_add. rewrite <- (Z2Nat.id j) at 2 by lia. rewrite iter_clean by lia. f_equal. lia.
Qed.
Lemma aux_shift s m e j : 0 < m -> 0 <= j -> 53 <= Z.log2 m + 1 -> -1021 <= Z.log2 m + 1 + e ->
  aux s (m * 2 ^ j) (e - j) loc_Exact = aux s m e loc_Exact.
Proof. intros. unfold binary_round_aux. now rewrite shr_fexp_shift. Qed.

Lemma shift_pos_pow d m : Zpos (shift_pos d m) = Zpos m * 2 ^ Zpos d.
Proof. rewrite shift_pos_correct. change (2 ^ Zpos d) with (Zpower_pos 2 d). ring. Qed.

Lemma log2_pos m : 0 < m -> 0 <= Z.log2 m.
Proof. intros. apply Z.log2_nonneg. Qed.

(* rounding depends on the value only *)
Lemma round_any s m e j : 0 <= j -> 53 <= Z.log2 (Zpos m) + 1 + j -> -1021 <= Z.log2 (Zpos m) + 1 + e ->
  binary_round 53 1024 s m e = aux s (Zpos m * 2 ^ j) (e - j) loc_Exact.
Proof.
  intros Hj Hd He. unfold binary_round, shl_align. rewrite digits_log, fexp_eq by lia.
  set (L := Z.log2 (Zpos m)) in *.
  assert (HL : 0 <= L) by apply Z.log2_nonneg.
  destruct (L + 1 + e - 53 - e) as [|k|k] eqn:E.
  - symmetry. rewrite (aux_shift s (Zpos m) e j); fold L; try lia. reflexivity.
  - symmetry. rewrite (aux_shift s (Zpos m) e j); fold L; try lia. reflexivity.
  - rewrite shift_pos_pow. replace (L + 1 + e - 53) with (e - Zpos k) by lia.
    replace (Zpos m * 2 ^ j) with (Zpos m * 2 ^ Zpos k * 2 ^ (j - Zpos k)).
    2:{ rewrite <- Z.mul_assoc, <- Z.pow_add_r by lia. do 2 f_equal. lia. }
    replace (e - j) with (e - Zpos k - (j - Zpos k)) by lia.
    symmetry. apply aux_shift; try lia.
    + rewrite log2_shift by lia. fold L. lia.
    + rewrite log2_shift by lia. fold L. lia.
Qed.

(* (m,e) denotes the integer V *)
Definition denotes (m : positive) (e V : Z) : Prop :=
  0 <= e /\ V = Zpos m * 2 ^ e \/ e <= 0 /\ Zpos m = V * 2 ^ (- e).
Lemma denotes_pos m e V : denotes m e V -> 0 < V.
Proof.
  intros [[H ->]|[H E]]; [assert (0 < 2 ^ e) by (apply Z.pow_pos_nonneg; lia); nia|].
  assert (0 < 2 ^ (- e)) by (apply Z.pow_pos_nonneg; lia). nia.
Qed.
Lemma denotes_log m e V : denotes m e V -> Z.log2 (Zpos m) + e = Z.log2 V.
Proof.
  intros D. assert (HV := denotes_pos _ _ _ D). destruct D as [[H ->]|[H E]].
  - rewrite log2_shift by lia. lia.
  - rewrite E, log2_shift by lia. lia.
Qed.

Lemma round_denotes m e V : denotes m e V -> binary_round 53 1024 false m e = R V.
Proof.
  intros D. assert (HV := denotes_pos _ _ _ D). assert (HL := denotes_log _ _ _ D).
  assert (HL0 := Z.log2_nonneg V).
  destruct V as [|V|V]; try lia. cbn [binary_normalize].
  destruct D as [[H E]|[H E]].
  - rewrite (round_any false m e (e + 53)) by lia. rewrite (round_any false V 0 53) by lia. f_equal; [|lia].
    rewrite E, <- Z.mul_assoc, <- Z.pow_add_r by lia. reflexivity.
  - rewrite (round_any false m e 53) by lia. rewrite (round_any false V 0 (53 - e)) by lia. f_equal; [|lia].
    rewrite E, <- Z.mul_assoc, <- Z.pow_add_r by lia. do 2 f_equal. lia.
Qed.
Lemma aux_denotes m e V : denotes m e V -> 53 <= Z.log2 (Zpos m) + 1 -> aux false (Zpos m) e loc_Exact = R V.
Proof.
  intros D H. assert (HL := denotes_log _ _ _ D). assert (HL0 := Z.log2_nonneg V). rewrite <- (round_denotes m e V D).
  rewrite (round_any false m e 0) by lia. f_equal; lia.
Qed.

(* an integer that is represented exactly *)
Definition exactly (x : spec_float) (V : Z) : Prop :=
  V = 0 /\ x = S754_zero false \/ exists m e, x = S754_finite false m e /\ denotes m e V /\ Z.log2 (Zpos m) = 52.

Lemma denotes_mul m1 e1 V1 m2 e2 V2 : denotes m1 e1 V1 -> denotes m2 e2 V2 -> denotes (m1 * m2) (e1 + e2) (V1 * V2).
Proof.
  intros D1 D2. unfold denotes. rewrite Pos2Z.inj_mul.
  destruct D1 as [[H1 ->]|[H1 ->]], D2 as [[H2 ->]|[H2 ->]].
  - left. split; [lia|]. rewrite Z.pow_add_r by lia. ring.
  - destruct (Z.le_ge_cases 0 (e1 + e2)) as [H|H]; [left|right]; (split; [lia|]).
    + replace (2 ^ e1) with (2 ^ (e1 + e2) * 2 ^ (- e2)) by (rewrite <- Z.pow_add_r by lia; f_equal; lia). ring.
    + replace (2 ^ (- e2)) with (2 ^ e1 * 2 ^ (- (e1 + e2))) by (rewrite <- Z.pow_add_r by lia; f_equal; lia). ring.
  - destruct (Z.le_ge_cases 0 (e1 + e2)) as [H|H]; [left|right]; (split; [lia|]).
    + replace (2 ^ e2) with (2 ^ (e1 + e2) * 2 ^ (- e1)) by (rewrite <- Z.pow_add_r by lia; f_equal; lia). ring.
    + replace (2 ^ (- e1)) with (2 ^ e2 * 2 ^ (- (e1 + e2))) by (rewrite <- Z.pow_add_r by lia; f_equal; lia). ring.
  - right. split; [lia|]. replace (- (e1 + e2)) with (- e1 + - e2) by lia. rewrite Z.pow_add_r by lia. ring.
Qed.

Lemma mul_exact x y V W : exactly x V -> exactly y W -> SFmul 53 1024 x y = R (V * W).
Proof.
  intros [[-> ->]|(m1 & e1 & -> & D1 & L1)] [[-> ->]|(m2 & e2 & -> & D2 & L2)].
  - reflexivity.
  - reflexivity.
  - rewrite Z.mul_0_r. reflexivity.
  - cbn [SFmul xorb]. apply aux_denotes; [now apply denotes_mul|].
    rewrite Pos2Z.inj_mul. assert (H := Z.log2_mul_below (Zpos m1) (Zpos m2) ltac:(lia) ltac:(lia)). lia.
Qed.

Lemma shl_align_ok m e ez : ez <= e -> Zpos (fst (shl_align m e ez)) = Zpos m * 2 ^ (e - ez).
Proof.
  intros H. unfold shl_align. destruct (ez - e) as [|k|k] eqn:E; [|lia|].
  - replace (e - ez) with 0 by lia. cbn. lia.
  - cbn [fst]. rewrite shift_pos_pow. do 2 f_equal. lia.
Qed.

Lemma add_exact x y V W : exactly x V -> exactly y W -> 0 < V + W -> SFadd 53 1024 x y = R (V + W) \/ (x = S754_zero false /\ W = V + W /\ SFadd 53 1024 x y = y) \/ (y = S754_zero false /\ V = V + W /\ SFadd 53 1024 x y = x).
Proof.
  intros [[-> ->]|(m1 & e1 & -> & D1 & L1)] [[-> ->]|(m2 & e2 & -> & D2 & L2)] Hp.
  - lia.
  - right. left. repeat split.
  - right. right. repeat split. lia.
  - left. cbn [SFadd]. cbn [cond_Zopp]. rewrite !shl_align_ok by lia.
    assert (P1 := denotes_pos _ _ _ D1). assert (P2 := denotes_pos _ _ _ D2).
    set (ez := Z.min e1 e2) in *.
    assert (Q1 : 0 < 2 ^ (e1 - ez)) by (apply Z.pow_pos_nonneg; lia).
    assert (Q2 : 0 < 2 ^ (e2 - ez)) by (apply Z.pow_pos_nonneg; lia).
    set (M := Zpos m1 * 2 ^ (e1 - ez) + Zpos m2 * 2 ^ (e2 - ez)).
    assert (HM : 0 < M) by nia. destruct M as [|mm|mm] eqn:EM; try lia. cbn [binary_normalize].
    apply round_denotes.
    assert (A : forall m e v, denotes m e v -> ez <= e -> (0 <= ez /\ v = Zpos m * 2 ^ (e - ez) * 2 ^ ez) \/ (ez <= 0 /\ Zpos m * 2 ^ (e - ez) = v * 2 ^ (- ez))).
    { intros m e v [[H ->]|[H ->]] He.
      - destruct (Z.le_ge_cases 0 ez) as [Hz|Hz]; [left|right]; (split; [lia|]); rewrite <- Z.mul_assoc, <- Z.pow_add_r by lia; do 2 f_equal; lia.
      - right. split; [lia|]. rewrite <- Z.mul_assoc, <- Z.pow_add_r by lia. do 2 f_equal; lia. }
    destruct (A m1 e1 V D1 ltac:(lia)) as [[H1 E1]|[H1 E1]], (A m2 e2 W D2 ltac:(lia)) as [[H2 E2]|[H2 E2]].
    + left. split; [lia|]. rewrite <- EM. unfold M. rewrite E1, E2. ring.
    + assert (ez = 0) as Ez by lia. right. split; [lia|]. rewrite <- EM. unfold M. rewrite E2. rewrite Ez in *. rewrite E1. cbn. ring.
    + assert (ez = 0) as Ez by lia. right. split; [lia|]. rewrite <- EM. unfold M. rewrite E1. rewrite Ez in *. rewrite E2. cbn. ring.
    + right. split; [lia|]. rewrite <- EM. unfold M. rewrite E1, E2. ring.
Qed.

(* integers up to 2^53 *)
Lemma small_exact V : 0 <= V <= 2 ^ 53 -> exactly (R V) V.
Proof.
  intros H. destruct (Z.eq_dec V 0) as [->|N]; [left; auto|].
  destruct (Z.eq_dec V (2 ^ 53)) as [->|N2].
  { right. exists (2 ^ 52)%positive, 1. split; [vm_compute; reflexivity|]. split; [left; split; [lia|reflexivity]|reflexivity]. }
  destruct V as [|V|V]; try lia. right. cbn [binary_normalize].
  set (L := Z.log2 (Zpos V)).
  assert (HL : 0 <= L) by apply Z.log2_nonneg.
  assert (HL2 : L < 53) by (apply Z.log2_lt_pow2; lia).
  rewrite (round_any false V 0 (52 - L)) by (fold L; lia).
  set (M := Zpos V * 2 ^ (52 - L)).
  assert (P : 0 < 2 ^ (52 - L)) by (apply Z.pow_pos_nonneg; lia).
  assert (HM : 0 < M) by (unfold M; lia).
  assert (LM : Z.log2 M = 52) by (unfold M; rewrite log2_shift by lia; fold L; lia).
  destruct M as [|m|m] eqn:EM; try lia.
  exists m, (0 - (52 - L)). split; [|split; [|exact LM]].
  - unfold binary_round_aux. unfold shr_fexp at 1. rewrite zdigits_log, LM, fexp_eq by lia.
    replace (52 + 1 + (0 - (52 - L)) - 53 - (0 - (52 - L))) with 0 by lia. cbn [shr shr_record_of_loc shr_m loc_of_shr_record round_nearest_even].
    unfold shr_fexp. rewrite zdigits_log, LM, fexp_eq by lia.
    replace (52 + 1 + (0 - (52 - L)) - 53 - (0 - (52 - L))) with 0 by lia. cbn [shr shr_record_of_loc shr_m].
    replace (Zle_bool (0 - (52 - L)) (1024 - 53)) with true by (symmetry; apply Z.leb_le; lia). reflexivity.
  - right. split; [lia|]. rewrite <- EM. unfold M. do 2 f_equal. lia.
Qed.
(* and the powers of ten up to 10^22 *)
Lemma power_exact e : (0 < e <= 22)%nat -> exactly (R (10 ^ Z.of_nat e)) (10 ^ Z.of_nat e).
Proof.
  intros H.
  destruct (Nat.le_gt_cases e 15) as [Hs|Hs].
  { apply small_exact. split; [apply Z.pow_nonneg; lia|]. transitivity (10 ^ 15); [apply Z.pow_le_mono_r; lia|vm_compute; discriminate]. }
  assert (E : (e = 16 \/ e = 17 \/ e = 18 \/ e = 19 \/ e = 20 \/ e = 21 \/ e = 22)%nat) by lia.
  destruct E as [->|[->|[->|[->|[->|[->| ->]]]]]].
  all: right; match goal with |- exists m e, ?x = _ /\ _ => let v := eval vm_compute in x in
    match v with S754_finite false ?m ?e => exists m, e; (split; [vm_compute; reflexivity|split; [left; split; [lia|vm_compute; reflexivity]|vm_compute; reflexivity]]) end end.
Qed.

Lemma push_exact v d : 0 <= d <= 9 -> 0 <= v -> 10 * v + d <= 2 ^ 53 ->
  SFadd 53 1024 (SFmul 53 1024 (R v) (R 10)) (R d) = R (10 * v + d).
Proof.
  intros Hd Hv Hb. rewrite (mul_exact (R v) (R 10) v 10) by (apply small_exact; lia).
  replace (v * 10) with (10 * v) by ring.
  assert (E1 : exactly (R (10 * v)) (10 * v)) by (apply small_exact; lia).
  assert (E2 : exactly (R d) d) by (apply small_exact; lia).
  destruct (Z.eq_dec (10 * v + d) 0) as [E|N].
  - assert (v = 0) as -> by lia. assert (d = 0) as -> by lia. reflexivity.
  - destruct (add_exact _ _ _ _ E1 E2) as [H|[(H1 & H2 & H)|(H1 & H2 & H)]]; [lia|exact H| |].
    + rewrite H. f_equal. exact H2.
    + rewrite H. f_equal. exact H2.
Qed.
