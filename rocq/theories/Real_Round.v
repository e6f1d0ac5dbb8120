(* Rounding to nearest: the error of one floating point operation. *)
From Verif Require Import Real_Float.
From Coq Require Import ZArith Lia SpecFloat.
Local Open Scope Z_scope.

(* p / q lies at m, or between m and m + 1, as the location says *)
Definition inb (m : Z) (l : location) (p q : Z) : Prop :=
  match l with
  | loc_Exact => p = m * q
  | loc_Inexact c => m * q < p < (m + 1) * q /\ (2 * p ?= (2 * m + 1) * q) = c
  end.
Definition rec_ok (r : shr_record) (p q : Z) : Prop := inb (shr_m r) (loc_of_shr_record r) p q.

Lemma shr_1_ok r p q : 0 <= shr_m r -> 0 < q -> rec_ok r p q -> rec_ok (shr_1 r) p (2 * q) /\ shr_m (shr_1 r) = shr_m r / 2.
Proof.
  destruct r as [m r s]. cbn [shr_m]. intros Hm Hq H. unfold rec_ok in *.
  destruct m as [|[m|m|]|m]; try lia; cbn [shr_1 shr_m] in *; (split; [|]); try reflexivity.
  all: try (apply (Z.div_unique _ 2 _ 0); lia). all: try (apply (Z.div_unique _ 2 _ 1); lia).
  all: destruct r, s; cbn [orb loc_of_shr_record inb] in *.
  all: try (rewrite Pos2Z.inj_xI in H). all: try (rewrite Pos2Z.inj_xO in H).
  all: try (lazymatch type of H with _ /\ _ => destruct H as [H1 H2] end; try (apply Z.compare_eq in H2); try (rewrite Z.compare_lt_iff in H2); try (rewrite Z.compare_gt_iff in H2)).
  all: try (split; [|match goal with |- (_ ?= _) = ?c => lazymatch c with Lt => apply Z.compare_lt_iff | Gt => apply Z.compare_gt_iff | Eq => apply Z.compare_eq_iff end end]).
  all: lia.
Qed.
Lemma iter_ok n : forall r p q, 0 <= shr_m r -> 0 < q -> rec_ok r p q ->
  rec_ok (Nat.iter n shr_1 r) p (q * 2 ^ Z.of_nat n) /\ shr_m (Nat.iter n shr_1 r) = shr_m r / 2 ^ Z.of_nat n.
Proof.
  induction n as [|n IH]; intros r p q Hr Hq H.
  - cbn. rewrite Z.mul_1_r, Z.div_1_r. auto.
  - destruct (IH r p q Hr Hq H) as (I1 & I2). change (Nat.iter (S n) shr_1 r) with (shr_1 (Nat.iter n shr_1 r)).
    assert (P : 0 < 2 ^ Z.of_nat n) by (apply Z.pow_pos_nonneg; lia).
    destruct (shr_1_ok (Nat.iter n shr_1 r) p (q * 2 ^ Z.of_nat n)) as (J1 & J2); auto; [rewrite I2; apply Z.div_pos; lia|nia|].
    rewrite Nat2Z.inj_succ, Z.pow_succ_r by lia. split.
    + replace (q * (2 * 2 ^ Z.of_nat n)) with (2 * (q * 2 ^ Z.of_nat n)) by ring. exact J1.
    + rewrite J2, I2, Z.div_div by lia. f_equal. ring.
Qed.
Lemma record_ok m l p q : inb m l p q -> rec_ok (shr_record_of_loc m l) p q.
Proof. destruct l as [|[]]; auto. Qed.
Lemma record_m m l : shr_m (shr_record_of_loc m l) = m.
Proof. destruct l as [|[]]; reflexivity. Qed.

Lemma nearest m l p q : 0 < q -> inb m l p q -> let z := round_nearest_even m l in
  m <= z <= m + 1 /\ - q <= 2 * (z * q - p) <= q.
Proof.
  intros Hq H. cbv zeta. revert H. destruct l as [|[]]; cbn [inb round_nearest_even].
  - intros ->. lia.
  - intros (H1 & H2). apply Z.compare_eq in H2. destruct (Z.even m); lia.
  - intros (H1 & H2). rewrite Z.compare_lt_iff in H2. lia.
  - intros (H1 & H2). rewrite Z.compare_gt_iff in H2. lia.
Qed.

Section Round.
Variable prec emax : Z.
Hypothesis Hprec : 1 < prec.

(* the result of rounding a number in the normal range *)
Lemma aux_normal sx mx ex lx p q : 0 < mx -> prec <= Z.log2 mx + 1 -> 3 - emax - prec <= Z.log2 mx + 1 + ex - prec -> 0 < q -> inb mx lx p q ->
  let n := Z.log2 mx + 1 - prec in let e' := ex + n in
  exists z, 2 ^ (prec - 1) <= z <= 2 ^ prec /\ - (q * 2 ^ n) <= 2 * (z * (q * 2 ^ n) - p) <= q * 2 ^ n /\
    (z < 2 ^ prec /\ binary_round_aux prec emax sx mx ex lx = (if Zle_bool e' (emax - prec) then S754_finite sx (Z.to_pos z) e' else S754_infinity sx) \/
     z = 2 ^ prec /\ binary_round_aux prec emax sx mx ex lx = (if Zle_bool (e' + 1) (emax - prec) then S754_finite sx (Z.to_pos (2 ^ (prec - 1))) (e' + 1) else S754_infinity sx)).
Proof.
  intros Hm Hd He Hq H n e'.
  assert (Hn : 0 <= n) by lia.
  pose proof (Z.log2_spec mx Hm) as HL.
  assert (S1 : shr_fexp prec emax mx ex lx = (Nat.iter (Z.to_nat n) shr_1 (shr_record_of_loc mx lx), e')).
  { unfold shr_fexp. rewrite zdigits_log by lia. unfold fexp, emin. replace (Z.max _ _ - ex) with n by lia. now rewrite shr_nat by lia. }
  unfold binary_round_aux. rewrite S1. clear S1.
  destruct (iter_ok (Z.to_nat n) (shr_record_of_loc mx lx) p q) as (I1 & I2); [rewrite record_m; lia|exact Hq|now apply record_ok|].
  rewrite Z2Nat.id, record_m in * by lia.
  set (r := Nat.iter (Z.to_nat n) shr_1 (shr_record_of_loc mx lx)) in *. cbv beta iota.
  assert (P : 0 < 2 ^ n) by (apply Z.pow_pos_nonneg; lia).
  destruct (nearest (shr_m r) (loc_of_shr_record r) p (q * 2 ^ n)) as (N1 & N2); [nia|exact I1|].
  set (z := round_nearest_even (shr_m r) (loc_of_shr_record r)) in *.
  assert (B : 2 ^ (prec - 1) <= shr_m r < 2 ^ prec).
  { rewrite I2. split.
    - apply Z.div_le_lower_bound; [lia|]. rewrite <- Z.pow_add_r by lia. replace (n + (prec - 1)) with (Z.log2 mx) by lia. lia.
    - apply Z.div_lt_upper_bound; [lia|]. rewrite <- Z.pow_add_r by lia. replace (n + prec) with (Z.succ (Z.log2 mx)) by lia. lia. }
  assert (Pp : 0 < 2 ^ (prec - 1)) by (apply Z.pow_pos_nonneg; lia).
  exists z. split; [lia|]. split; [exact N2|].
  destruct (Z.eq_dec z (2 ^ prec)) as [E|E].
  - right. split; [exact E|]. rewrite E. unfold shr_fexp. assert (0 < 2 ^ prec) by (apply Z.pow_pos_nonneg; lia). rewrite zdigits_log, Z.log2_pow2 by lia.
    unfold fexp, emin. replace (Z.max _ _ - e') with 1 by lia.
    cbn [shr shr_record_of_loc]. cbn [iter_pos].
    replace (2 ^ prec) with (2 * 2 ^ (prec - 1)) by (rewrite <- Z.pow_succ_r by lia; f_equal; lia).
    change (Build_shr_record ?m false false) with (clean m). rewrite shr_1_clean by lia. cbn [shr_m clean].
    destruct (2 ^ (prec - 1)) as [|pp|pp] eqn:E2; try lia. reflexivity.
  - left. split; [lia|]. unfold shr_fexp. assert (Lz : Z.log2 z = prec - 1) by (apply Z.log2_unique; [lia|]; replace (Z.succ (prec - 1)) with prec by lia; lia).
    rewrite zdigits_log, Lz by lia. unfold fexp, emin. replace (Z.max _ _ - e') with 0 by lia.
    cbn [shr shr_record_of_loc shr_m]. destruct z as [|pp|pp] eqn:E2; try lia. reflexivity.
Qed.
End Round.

Lemma new_location_ok m2 a r : 1 < m2 -> 0 <= r < m2 -> inb a (new_location m2 r) (a * m2 + r) m2.
Proof.
  intros H2 Hr. unfold new_location. destruct (Z.even m2) eqn:Ev; unfold new_location_even, new_location_odd; cbv beta.
  - destruct (Zeq_bool r 0) eqn:E0; [apply Zeq_bool_eq in E0; cbn [inb]; lia|]. apply Zeq_bool_neq in E0. cbn [inb]. split; [lia|].
    destruct (Z.compare_spec (2 * r) m2); [apply Z.compare_eq_iff|apply Z.compare_lt_iff|apply Z.compare_gt_iff]; lia.
  - destruct (Zeq_bool r 0) eqn:E0; [apply Zeq_bool_eq in E0; cbn [inb]; lia|]. apply Zeq_bool_neq in E0. cbn [inb]. split; [lia|].
    assert (Od : Z.odd m2 = true) by (rewrite <- Z.negb_even, Ev; reflexivity). apply Z.odd_spec in Od. destruct Od as (h & ->).
    destruct (Z.compare_spec (2 * r + 1) (2 * h + 1)); [apply Z.compare_lt_iff|apply Z.compare_lt_iff|apply Z.compare_gt_iff]; lia.
Qed.
