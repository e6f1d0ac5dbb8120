(* Proofs about the timers. *)
From Verif Require Import Base Real_Spec Real_Float Timer_Model Timer_Spec.
From Coq Require Import ZArith Lia Floats.SpecFloat.
Local Open Scope Z_scope.

Lemma long_ok x : - 2 ^ 63 <= x < 2 ^ 63 -> long x = Ok x.
Proof. intros H. unfold long. rewrite (proj2 (Z.leb_le _ _)), (proj2 (Z.ltb_lt _ _)) by lia. reflexivity. Qed.
Lemma long_ub x : ~ - 2 ^ 63 <= x < 2 ^ 63 -> long x = UB.
Proof. intros H. unfold long. destruct (Z.leb_spec (- 2 ^ 63) x), (Z.ltb_spec x (2 ^ 63)); try reflexivity. lia. Qed.

Definition step (t : timer) (c : call) : timer := match c with Start now => start t now | Stop now => stop t now end.
Definition run (h : list call) : timer := fold_left step h new_timer.

Lemma run_start h : start_time_ (run h) = last_start h.
Proof.
  unfold run, last_start. change (0, 0) with (start_time_ new_timer). generalize new_timer. induction h as [|[now|now] h IH]; intros t; cbn [fold_left]; auto.
  - now rewrite IH.
  - now rewrite IH.
Qed.
Lemma run_stop h : stop_time_ (run h) = last_stop h.
Proof.
  unfold run, last_stop. change (0, 0) with (stop_time_ new_timer). generalize new_timer. induction h as [|[now|now] h IH]; intros t; cbn [fold_left]; auto.
  - now rewrite IH.
  - now rewrite IH.
Qed.
Lemma run_use h : in_use_ (run h) = running h.
Proof.
  unfold running. destruct h as [|c h _] using rev_ind; [reflexivity|]. unfold run. rewrite fold_left_app, last_last. cbn [fold_left step].
  now destruct c.
Qed.

Lemma measured t : in_use_ t = false -> clock (start_time_ t) -> clock (stop_time_ t) ->
  0 <= instant (stop_time_ t) - instant (start_time_ t) <= 2 ^ 63 - 1000000 ->
  usec_time t = Ok (instant (stop_time_ t) - instant (start_time_ t)).
Proof.
  intros Hu [Ha1 Ha2] [Hb1 Hb2] H. unfold usec_time, instant in *. rewrite Hu. cbn [negb].
  rewrite (proj2 (Z.leb_le _ _)) by lia. rewrite long_ok by lia. cbn [bind]. rewrite long_ok by lia. cbn [bind]. rewrite long_ok by lia. cbn [bind].
  rewrite long_ok by lia. cbn [bind]. f_equal. rewrite Z.mod_small by lia. ring.
Qed.

(* ---------- rounding ---------- *)
Lemma shr_1_eq m r s : 0 <= m -> shr_1 (Build_shr_record m r s) = Build_shr_record (m / 2) (Z.odd m) (r || s).
Proof.
  intros H. destruct m as [|[p|p|]|p]; try lia; cbn [shr_1 Z.odd]; f_equal.
  - rewrite Pos2Z.inj_xI. rewrite Z.mul_comm, Z.div_add_l by lia. change (1 / 2) with 0. lia.
  - rewrite Pos2Z.inj_xO. rewrite Z.mul_comm, Z.div_mul by lia. reflexivity.
Qed.
(* the upper bits, the next bit, and whether there is anything below *)
Lemma shr_iter M : 0 <= M -> forall k, Nat.iter (S k) shr_1 (clean M) =
  Build_shr_record (M / 2 ^ Z.of_nat (S k)) (Z.odd (M / 2 ^ Z.of_nat k)) (negb (M mod 2 ^ Z.of_nat k =? 0)).
Proof.
  intros HM k. induction k as [|k IH].
  - cbn [Nat.iter nat_rect]. unfold clean. rewrite shr_1_eq by lia. cbn [Z.of_nat]. rewrite Z.pow_0_r, Z.div_1_r, Z.mod_1_r. reflexivity.
  - change (Nat.iter (S (S k)) shr_1 (clean M)) with (shr_1 (Nat.iter (S k) shr_1 (clean M))). rewrite IH.
    assert (P : 0 < 2 ^ Z.of_nat k) by (apply Z.pow_pos_nonneg; lia).
    rewrite shr_1_eq by (apply Z.div_pos; [lia|apply Z.pow_pos_nonneg; lia]).
    rewrite (Nat2Z.inj_succ (S k)), (Z.pow_succ_r _ (Z.of_nat (S k))) by lia.
    rewrite (Z.mul_comm 2 (2 ^ Z.of_nat (S k))), <- Z.div_div by (try (apply Z.pow_pos_nonneg); lia). f_equal.
    rewrite Nat2Z.inj_succ, Z.pow_succ_r by lia. rewrite (Z.mul_comm 2), Z.rem_mul_r by lia.
    assert (E := Zmod_odd (M / 2 ^ Z.of_nat k)). assert (Q := Z.mod_pos_bound M _ P).
    destruct (Z.odd (M / 2 ^ Z.of_nat k)); rewrite E; cbn [orb].
    + destruct (Z.eqb_spec (M mod 2 ^ Z.of_nat k + 2 ^ Z.of_nat k * 1) 0); [lia|reflexivity].
    + rewrite Z.mul_0_r, Z.add_0_r. reflexivity.
Qed.

(* more than half above the lower of two neighbours: the upper one *)
Lemma round_up M e k q r V : 0 < k -> Z.log2 M = 52 + k -> M = q * 2 ^ k + r -> 2 ^ (k - 1) < r < 2 ^ k -> -1021 <= 53 + k + e ->
  0 < q -> (exists p, q + 1 = Zpos p /\ denotes p (e + k) V) -> aux false M e loc_Exact = R V.
Proof.
  intros Hk HL HM Hr He Hq (p & Ep & D).
  assert (P1 : 0 < 2 ^ (k - 1)) by (apply Z.pow_pos_nonneg; lia).
  assert (P2 : 2 ^ k = 2 * 2 ^ (k - 1)) by (rewrite <- Z.pow_succ_r by lia; f_equal; lia).
  assert (HMp : 0 < M) by nia.
  assert (Eq : M / 2 ^ k = q) by (symmetry; apply (Z.div_unique_pos M (2 ^ k) q r); lia).
  assert (Lq : Z.log2 q = 52).
  { rewrite <- Eq, <- Z.shiftr_div_pow2 by lia. rewrite Z.log2_shiftr by lia. lia. }
  assert (B := Z.log2_spec q Hq). rewrite Lq in B. change (Z.succ 52) with 53 in B.
  assert (Eh : M / 2 ^ (k - 1) = 2 * q + 1).
  { symmetry. apply (Z.div_unique_pos M (2 ^ (k - 1)) (2 * q + 1) (r - 2 ^ (k - 1))); lia. }
  assert (Er : M mod 2 ^ (k - 1) = r - 2 ^ (k - 1)).
  { symmetry. apply (Z.mod_unique_pos M (2 ^ (k - 1)) (2 * q + 1)); lia. }
  transitivity (aux false (q + 1) (e + k) loc_Exact).
  2:{ rewrite Ep in *. apply aux_denotes; [exact D|]. rewrite <- Ep. assert (Z.log2 q <= Z.log2 (q + 1)) by (apply Z.log2_le_mono; lia). lia. }
  assert (S1 : shr_fexp 53 1024 M e loc_Exact = (Build_shr_record q true true, e + k)).
  { unfold shr_fexp. rewrite zdigits_log, HL, fexp_eq by lia. rewrite shr_nat by lia. cbn [shr_record_of_loc]. fold (clean M).
    replace (52 + k + 1 + e - 53 - e) with k by lia. f_equal.
    replace (Z.to_nat k) with (S (Z.to_nat (k - 1))) by lia. rewrite shr_iter by lia.
    replace (Z.of_nat (S (Z.to_nat (k - 1)))) with k by lia. rewrite Z2Nat.id by lia. rewrite Eq, Eh, Er.
    rewrite Z.add_comm, Z.odd_add_mul_2. cbn [Z.odd]. destruct (Z.eqb_spec (r - 2 ^ (k - 1)) 0); [lia|]. reflexivity. }
  unfold binary_round_aux at 1. rewrite S1. cbn [shr_m loc_of_shr_record round_nearest_even]. unfold binary_round_aux.
  assert (C : q + 1 < 2 ^ 53 \/ q + 1 = 2 ^ 53) by lia. destruct C as [C|C].
  - assert (L1 : Z.log2 (q + 1) = 52).
    { apply Z.log2_unique; [lia|]. change (Z.succ 52) with 53. lia. }
    assert (S2 : shr_fexp 53 1024 (q + 1) (e + k) loc_Exact = (clean (q + 1), e + k)).
    { unfold shr_fexp. rewrite zdigits_log, L1, fexp_eq by lia. replace (52 + 1 + (e + k) - 53 - (e + k)) with 0 by lia. reflexivity. }
    rewrite S2. cbn [clean shr_m loc_of_shr_record shr_r shr_s round_nearest_even]. rewrite S2. reflexivity.
  - rewrite C. assert (S2 : shr_fexp 53 1024 (2 ^ 53) (e + k) loc_Exact = (clean (2 ^ 52), e + k + 1)).
    { unfold shr_fexp. rewrite zdigits_log, fexp_eq; [| |lia]; change (Z.log2 (2 ^ 53)) with 53; [|lia].
      replace (53 + 1 + (e + k) - 53 - (e + k)) with 1 by lia. reflexivity. }
    assert (S3 : shr_fexp 53 1024 (2 ^ 52) (e + k + 1) loc_Exact = (clean (2 ^ 52), e + k + 1)).
    { unfold shr_fexp. rewrite zdigits_log, fexp_eq; [| |lia]; change (Z.log2 (2 ^ 52)) with 52; [|lia].
      replace (52 + 1 + (e + k + 1) - 53 - (e + k + 1)) with 0 by lia. reflexivity. }
    rewrite S2. cbn [clean shr_m loc_of_shr_record shr_r shr_s round_nearest_even]. rewrite S3. reflexivity.
Qed.

Lemma millionth_eq : millionth = S754_finite false 4722366482869645 (-72).
Proof. reflexivity. Qed.

(* whole seconds *)
Lemma seconds_exact n : 0 <= n -> 1000000 * n < 2 ^ 53 -> SFmul 53 1024 (b64 (1000000 * n) 0) millionth = b64 n 0.
Proof.
  intros H0 H. destruct (Z.eq_dec n 0) as [->|N]; [reflexivity|].
  destruct (small_exact (1000000 * n) ltac:(lia)) as [[E _]|(m & e & E & D & L)]; [lia|]. unfold b64. rewrite E, millionth_eq. cbn [SFmul xorb].
  assert (B := Z.log2_spec (Zpos m) ltac:(lia)). rewrite L in B. change (Z.succ 52) with 53 in B.
  assert (D2 : e <= 0 /\ Zpos m = 1000000 * n * 2 ^ (- e)).
  { destruct D as [[He Dm]|D]; [|exact D]. destruct (Z.eq_dec e 0) as [->|]; [split; [lia|]; rewrite Dm; cbn [Z.opp]; rewrite !Z.pow_0_r; lia|].
    assert (2 <= 2 ^ e) by (apply (Z.pow_le_mono_r 2 1 e); lia). nia. }
  clear D. destruct D2 as [He Dm]. set (j := - e) in *.
  assert (Pj : 0 < 2 ^ j) by (apply Z.pow_pos_nonneg; lia).
  set (l := Z.log2 n). assert (Hl : 0 <= l) by apply Z.log2_nonneg. assert (Bn := Z.log2_spec n ltac:(lia)). fold l in Bn.
  assert (Hl34 : l < 34) by (apply Z.log2_lt_pow2; lia).
  assert (Hj : j < 53) by (apply (Z.pow_lt_mono_r_iff 2); [lia|lia|nia]).
  assert (Pl : 0 < 2 ^ l) by (apply Z.pow_pos_nonneg; lia).
  rewrite Z.pow_succ_r in Bn by lia.
  assert (EM : Zpos (m * 4722366482869645) = 2 ^ j * (n * (2 ^ 72 - 213696))).
  { rewrite Pos2Z.inj_mul, Dm. ring. }
  assert (Q : n = 2 ^ l \/ 2 ^ l + 1 <= n) by lia. destruct Q as [Q|Q].
  - assert (K : 2 ^ (l + j + 19) = 2 ^ 19 * 2 ^ l * 2 ^ j) by (rewrite !Z.pow_add_r by lia; ring).
    assert (K1 : 2 ^ (l + j + 19 - 1) = 2 ^ 18 * 2 ^ l * 2 ^ j) by (replace (l + j + 19 - 1) with (l + j + 18) by lia; rewrite !Z.pow_add_r by lia; ring).
    assert (PP : 0 < 2 ^ l * 2 ^ j) by nia.
    apply (round_up _ _ (l + j + 19) (2 ^ 53 - 1) (2 ^ (l + j + 19) - 213696 * n * 2 ^ j)).
    + lia.
    + rewrite EM, Q. apply Z.log2_unique; [lia|]. replace (52 + (l + j + 19)) with (71 + l + j) by lia.
      rewrite Z.pow_succ_r, !Z.pow_add_r by lia. nia.
    + rewrite EM, K, Q. ring.
    + rewrite K, K1, Q. nia.
    + lia.
    + lia.
    + exists (2 ^ 53)%positive. split; [reflexivity|]. replace (e + -72 + (l + j + 19)) with (l - 53) by lia. right.
      split; [lia|]. change (Zpos (2 ^ 53)) with (2 ^ 53). rewrite Q, <- Z.pow_add_r by lia. f_equal. lia.
  - assert (K : 2 ^ (l + j + 20) = 2 ^ 20 * 2 ^ l * 2 ^ j) by (rewrite !Z.pow_add_r by lia; ring).
    assert (K1 : 2 ^ (l + j + 20 - 1) = 2 ^ 19 * 2 ^ l * 2 ^ j) by (replace (l + j + 20 - 1) with (l + j + 19) by lia; rewrite !Z.pow_add_r by lia; ring).
    assert (PP : 0 < 2 ^ l * 2 ^ j) by nia.
    assert (W : 0 < 2 ^ (52 - l)) by (apply Z.pow_pos_nonneg; lia).
    assert (W2 : 2 ^ (52 - l) * 2 ^ l = 2 ^ 52) by (rewrite <- Z.pow_add_r by lia; f_equal; lia).
    apply (round_up _ _ (l + j + 20) (n * 2 ^ (52 - l) - 1) (2 ^ (l + j + 20) - 213696 * n * 2 ^ j)).
    + lia.
    + rewrite EM. apply Z.log2_unique; [lia|]. replace (52 + (l + j + 20)) with (72 + l + j) by lia.
      rewrite Z.pow_succ_r, !Z.pow_add_r by lia.
      assert (2 ^ l * 2 ^ 72 <= n * (2 ^ 72 - 213696)) by nia. assert (n * (2 ^ 72 - 213696) < 2 * (2 ^ l * 2 ^ 72)) by nia. nia.
    + rewrite EM, K. replace ((n * 2 ^ (52 - l) - 1) * (2 ^ 20 * 2 ^ l * 2 ^ j)) with ((2 ^ (52 - l) * 2 ^ l) * n * 2 ^ 20 * 2 ^ j - 2 ^ 20 * 2 ^ l * 2 ^ j) by ring.
      rewrite W2. ring.
    + rewrite K, K1. nia.
    + lia.
    + nia.
    + exists (Z.to_pos (n * 2 ^ (52 - l))). assert (0 < n * 2 ^ (52 - l)) by nia. rewrite Z2Pos.id by lia. split; [lia|].
      replace (e + -72 + (l + j + 20)) with (l - 52) by lia. right. split; [lia|]. rewrite Z2Pos.id by lia. do 2 f_equal. lia.
Qed.
