(* Accumulated rounding errors of a parsed double. *)
From Verif Require Import Base Num_Spec Real_Model Real_Spec Real_Float Num_Proofs Real_Proofs Real_Proofs2 Real_Proofs3 Real_Proofs4 Real_Round Real_Spec2 Real_Proofs5.
From Coq Require Import ZArith Lia QArith Qabs Qpower Qfield Lqa SpecFloat.
Local Open Scope Q_scope.

Definition rho (k : nat) : Q := Qpower rounding (Z.of_nat k).
Lemma rounding_nz : ~ rounding == 0.
Proof. discriminate. Qed.
Lemma rho_pos k : 0 < rho k.
Proof. apply Qpower_0_lt. reflexivity. Qed.
Lemma rho_plus k l : rho (k + l) == rho k * rho l.
Proof. unfold rho. rewrite Nat2Z.inj_add. apply Qpower_plus, rounding_nz. Qed.
Lemma rho_1 k : 1 <= rho k.
Proof. unfold rho. apply Qpower_1_le; [discriminate|lia]. Qed.
Lemma rho_le k l : (k <= l)%nat -> rho k <= rho l.
Proof. intros H. replace l with (k + (l - k))%nat by lia. rewrite rho_plus. pose proof (rho_1 (l - k)). pose proof (rho_pos k). nra. Qed.
Lemma rho_0 : rho 0 == 1.
Proof. reflexivity. Qed.
Global Opaque rho.

Lemma close_unfold k x y : close k x y <-> x <= y * rho k /\ y <= x * rho k.
Proof. reflexivity. Qed.
Lemma close_refl x : close 0 x x.
Proof. apply close_unfold. rewrite rho_0. lra. Qed.
Lemma close_eq k x x' y y' : x == x' -> y == y' -> close k x y -> close k x' y'.
Proof. rewrite !close_unfold. intros E1 E2. now rewrite E1, E2. Qed.
Lemma close_mono k l x y : 0 <= x -> 0 <= y -> (k <= l)%nat -> close k x y -> close l x y.
Proof. rewrite !close_unfold. intros Hx Hy H (A & B). pose proof (rho_le k l H). split; nra. Qed.
Lemma close_trans k l x y z : close k x y -> close l y z -> close (k + l) x z.
Proof.
  rewrite !close_unfold, rho_plus. intros (A & B) (C & D). pose proof (rho_pos k). pose proof (rho_pos l). split.
  - eapply Qle_trans; [exact A|]. rewrite (Qmult_comm (rho k)), Qmult_assoc. apply Qmult_le_compat_r; [exact C|lra].
  - eapply Qle_trans; [exact D|]. rewrite Qmult_assoc. apply Qmult_le_compat_r; [exact B|lra].
Qed.
Lemma close_add k a b c d : close k a b -> close k c d -> close k (a + c) (b + d).
Proof. rewrite !close_unfold. intros (A & B) (C & D). lra. Qed.
Lemma mul_le a b c d : 0 <= a -> 0 <= c -> a <= b -> c <= d -> a * c <= b * d.
Proof. intros. eapply Qle_trans; [apply Qmult_le_compat_r; eassumption|]. rewrite !(Qmult_comm b). apply Qmult_le_compat_r; lra. Qed.
Lemma close_mul k l a b c d : 0 <= a -> 0 <= b -> 0 <= c -> 0 <= d -> close k a b -> close l c d -> close (k + l) (a * c) (b * d).
Proof.
  rewrite !close_unfold, rho_plus. intros Ha Hb Hc Hd (A & B) (C & D). split.
  - setoid_replace (b * d * (rho k * rho l)) with ((b * rho k) * (d * rho l)) by ring. now apply mul_le.
  - setoid_replace (a * c * (rho k * rho l)) with ((a * rho k) * (c * rho l)) by ring. now apply mul_le.
Qed.
Lemma close_inv k a b : 0 < a -> 0 < b -> close k a b -> close k (/ a) (/ b).
Proof.
  rewrite !close_unfold. intros Ha Hb (A & B). pose proof (rho_pos k). pose proof (Qmult_lt_0_compat a b Ha Hb). split.
  - apply (Qmult_le_r _ _ (a * b)); [auto|]. setoid_replace (/ a * (a * b)) with b by (field; lra). setoid_replace (/ b * rho k * (a * b)) with (a * rho k) by (field; lra). exact B.
  - apply (Qmult_le_r _ _ (a * b)); [auto|]. setoid_replace (/ b * (a * b)) with a by (field; lra). setoid_replace (/ a * rho k * (a * b)) with (b * rho k) by (field; lra). exact A.
Qed.
Lemma close_pos k a b : 0 < a -> close k a b -> 0 < b.
Proof. rewrite close_unfold. intros Ha (A & _). pose proof (rho_pos k). nra. Qed.

Notation P53 := (9007199254740992 # 1).
Lemma rho_S k : rho (S k) == rho k * rounding.
Proof. replace (S k) with (k + 1)%nat by lia. rewrite rho_plus. apply Qmult_comp; [reflexivity|]. reflexivity. Qed.
Lemma rho_bernoulli k : (Z.of_nat k <= 2 ^ 53 - 1)%Z -> rho k * (P53 - inject_Z (Z.of_nat k)) <= P53.
Proof.
  induction k as [|k IH]; intros H.
  - rewrite rho_0. change (inject_Z (Z.of_nat 0)) with 0. lra.
  - rewrite rho_S. specialize (IH ltac:(lia)). rewrite Nat2Z.inj_succ in *. unfold Z.succ. rewrite inject_Z_plus. change (inject_Z 1) with 1.
    assert (Hk : inject_Z (Z.of_nat k) <= P53 - 2) by (change (P53 - 2) with (inject_Z (2 ^ 53 - 2)); apply Real_Proofs5.inj_le; lia).
    assert (H0 : 0 <= inject_Z (Z.of_nat k)) by (apply (Real_Proofs5.inj_le 0); lia).
    pose proof (rho_pos k) as R. set (x := inject_Z (Z.of_nat k)) in *.
    eapply Qle_trans; [|exact IH]. rewrite <- Qmult_assoc. rewrite !(Qmult_comm (rho k)). apply Qmult_le_compat_r; [|lra].
    unfold rounding. lra.
Qed.
Lemma rho_700 : rho 700 <= 1000000000001 # 1000000000000.
Proof. pose proof (rho_bernoulli 700 ltac:(lia)) as H. pose proof (rho_pos 700). change (inject_Z (Z.of_nat 700)) with (700 # 1) in H. lra. Qed.
Lemma rho_600_small : rho 600 <= 10000000000001 # 10000000000000.
Proof. pose proof (rho_bernoulli 600 ltac:(lia)) as H. pose proof (rho_pos 600). change (inject_Z (Z.of_nat 600)) with (600 # 1) in H. lra. Qed.
Lemma times_rho a b k r : rho k <= r -> 0 <= a -> a * r <= b -> a * rho k <= b.
Proof. intros H Ha Hb. eapply Qle_trans; [|exact Hb]. rewrite !(Qmult_comm a). now apply Qmult_le_compat_r. Qed.

(* ---------- the range ---------- *)
Notation T e := (Qpower (inject_Z 10) e).
Lemma low_ok : p2 (-1021) * rho 700 <= T (-307).
Proof. apply (times_rho _ _ _ _ rho_700); apply Qle_bool_iff; vm_compute; reflexivity. Qed.
Lemma high_ok : T 308 * rho 700 <= largest.
Proof. apply (times_rho _ _ _ _ rho_700); apply Qle_bool_iff; vm_compute; reflexivity. Qed.
Global Opaque largest.
Lemma T_pos e : 0 < T e.
Proof. apply Qpower_0_lt. reflexivity. Qed.
Lemma p21 e : 0 < p2 e.
Proof. apply p2_pos. Qed.
Lemma medium_range k x y : medium x -> close k x y -> (k <= 700)%nat -> p2 (-1021) <= y /\ y <= largest.
Proof.
  intros (M1 & M2) H Hk. apply close_unfold in H. destruct H as (A & B). pose proof (rho_le k 700 Hk) as Hr. pose proof (rho_pos k). pose proof (rho_pos 700).
  pose proof (T_pos (-307)). pose proof (T_pos 308). assert (Hx : 0 < x) by (apply (Qlt_le_trans _ (T (-307))); assumption).
  assert (Hy : 0 < y) by (apply (close_pos k x); [exact Hx|apply close_unfold; auto]). split.
  - apply (Qmult_le_r _ _ (rho 700)); [auto|]. eapply Qle_trans; [apply low_ok|]. eapply Qle_trans; [exact M1|]. eapply Qle_trans; [exact A|].
    rewrite !(Qmult_comm y). apply Qmult_le_compat_r; lra.
  - eapply Qle_trans; [exact B|]. eapply Qle_trans; [|apply high_ok]. apply mul_le; lra.
Qed.
Lemma low_low : p2 (-1022) <= p2 (-1021).
Proof. apply Qle_bool_iff. vm_compute. reflexivity. Qed.

(* ---------- doubles near a number ---------- *)
Definition approx (k : nat) (x : Q) (d : spec_float) : Prop :=
  x == 0 /\ d = S754_zero false \/
  0 < x /\ exists m e, d = S754_finite false m e /\ normal m e /\ close k x (magnitude m e).
Lemma magnitude_pos m e : 0 < magnitude m e.
Proof. unfold magnitude. apply Qmult_lt_0_compat; [reflexivity|apply p2_pos]. Qed.
Lemma approx_eq k x x' d : x == x' -> approx k x d -> approx k x' d.
Proof.
  intros E [(H & ->)|(H & m & e & -> & N & C)]; [left; rewrite <- E; auto|]. right. rewrite <- E. split; auto. exists m, e. split; auto. split; auto.
  eapply close_eq; [exact E|reflexivity|exact C].
Qed.
Lemma approx_mono k l x d : (k <= l)%nat -> approx k x d -> approx l x d.
Proof.
  intros Hk [H|(H & m & e & -> & N & C)]; [now left|]. right. split; auto. exists m, e. split; auto. split; auto.
  pose proof (magnitude_pos m e). eapply close_mono; [| |exact Hk|exact C]; lra.
Qed.

Lemma approx_mul k l x y a b : approx k x a -> approx l y b -> (0 < x * y -> medium (x * y)) -> (k + l <= 700)%nat ->
  approx (k + l + 1) (x * y) (SFmul 53 1024 a b).
Proof.
  intros [(Hx & ->)|(Hx & m1 & e1 & -> & N1 & C1)] [(Hy & ->)|(Hy & m2 & e2 & -> & N2 & C2)] Hm Hk.
  - left. rewrite Hx. split; [ring|reflexivity].
  - left. rewrite Hx. split; [ring|reflexivity].
  - left. rewrite Hy. split; [ring|reflexivity].
  - right. assert (P : 0 < x * y) by now apply Qmult_lt_0_compat. specialize (Hm P). split; [exact P|].
    pose proof (magnitude_pos m1 e1). pose proof (magnitude_pos m2 e2).
    assert (C : close (k + l) (x * y) (magnitude m1 e1 * magnitude m2 e2)) by (apply close_mul; auto; lra).
    destruct (medium_range _ _ _ Hm C Hk) as (R1 & R2). pose proof low_low.
    destruct (mul_step m1 e1 m2 e2 N1 N2) as (m & e & E & N & C'); [eapply Qle_trans; eassumption|exact R2|].
    exists m, e. split; [exact E|]. split; [exact N|]. eapply close_trans; eassumption.
Qed.

Lemma approx_div k l x y a b : approx k x a -> 0 < y -> approx l y b -> (0 < x / y -> medium (x / y)) -> (k + l <= 700)%nat ->
  approx (k + l + 1) (x / y) (SFdiv 53 1024 a b).
Proof.
  intros [(Hx & ->)|(Hx & m1 & e1 & -> & N1 & C1)] Py [(Hy & ->)|(Hy & m2 & e2 & -> & N2 & C2)] Hm Hk; [exfalso; lra| |exfalso; lra|].
  - left. rewrite Hx. split; [unfold Qdiv; ring|reflexivity].
  - right. assert (P : 0 < x / y) by (apply Qmult_lt_0_compat; [exact Hx|now apply Qinv_lt_0_compat]). specialize (Hm P). split; [exact P|].
    pose proof (magnitude_pos m1 e1). pose proof (magnitude_pos m2 e2).
    assert (C : close (k + l) (x / y) (magnitude m1 e1 / magnitude m2 e2)).
    { apply close_mul; try lra; auto; [apply Qlt_le_weak, Qinv_lt_0_compat; auto|apply Qlt_le_weak, Qinv_lt_0_compat; auto|]. apply close_inv; auto. }
    destruct (medium_range _ _ _ Hm C Hk) as (R1 & R2).
    destruct (div_step m1 e1 m2 e2 N1 N2) as (m & e & E & N & C'); [exact R1|exact R2|].
    exists m, e. split; [exact E|]. split; [exact N|]. eapply close_trans; eassumption.
Qed.

Lemma approx_add k l x y a b : approx k x a -> approx l y b -> x + y <= T 308 -> (Nat.max k l <= 700)%nat ->
  approx (Nat.max k l + 1) (x + y) (SFadd 53 1024 a b).
Proof.
  intros H1 H2 Hm Hk. apply (approx_mono k (Nat.max k l)) in H1; [|lia]. apply (approx_mono l (Nat.max k l)) in H2; [|lia].
  revert Hk H1 H2. generalize (Nat.max k l) as j. clear k l. intros j Hk.
  intros [(Hx & ->)|(Hx & m1 & e1 & -> & N1 & C1)] [(Hy & ->)|(Hy & m2 & e2 & -> & N2 & C2)].
  - left. rewrite Hx, Hy. split; reflexivity.
  - apply (approx_mono j); [lia|]. right. split; [lra|]. exists m2, e2. split; [reflexivity|]. split; [exact N2|]. eapply close_eq; [|reflexivity|exact C2]. rewrite Hx. ring.
  - apply (approx_mono j); [lia|]. right. split; [lra|]. exists m1, e1. split; [reflexivity|]. split; [exact N1|]. eapply close_eq; [|reflexivity|exact C1]. rewrite Hy. ring.
  - right. split; [lra|].
    assert (C : close j (x + y) (magnitude m1 e1 + magnitude m2 e2)) by (now apply close_add).
    assert (R : magnitude m1 e1 + magnitude m2 e2 <= largest).
    { apply close_unfold in C. destruct C as (_ & B). eapply Qle_trans; [exact B|]. eapply Qle_trans; [|apply high_ok].
      pose proof (rho_le j 700 Hk). pose proof (rho_pos j). apply mul_le; lra. }
    destruct (add_step m1 e1 m2 e2 N1 N2 R) as (m & e & E & N & C').
    exists m, e. split; [exact E|]. split; [exact N|]. eapply close_trans; eassumption.
Qed.

Lemma approx_exact d V : exactly d V -> (V <= 2 ^ 100)%Z -> approx 0 (inject_Z V) d.
Proof.
  intros [(-> & ->)|(m & e & -> & D & L)] H; [left; split; reflexivity|]. right. pose proof (denotes_pos _ _ _ D) as P. split; [now apply (Real_Proofs5.inj_lt 0)|].
  exists m, e. split; [reflexivity|]. pose proof (denotes_log _ _ _ D) as DL. pose proof (Z.log2_nonneg V).
  assert (Z.log2 V <= 100)%Z by (rewrite <- (Z.log2_pow2 100) by lia; now apply Z.log2_le_mono).
  split; [split; [|lia]|].
  - pose proof (Z.log2_spec (Zpos m) ltac:(lia)). rewrite L in *. lia.
  - eapply close_eq; [reflexivity| |apply close_refl]. unfold magnitude. destruct D as [[Hs E]|[Hs E]].
    + rewrite E, inject_Z_mult, p2_Z by lia. reflexivity.
    + rewrite E, inject_Z_mult, p2_Z by lia. rewrite <- Qmult_assoc, <- p2_plus. replace (- e + e)%Z with 0%Z by lia. change (p2 0) with 1. ring.
Qed.
Lemma approx_small V : (0 <= V <= 2 ^ 53)%Z -> approx 0 (inject_Z V) (b64 V 0).
Proof. intros H. apply approx_exact; [now apply small_exact|]. etransitivity; [apply H|]. vm_compute. discriminate. Qed.
Lemma T_Z e : (0 <= e)%Z -> inject_Z (10 ^ e) == T e.
Proof. intros H. now rewrite Zpower_Qpower. Qed.
Lemma approx_int V : (1 <= V)%Z -> inject_Z V <= T 308 -> approx 1 (inject_Z V) (b64 V 0).
Proof.
  intros H HT. destruct V as [|V|V]; try lia. right. split; [reflexivity|]. unfold b64. cbn [binary_normalize].
  pose proof (Z.log2_nonneg (Zpos V)). apply int_step; [lia| | |].
  - unfold magnitude. change (p2 0) with 1. ring.
  - apply (Qle_trans _ 1); [apply Qle_bool_iff; vm_compute; reflexivity|]. now apply (Real_Proofs5.inj_le 1).
  - eapply Qle_trans; [exact HT|]. eapply Qle_trans; [|apply high_ok]. pose proof (rho_1 700). pose proof (T_pos 308). nra.
Qed.
Lemma T_le a b : (a <= b)%Z -> T a <= T b.
Proof. intros H. apply Qpower_le_compat_l; [exact H|]. apply (Real_Proofs5.inj_le 1 10). lia. Qed.
Lemma T_plus a b : T (a + b) == T a * T b.
Proof. apply Qpower_plus. discriminate. Qed.
Lemma approx_power e : (1 <= e <= 308)%nat -> approx (power_roundings e - 1) (T (Z.of_nat e)) (b64 (10 ^ Z.of_nat e) 0).
Proof.
  intros H. unfold power_roundings. eapply approx_eq; [apply T_Z; lia|]. destruct (Nat.leb_spec e 22).
  - apply approx_exact; [apply power_exact; lia|]. transitivity (10 ^ 22)%Z; [apply Z.pow_le_mono_r; lia|vm_compute; discriminate].
  - apply approx_int.
    + assert (0 < 10 ^ Z.of_nat e)%Z by (apply Z.pow_pos_nonneg; lia). lia.
    + rewrite T_Z by lia. apply T_le. lia.
Qed.

(* ---------- digits ---------- *)
Lemma drop_idem ds : drop_zeros (drop_zeros ds) = drop_zeros ds.
Proof. induction ds as [|c ds IH]; [reflexivity|]. cbn [drop_zeros]. destruct (Ascii.eqb c "0") eqn:E; [exact IH|]. cbn [drop_zeros]. now rewrite E. Qed.
Lemma drop_app ds c : (1 < length (drop_zeros (ds ++ [c])))%nat -> drop_zeros (ds ++ [c]) = drop_zeros ds ++ [c].
Proof.
  induction ds as [|b ds IH]; cbn [app drop_zeros].
  - destruct (Ascii.eqb c "0"); cbn; lia.
  - destruct (Ascii.eqb b "0"); [exact IH|reflexivity].
Qed.
Lemma drop_bound ds : (length (drop_zeros ds) <= length ds)%nat.
Proof. induction ds as [|c ds IH]; [apply le_n|]. cbn [drop_zeros]. destruct (Ascii.eqb c "0"); cbn [length]; lia. Qed.
Lemma dec_drop_bounds ds : Forall is_digit ds -> (0 <= dec_value ds < 10 ^ Z.of_nat (length (drop_zeros ds)))%Z.
Proof. intros H. destruct (drop_digits ds H) as (H' & <-). now apply dec_bounds. Qed.
Lemma inj_T v n : (v <= 10 ^ Z.of_nat n)%Z -> (n <= 308)%nat -> inject_Z v <= T 308.
Proof. intros H Hn. eapply Qle_trans; [apply Real_Proofs5.inj_le, H|]. rewrite T_Z by lia. apply T_le. lia. Qed.
Lemma T307_1 : T (-307) <= 1.
Proof. apply (T_le (-307) 0). lia. Qed.

Lemma digits_approx ds : Forall is_digit ds -> (length (drop_zeros ds) <= 308)%nat ->
  approx (digit_roundings ds) (inject_Z (dec_value ds)) (digits_real double ds).
Proof.
  induction ds as [|c ds IH] using rev_ind; intros H Hl.
  - left. split; reflexivity.
  - destruct (Nat.le_gt_cases (length (drop_zeros (ds ++ [c]))) 15) as [Hs|Hs].
    + unfold digit_roundings. replace (2 * (length (drop_zeros (ds ++ [c])) - 15))%nat with 0%nat by lia.
      pose proof (dec_drop_bounds _ H) as B.
      assert (dec_value (ds ++ [c]) <= 2 ^ 53)%Z.
      { transitivity (10 ^ 15)%Z; [|vm_compute; discriminate]. transitivity (10 ^ Z.of_nat (length (drop_zeros (ds ++ [c]))))%Z; [lia|]. apply Z.pow_le_mono_r; lia. }
      rewrite double_digits by auto. apply approx_small. lia.
    + pose proof (dec_drop_bounds _ H) as B. unfold digit_roundings in *. rewrite drop_app in B, Hl, Hs |- * by lia. rewrite app_length in B, Hl, Hs |- *. cbn [length] in B, Hl, Hs |- *.
      apply Forall_app in H. destruct H as [H Hc]. inversion Hc as [|? ? Hc1 _]; subst. specialize (IH H ltac:(lia)).
      assert (Hd : (0 <= digit_val c <= 9)%Z) by (unfold is_digit in Hc1; unfold digit_val; lia).
      pose proof (dec_pos ds H) as P. rewrite dec_value_snoc in B.
      unfold digits_real. rewrite fold_left_app. cbn [fold_left]. fold (digits_real double ds).
      cbn [r_add r_mul r_of double]. replace (Z.of_N (N_of_ascii c - 48)) with (digit_val c) by (unfold is_digit in Hc1; unfold digit_val; lia).
      change (Z.of_N 10) with 10%Z. rewrite dec_value_snoc.
      set (k := (2 * (length (drop_zeros ds) - 15))%nat) in *.
      replace (2 * (length (drop_zeros ds) + 1 - 15))%nat with (Nat.max (k + 0 + 1) 0 + 1)%nat by lia.
      eapply approx_eq; [|apply approx_add; [apply approx_mul; [exact IH|apply (approx_small 10); lia| |lia]|apply (approx_small (digit_val c)); lia| |lia]].
      * rewrite inject_Z_plus, inject_Z_mult. ring.
      * intros Hp. rewrite <- inject_Z_mult in *. split.
        -- eapply Qle_trans; [apply T307_1|]. apply (Real_Proofs5.inj_le 1). change 0 with (inject_Z 0) in Hp. rewrite <- Zlt_Qlt in Hp. lia.
        -- eapply inj_T; [|exact Hl]. lia.
      * rewrite <- inject_Z_mult, <- inject_Z_plus. eapply inj_T; [|exact Hl]. lia.
Qed.

Lemma scale_approx k x d e : approx k x d -> (-307 <= e <= 308)%Z -> (0 < x -> medium (x * T e)) -> (k <= 690)%nat ->
  approx (k + (if (e =? 0)%Z then 0 else power_roundings (Z.abs_nat e))) (x * T e) (shift_exponent double d e).
Proof.
  intros H He Hm Hk. unfold shift_exponent. destruct (Z.ltb_spec e (-307)); [lia|]. destruct (Z.leb_spec e 308); [|lia]. unfold scale.
  destruct (Z.eqb_spec e 0) as [->|Ne].
  - rewrite Nat.add_0_r. eapply approx_eq; [|exact H]. change (T 0) with 1. ring.
  - assert (Pr : (1 <= power_roundings (Z.abs_nat e) <= 2)%nat) by (unfold power_roundings; destruct (Nat.leb _ _); lia).
    destruct (Z.ltb_spec 0 e) as [P|P]; cbn [r_mul r_div fract10 double].
    + pose proof (approx_power (Z.to_nat e) ltac:(lia)) as A. rewrite Z2Nat.id in * by lia. replace (Z.abs_nat e) with (Z.to_nat e) in * by lia.
      replace (k + power_roundings (Z.to_nat e))%nat with (k + (power_roundings (Z.to_nat e) - 1) + 1)%nat by lia.
      apply approx_mul; auto; [|lia]. intros Hp. apply Hm. pose proof (T_pos e). destruct (Qlt_le_dec 0 x); [auto|]. exfalso. nra.
    + pose proof (approx_power (Z.to_nat (- e)) ltac:(lia)) as A. rewrite Z2Nat.id in * by lia. replace (Z.abs_nat e) with (Z.to_nat (- e)) in * by lia.
      assert (Ei : x / T (- e) == x * T e).
      { unfold Qdiv. rewrite Qpower_opp, Qinv_involutive. reflexivity. }
      replace (k + power_roundings (Z.to_nat (- e)))%nat with (k + (power_roundings (Z.to_nat (- e)) - 1) + 1)%nat by lia.
      eapply approx_eq; [exact Ei|]. apply approx_div; auto; [apply T_pos| |lia]. intros Hp.
      destruct Hm as [M1 M2]; [|unfold medium; rewrite Ei; auto]. rewrite Ei in Hp. pose proof (T_pos e). destruct (Qlt_le_dec 0 x); [auto|]. exfalso. nra.
Qed.

Lemma mantissa_approx I F : Forall is_digit I -> Forall is_digit F -> (length (drop_zeros I) <= 308)%nat -> (length F <= 307)%nat ->
  approx (roundings I F 0) (inject_Z (dec_value (I ++ F)) * T (- Z.of_nat (length F))) (mantissa double I F).
Proof.
  intros HI HF LI LF. destruct (drop_digits I HI) as (HI' & Ed).
  pose proof (digits_approx (drop_zeros I) HI') as A. rewrite drop_idem, Ed in A. specialize (A LI).
  unfold digit_roundings in A. rewrite drop_idem in A. fold (digit_roundings I) in A.
  unfold roundings. cbn [Z.eqb]. rewrite Nat.add_0_r. unfold mantissa. destruct F as [|f F0] eqn:EF.
  - rewrite app_nil_r. eapply approx_eq; [|exact A]. cbn [length]. change (T (- Z.of_nat 0)) with 1. ring.
  - rewrite <- EF in *. assert (NF : (1 <= length F)%nat) by (rewrite EF; cbn; lia). clear EF f F0.
    pose proof (drop_bound F) as DB.
    pose proof (dec_bounds F HF) as BF. pose proof (dec_drop_bounds I HI) as BI.
    assert (KI : (digit_roundings I <= 586)%nat) by (unfold digit_roundings; lia).
    assert (KF : (digit_roundings F <= 584)%nat) by (unfold digit_roundings; lia).
    assert (U : inject_Z (dec_value F) * T (- Z.of_nat (length F)) <= 1).
    { assert (E1 : T (Z.of_nat (length F)) * T (- Z.of_nat (length F)) == 1) by (rewrite <- T_plus; replace (Z.of_nat (length F) + - Z.of_nat (length F))%Z with 0%Z by lia; reflexivity).
      apply (Qle_trans _ (T (Z.of_nat (length F)) * T (- Z.of_nat (length F)))); [|rewrite E1; apply Qle_refl].
      pose proof (T_pos (- Z.of_nat (length F))). apply Qmult_le_compat_r; [|now apply Qlt_le_weak]. rewrite <- (T_Z (Z.of_nat (length F))) by lia. apply Real_Proofs5.inj_le. lia. }
    pose proof (scale_approx _ _ _ (- Z.of_nat (length F)) (digits_approx F HF ltac:(lia)) ltac:(lia)) as S.
    destruct (Z.eqb_spec (- Z.of_nat (length F)) 0); [lia|]. replace (Z.abs_nat (- Z.of_nat (length F))) with (length F) in S by lia.
    assert (Pr : (1 <= power_roundings (length F) <= 2)%nat) by (unfold power_roundings; destruct (Nat.leb _ _); lia).
    eapply approx_eq; [|apply approx_add; [exact A|apply S; [|lia]| |lia]].
    + rewrite dec_value_app, inject_Z_plus, inject_Z_mult, T_Z by lia.
      rewrite Qmult_plus_distr_l, <- Qmult_assoc, <- T_plus. replace (Z.of_nat (length F) + - Z.of_nat (length F))%Z with 0%Z by lia. change (T 0) with 1. ring.
    + intros Hp. change 0 with (inject_Z 0) in Hp. rewrite <- Zlt_Qlt in Hp. split.
      * apply (Qle_trans _ (T (- Z.of_nat (length F)))); [apply T_le; lia|]. pose proof (T_pos (- Z.of_nat (length F))).
        assert (1 <= inject_Z (dec_value F)) by (apply (Real_Proofs5.inj_le 1); lia). nra.
      * eapply Qle_trans; [exact U|]. apply (T_le 0 308). lia.
    + apply (Qle_trans _ (inject_Z (dec_value I + 1))); [rewrite inject_Z_plus; change (inject_Z 1) with 1; lra|].
      eapply inj_T; [|exact LI]. lia.
Qed.

Lemma number_approx I F e : Forall is_digit I -> Forall is_digit F -> (length (drop_zeros I) <= 308)%nat -> (length F <= 307)%nat ->
  (-307 <= e <= 308)%Z -> (dec_value (I ++ F) = 0%Z \/ medium (decimal false I F e)) ->
  approx (roundings I F e) (decimal false I F e) (shift_exponent double (mantissa double I F) e).
Proof.
  intros HI HF LI LF He Hm. pose proof (mantissa_approx I F HI HF LI LF) as A.
  assert (E : decimal false I F e == inject_Z (dec_value (I ++ F)) * T (- Z.of_nat (length F)) * T e).
  { unfold decimal. unfold Z.sub. rewrite T_plus. ring. }
  assert (K : (roundings I F 0 <= 690)%nat).
  { unfold roundings. cbn [Z.eqb]. pose proof (drop_bound F). destruct F as [|f F']; [unfold digit_roundings; lia|].
    unfold digit_roundings, power_roundings. destruct (Nat.leb _ _); lia. }
  eapply approx_eq; [symmetry; exact E|].
  replace (roundings I F e) with (roundings I F 0 + (if (e =? 0)%Z then 0 else power_roundings (Z.abs_nat e)))%nat
    by (unfold roundings; cbn [Z.eqb]; destruct F; lia).
  apply scale_approx; auto. intros Hp. destruct Hm as [Hz|Hm]; [|unfold medium in *; now rewrite <- E].
  exfalso. rewrite Hz in Hp. change (inject_Z 0) with 0 in Hp. rewrite Qmult_0_l in Hp. lra.
Qed.

(* ---------- results ---------- *)
Lemma within_unfold k x y : within k x y <-> exists f, / rho k <= f <= rho k /\ y == x * f.
Proof. reflexivity. Qed.
Lemma close_within k x y : 0 < x -> close k x y -> within k x y.
Proof.
  intros Hx H. pose proof (close_pos _ _ _ Hx H) as Hy. apply close_unfold in H. destruct H as (A & B). apply within_unfold. exists (y / x).
  pose proof (rho_pos k) as R. split; [split|].
  - apply (Qmult_le_r _ _ (x * rho k)); [now apply Qmult_lt_0_compat|].
    setoid_replace (/ rho k * (x * rho k)) with x by (field; lra). setoid_replace (y / x * (x * rho k)) with (y * rho k) by (field; lra). exact A.
  - apply (Qmult_le_r _ _ x); [auto|]. setoid_replace (y / x * x) with y by (field; lra). rewrite Qmult_comm. exact B.
  - field. lra.
Qed.
Lemma inv_le_1 k : / rho k <= 1.
Proof. pose proof (rho_1 k). pose proof (rho_pos k). apply (Qmult_le_r _ _ (rho k)); [auto|]. rewrite (Qmult_comm (/ rho k)), Qmult_inv_r by lra. lra. Qed.
Lemma within_zero k x : x == 0 -> within k x 0.
Proof. intros E. apply within_unfold. exists 1. pose proof (rho_1 k). pose proof (inv_le_1 k). split; [auto|]. rewrite E. ring. Qed.
Lemma within_opp k x y : within k x y -> within k (- x) (- y).
Proof. intros (f & H & E). exists f. split; [exact H|]. rewrite E. ring. Qed.
Lemma within_eq k x x' y : x == x' -> within k x y -> within k x' y.
Proof. intros E (f & H & Ef). exists f. split; [exact H|]. now rewrite <- E. Qed.

Lemma decimal_neg I F e : decimal true I F e == - decimal false I F e.
Proof. unfold decimal. rewrite inject_Z_opp. ring. Qed.
Lemma decimal_nonneg I F e : Forall is_digit I -> Forall is_digit F -> 0 <= decimal false I F e.
Proof.
  intros HI HF. unfold decimal. pose proof (T_pos (e - Z.of_nat (length F))). pose proof (dec_pos (I ++ F)) as P.
  apply Qmult_le_0_compat; [|lra]. apply (Real_Proofs5.inj_le 0). apply P. apply Forall_app. auto.
Qed.
Lemma decimal_abs neg I F e : Forall is_digit I -> Forall is_digit F -> Qabs (decimal neg I F e) == decimal false I F e.
Proof.
  intros HI HF. pose proof (decimal_nonneg I F e HI HF). destruct neg; [rewrite decimal_neg, Qabs_opp|]; now apply Qabs_pos.
Qed.

Lemma double_within neg I F e : Forall is_digit I -> Forall is_digit F -> (length (drop_zeros I) <= 308)%nat -> (length F <= 307)%nat ->
  (-307 <= e <= 308)%Z -> (dec_value (I ++ F) = 0%Z \/ medium (Qabs (decimal neg I F e))) ->
  exists q, value (signed double neg (shift_exponent double (mantissa double I F) e)) = Some q /\ within (roundings I F e) (decimal neg I F e) q.
Proof.
  intros HI HF LI LF He Hm.
  destruct (number_approx I F e HI HF LI LF He) as [(E & ->)|(P & m & e' & -> & N & C)].
  - destruct Hm as [H|H]; [auto|right]. unfold medium in *. now rewrite decimal_abs in H by auto.
  - exists 0. destruct neg; cbn; (split; [reflexivity|]); apply within_zero; [rewrite decimal_neg, E|rewrite E]; ring.
  - apply close_within in C; [|exact P]. destruct neg; cbn [signed r_opp double SFopp negb value]; eexists; (split; [reflexivity|]).
    + eapply within_eq; [symmetry; apply decimal_neg|]. now apply within_opp.
    + exact C.
Qed.

Lemma within_error k b x y : rho k - 1 <= b -> within k x y -> Qabs (y - x) <= b * Qabs x.
Proof.
  rewrite within_unfold. intros Hb (f & (H1 & H2) & E). rewrite E. setoid_replace (x * f - x) with ((f - 1) * x) by ring. rewrite Qabs_Qmult.
  apply Qmult_le_compat_r; [|apply Qabs_nonneg]. apply Qabs_Qle_condition. split; [|lra].
  assert (2 - rho k <= / rho k); [|lra]. pose proof (rho_pos k).
  apply (Qmult_le_r _ _ (rho k)); [auto|]. rewrite (Qmult_comm (/ rho k)), Qmult_inv_r by lra.
  pose proof (rho_1 k). pose proof (Qmult_le_0_compat (rho k - 1) (rho k - 1) ltac:(lra) ltac:(lra)) as Sq.
  setoid_replace ((2 - rho k) * rho k) with (1 - (rho k - 1) * (rho k - 1)) by ring. lra.
Qed.
Lemma within_mono k l x y : (k <= l)%nat -> within k x y -> within l x y.
Proof.
  rewrite !within_unfold. intros H (f & (H1 & H2) & E). exists f. pose proof (rho_le k l H). split; [split; [|lra]|exact E].
  eapply Qle_trans; [|exact H1]. pose proof (rho_pos k). pose proof (rho_pos l).
  apply (Qmult_le_r _ _ (rho k * rho l)); [now apply Qmult_lt_0_compat|].
  setoid_replace (/ rho l * (rho k * rho l)) with (rho k) by (field; lra). setoid_replace (/ rho k * (rho k * rho l)) with (rho l) by (field; lra). lra.
Qed.
Lemma rho_3 : rho 3 - 1 <= 1 # 2 ^ 51.
Proof. apply Qle_bool_iff. vm_compute. reflexivity. Qed.
Lemma rho_600 : rho 600 - 1 <= 1 # 10 ^ 13.
Proof. pose proof rho_600_small. change (1 # 10 ^ 13) with (1 # 10000000000000). lra. Qed.
Lemma roundings_any I F e : (length (drop_zeros I) <= 308)%nat -> (length F <= 307)%nat -> (roundings I F e <= 600)%nat.
Proof.
  intros. pose proof (drop_bound F). unfold roundings, digit_roundings, power_roundings. destruct F; destruct (e =? 0)%Z; repeat destruct (Nat.leb _ _); lia.
Qed.
Lemma roundings_short I F e : (length (drop_zeros I) <= 15)%nat -> (length (drop_zeros F) <= 15)%nat -> (length F <= 22)%nat -> (-22 <= e <= 22)%Z ->
  (roundings I F e <= 3)%nat.
Proof.
  intros. unfold roundings, digit_roundings, power_roundings. destruct (Nat.leb_spec (length F) 22); [|lia]. destruct (Nat.leb_spec (Z.abs_nat e) 22); [|lia].
  destruct F; destruct (e =? 0)%Z; lia.
Qed.

(* ---------- float ---------- *)
Lemma float_step sx m e y : normal m e -> y == magnitude m e -> p2 (-126) <= y -> y <= inject_Z (2 ^ 24 - 1) * p2 104 ->
  exists m' e', to_float (S754_finite sx m e) = S754_finite sx m' e' /\
    y * (inject_Z (2 ^ 24) - 1) <= magnitude m' e' * inject_Z (2 ^ 24) /\ magnitude m' e' * (inject_Z (2 ^ 24) - 1) <= y * inject_Z (2 ^ 24).
Proof.
  intros (A & B) Hy H1 H2. pose proof (log2_53 _ A) as L.
  assert (E : to_float (S754_finite sx m e) = binary_round_aux 24 128 sx (Zpos m) e loc_Exact).
  { cbn [to_float]. assert (binary_round 24 128 sx m e = binary_round_aux 24 128 sx (Zpos m) e loc_Exact).
    { unfold binary_round, shl_align. rewrite digits_log, L. unfold fexp, emin.
      destruct (Z.max (52 + 1 + e - 24) (3 - 128 - 24) - e)%Z eqn:Em; try reflexivity. lia. }
    destruct sx; cbn [binary_normalize]; auto. }
  rewrite E. destruct (aux_close 24 128 ltac:(lia) sx (Zpos m) e loc_Exact (Zpos m) 1 y) as (m' & e' & E' & Hm & He & C1 & C2); try lia; auto.
  - cbn [inb]. lia.
  - rewrite Hy. unfold magnitude. change (inject_Z 1) with 1. ring.
  - exists m', e'. split; [exact E'|]. split; [exact C1|exact C2].
Qed.
Lemma low_f : p2 (-126) * rho 600 <= T (-37).
Proof. apply (times_rho _ _ _ _ rho_600_small); apply Qle_bool_iff; vm_compute; reflexivity. Qed.
Lemma high_f : T 38 * rho 600 <= inject_Z (2 ^ 24 - 1) * p2 104.
Proof. apply (times_rho _ _ _ _ rho_600_small); apply Qle_bool_iff; vm_compute; reflexivity. Qed.
Lemma float_error x y z : 0 < x -> close 600 x y ->
  y * (inject_Z (2 ^ 24) - 1) <= z * inject_Z (2 ^ 24) -> z * (inject_Z (2 ^ 24) - 1) <= y * inject_Z (2 ^ 24) ->
  Qabs (z - x) <= (1 # 2 ^ 23) * x.
Proof.
  intros Hx H C1 C2. pose proof (close_pos _ _ _ Hx H) as Hy. apply close_unfold in H. destruct H as (A & B). pose proof rho_600 as R. pose proof (rho_1 600).
  change (inject_Z (2 ^ 24)) with (16777216 # 1) in *. change (2 ^ 23)%positive with 8388608%positive. change (10 ^ 13)%positive with 10000000000000%positive in R.
  assert (U : y <= x * (1 + (1 # 10000000000000))).
  { eapply Qle_trans; [exact B|]. rewrite !(Qmult_comm x). apply Qmult_le_compat_r; lra. }
  assert (L : x <= y * (1 + (1 # 10000000000000))).
  { eapply Qle_trans; [exact A|]. rewrite !(Qmult_comm y). apply Qmult_le_compat_r; lra. }
  apply Qabs_Qle_condition. split; lra.
Qed.
Lemma float_medium x : medium_float x -> medium x.
Proof.
  intros (A & B). split.
  - eapply Qle_trans; [|exact A]. apply T_le. lia.
  - eapply Qle_trans; [exact B|]. apply T_le. lia.
Qed.
Lemma float_within neg I F e : Forall is_digit I -> Forall is_digit F -> (length (drop_zeros I) <= 308)%nat -> (length F <= 307)%nat ->
  (-307 <= e <= 308)%Z -> (dec_value (I ++ F) = 0%Z \/ medium_float (Qabs (decimal neg I F e))) ->
  exists q, value (to_float (signed double neg (shift_exponent double (mantissa double I F) e))) = Some q /\
    Qabs (q - decimal neg I F e) <= (1 # 2 ^ 23) * Qabs (decimal neg I F e).
Proof.
  intros HI HF LI LF He Hm.
  assert (Hm2 : dec_value (I ++ F) = 0%Z \/ medium_float (decimal false I F e)).
  { destruct Hm as [H|H]; [auto|right]. unfold medium_float in *. now rewrite decimal_abs in H by auto. }
  destruct (number_approx I F e HI HF LI LF He) as [(E & ->)|(P & m & e' & -> & N & C)].
  - destruct Hm2 as [H|H]; [auto|right]. now apply float_medium.
  - exists 0. assert (Ez : decimal neg I F e == 0) by (destruct neg; [rewrite decimal_neg, E; reflexivity|exact E]).
    split; [destruct neg; reflexivity|]. rewrite Ez. vm_compute. discriminate.
  - assert (Hf : medium_float (decimal false I F e)).
    { destruct Hm2 as [H|H]; [|exact H]. exfalso. revert P. unfold decimal. rewrite H. change (inject_Z 0) with 0. rewrite Qmult_0_l. apply Qlt_irrefl. }
    pose proof (magnitude_pos m e') as Mp.
    apply (close_mono _ 600) in C; [|lra|lra|now apply roundings_any].
    assert (Rg : p2 (-126) <= magnitude m e' /\ magnitude m e' <= inject_Z (2 ^ 24 - 1) * p2 104).
    { pose proof C as C'. apply close_unfold in C'. destruct C' as (A & B). destruct Hf as (M1 & M2). pose proof (rho_pos 600) as R. split.
      - apply (Qmult_le_r _ _ (rho 600)); [exact R|]. eapply Qle_trans; [apply low_f|]. eapply Qle_trans; [exact M1|exact A].
      - eapply Qle_trans; [exact B|]. eapply Qle_trans; [|apply high_f]. apply Qmult_le_compat_r; [exact M2|now apply Qlt_le_weak]. }
    destruct Rg as (R1 & R2).
    destruct (float_step neg m e' _ N (Qeq_refl _) R1 R2) as (m' & e2 & E2 & C1 & C2).
    pose proof (float_error _ _ _ P C C1 C2) as Er.
    assert (Es : signed double neg (S754_finite false m e') = S754_finite neg m e') by (destruct neg; reflexivity).
    rewrite Es, E2. cbn [value]. eexists. split; [reflexivity|]. rewrite decimal_abs by auto. destruct neg; [|exact Er].
    rewrite decimal_neg. setoid_replace (- magnitude m' e2 - - decimal false I F e) with (- (magnitude m' e2 - decimal false I F e)) by ring.
    now rewrite Qabs_opp.
Qed.
Lemma short_medium neg I F e : Forall is_digit I -> Forall is_digit F ->
  (length (drop_zeros I) <= 15)%nat -> (length F <= 22)%nat -> (-22 <= e <= 22)%Z ->
  dec_value (I ++ F) = 0%Z \/ medium (Qabs (decimal neg I F e)).
Proof.
  intros HI HF LI LF He. destruct (Z.eq_dec (dec_value (I ++ F)) 0) as [E|N]; [now left|right].
  assert (HIF : Forall is_digit (I ++ F)) by (apply Forall_app; auto).
  pose proof (dec_pos _ HIF) as P. unfold medium. rewrite decimal_abs by auto. unfold decimal. pose proof (T_pos (e - Z.of_nat (length F))) as TP.
  assert (B : (dec_value (I ++ F) <= 10 ^ 37)%Z).
  { rewrite dec_value_app. pose proof (dec_drop_bounds I HI) as B1. pose proof (dec_bounds F HF) as B2.
    assert (10 ^ Z.of_nat (length (drop_zeros I)) <= 10 ^ 15)%Z by (apply Z.pow_le_mono_r; lia).
    assert (10 ^ Z.of_nat (length F) <= 10 ^ 22)%Z by (apply Z.pow_le_mono_r; lia).
    assert (0 < 10 ^ Z.of_nat (length F))%Z by (apply Z.pow_pos_nonneg; lia).
    replace (10 ^ 37)%Z with (10 ^ 15 * 10 ^ 22)%Z by reflexivity. nia. }
  split.
  - apply (Qle_trans _ (T (e - Z.of_nat (length F)))); [apply T_le; lia|].
    assert (1 <= inject_Z (dec_value (I ++ F))) by (apply (Real_Proofs5.inj_le 1); lia).
    rewrite <- (Qmult_1_l (T _)) at 1. apply Qmult_le_compat_r; [auto|now apply Qlt_le_weak].
  - apply (Qle_trans _ (T 37 * T 22)); [|rewrite <- T_plus; apply T_le; lia]. apply mul_le.
    + apply (Real_Proofs5.inj_le 0). lia.
    + now apply Qlt_le_weak.
    + rewrite <- T_Z by lia. now apply Real_Proofs5.inj_le.
    + apply T_le. lia.
Qed.

Lemma float_value neg I F e : number_value float neg I F e = to_float (signed double neg (shift_exponent double (mantissa double I F) e)).
Proof.
  unfold number_value, signed, mantissa, shift_exponent, scale, digits_real, float, double.
  cbn [real_t target r_of r_add r_mul r_div r_opp fract10 pow_10_10 narrow]. reflexivity.
Qed.
