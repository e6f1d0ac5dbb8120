(* The error of the operations of IEEE doubles on positive numbers. *)
From Verif Require Import Real_Float Real_Round Real_Spec2.
From Coq Require Import ZArith Lia QArith Qpower Lqa SpecFloat.
Local Open Scope Q_scope.

Notation p2 e := (Qpower (inject_Z 2) e).
Lemma p2_pos e : 0 < p2 e.
Proof. apply Qpower_0_lt. reflexivity. Qed.
Lemma p2_plus a b : p2 (a + b) == p2 a * p2 b.
Proof. apply Qpower_plus. discriminate. Qed.
Lemma p2_Z n : (0 <= n)%Z -> inject_Z (2 ^ n) == p2 n.
Proof. apply Zpower_Qpower. Qed.
Lemma p2_lt_inv a b : p2 a < p2 b -> (a < b)%Z.
Proof. intros H. apply (Qpower_lt_compat_l_inv _ _ _ H). reflexivity. Qed.
Lemma inj_le a b : (a <= b)%Z -> inject_Z a <= inject_Z b.
Proof. intros H. rewrite <- Zle_Qle. exact H. Qed.
Lemma inj_lt a b : (a < b)%Z -> inject_Z a < inject_Z b.
Proof. intros H. rewrite <- Zlt_Qlt. exact H. Qed.
Lemma mul_le_r a b c : a <= b -> 0 <= c -> a * c <= b * c.
Proof. intros. now apply Qmult_le_compat_r. Qed.
Lemma mul_lt_r a b c : a < b -> 0 < c -> a * c < b * c.
Proof. intros. now apply Qmult_lt_compat_r. Qed.

Section Round.
Variable prec emax : Z.
Hypothesis Hprec : (1 < prec)%Z.
Let P : Q := inject_Z (2 ^ prec).

Lemma aux_close sx mx ex lx p q x : (0 < mx)%Z -> (prec <= Z.log2 mx + 1)%Z -> (0 < q)%Z -> inb mx lx p q ->
  x * inject_Z q == inject_Z p * p2 ex -> p2 (2 - emax) <= x -> x <= (P - 1) * p2 (emax - prec) ->
  exists m e, binary_round_aux prec emax sx mx ex lx = S754_finite sx m e /\ (2 ^ (prec - 1) <= Zpos m < 2 ^ prec)%Z /\
    (3 - emax - prec <= e <= emax - prec)%Z /\ x * (P - 1) <= magnitude m e * P /\ magnitude m e * (P - 1) <= x * P.
Proof.
  intros Hm Hd Hq Hb Ex Hlo Hhi.
  set (L := Z.log2 mx) in *. set (h := p2 ex) in *. assert (Hh : 0 < h) by apply p2_pos.
  assert (Hq' : 0 < inject_Z q) by (apply (inj_lt 0); exact Hq).
  assert (B : (mx * q <= p < (mx + 1) * q)%Z) by (destruct lx; cbn [inb] in Hb; nia).
  pose proof (Z.log2_spec mx Hm) as HL. fold L in HL.
  assert (HL0 : (0 <= L)%Z) by apply Z.log2_nonneg.
  assert (X1 : inject_Z mx * h <= x).
  { apply (Qmult_le_r _ _ _ Hq'). rewrite Ex. setoid_replace (inject_Z mx * h * inject_Z q) with (inject_Z (mx * q) * h) by (rewrite inject_Z_mult; ring).
    apply mul_le_r; [apply inj_le; lia|lra]. }
  assert (X2 : x < inject_Z (mx + 1) * h).
  { apply (Qmult_lt_r _ _ _ Hq'). rewrite Ex. setoid_replace (inject_Z (mx + 1) * h * inject_Z q) with (inject_Z ((mx + 1) * q) * h) by (rewrite inject_Z_mult; ring).
    apply mul_lt_r; [apply inj_lt; lia|lra]. }
  assert (X3 : p2 (L + ex) <= x).
  { rewrite p2_plus. fold h. eapply Qle_trans; [|exact X1]. apply mul_le_r; [|lra]. rewrite <- p2_Z by lia. apply inj_le. lia. }
  assert (X4 : x < p2 (L + 1 + ex)).
  { rewrite p2_plus. fold h. eapply Qlt_le_trans; [exact X2|]. apply mul_le_r; [|lra]. rewrite <- p2_Z by lia. apply inj_le. replace (L + 1)%Z with (Z.succ L) by lia. lia. }
  assert (N1 : (2 - emax < L + 1 + ex)%Z) by (apply p2_lt_inv; lra).
  destruct (aux_normal prec emax Hprec sx mx ex lx p q Hm Hd ltac:(fold L; lia) Hq Hb) as (z & Hz & Hr & Res). fold L in Hr, Res.
  set (n := (L + 1 - prec)%Z) in *. set (e' := (ex + n)%Z) in *. set (H := p2 e').
  assert (HH : 0 < H) by apply p2_pos.
  assert (HE : H == h * inject_Z (2 ^ n)) by (unfold H, e'; rewrite p2_plus, p2_Z by lia; reflexivity).
  (* |z H - x| <= H / 2 *)
  assert (Y1 : 2 * x <= (2 * inject_Z z + 1) * H).
  { apply (Qmult_le_r _ _ _ Hq'). setoid_replace (2 * x * inject_Z q) with (inject_Z (2 * p) * h) by (rewrite inject_Z_mult; rewrite <- !Qmult_assoc, Ex; reflexivity).
    rewrite HE. setoid_replace ((2 * inject_Z z + 1) * (h * inject_Z (2 ^ n)) * inject_Z q) with (inject_Z ((2 * z + 1) * (2 ^ n * q)) * h).
    2:{ rewrite !inject_Z_mult, inject_Z_plus, inject_Z_mult. ring. }
    apply mul_le_r; [apply inj_le; nia|lra]. }
  assert (Y2 : (2 * inject_Z z - 1) * H <= 2 * x).
  { apply (Qmult_le_r _ _ _ Hq'). setoid_replace (2 * x * inject_Z q) with (inject_Z (2 * p) * h) by (rewrite inject_Z_mult; rewrite <- !Qmult_assoc, Ex; reflexivity).
    rewrite HE. setoid_replace ((2 * inject_Z z - 1) * (h * inject_Z (2 ^ n)) * inject_Z q) with (inject_Z ((2 * z - 1) * (2 ^ n * q)) * h).
    2:{ unfold Z.sub. rewrite !inject_Z_mult, inject_Z_plus, inject_Z_mult. change (inject_Z (- (1))) with (-(1))%Q. ring. }
    apply mul_le_r; [apply inj_le; nia|lra]. }
  assert (PP : P == 2 * inject_Z (2 ^ (prec - 1))).
  { unfold P. rewrite <- (inject_Z_mult 2). rewrite <- Z.pow_succ_r by lia. replace (Z.succ (prec - 1)) with prec by lia. reflexivity. }
  assert (Y3 : P * H <= 2 * x).
  { rewrite PP. rewrite <- Qmult_assoc. apply Qmult_le_l; [reflexivity|]. eapply Qle_trans; [|exact X3].
    replace (L + ex)%Z with ((prec - 1) + e')%Z by lia. rewrite p2_plus, p2_Z by lia. fold H. apply Qle_refl. }
  assert (HP : 2 <= P) by (unfold P; apply (inj_le 2); transitivity (2 ^ 1)%Z; [lia|apply Z.pow_le_mono_r; lia]).
  assert (E1 : (e' <= emax - prec)%Z).
  { assert (p2 (L + ex) < p2 emax) as K.
    { eapply Qle_lt_trans; [exact X3|]. eapply Qle_lt_trans; [exact Hhi|]. replace emax with (prec + (emax - prec))%Z at 2 by lia.
      rewrite p2_plus. apply mul_lt_r; [|apply p2_pos]. rewrite <- p2_Z by lia. fold P. lra. }
    apply p2_lt_inv in K. lia. }
  set (y := inject_Z z * H).
  assert (Yb : x * (P - 1) <= y * P /\ y * (P - 1) <= x * P).
  { assert (0 < x) by (pose proof (p2_pos (2 - emax)); lra).
    assert (Y1' : 2 * x <= 2 * y + H) by (unfold y; lra). assert (Y2' : 2 * y - H <= 2 * x) by (unfold y; lra). clear Y1 Y2. clearbody y.
    assert (K1 : 2 * x * P <= (2 * y + H) * P) by (apply mul_le_r; lra).
    assert (K2 : (2 * y - H) * P <= 2 * x * P) by (apply mul_le_r; lra).
    split; [lra|]. destruct (Qlt_le_dec y x) as [K|K]; [|lra].
    assert (y * (P - 1) <= x * (P - 1)) by (apply mul_le_r; lra). lra. }
  destruct Res as [(Hz1 & Res)|(Hz1 & Res)].
  - exists (Z.to_pos z), e'. rewrite Res. assert (0 < 2 ^ (prec - 1))%Z by (apply Z.pow_pos_nonneg; lia).
    replace (Zle_bool e' (emax - prec)) with true by (symmetry; apply Z.leb_le; exact E1).
    unfold magnitude. rewrite Z2Pos.id by lia. fold H. fold y. repeat split; try tauto; lia.
  - assert (E2 : (e' < emax - prec)%Z).
    { destruct (Z.eq_dec e' (emax - prec)) as [E|E]; [|lia]. exfalso. rewrite <- E in Hhi. fold H in Hhi. rewrite Hz1 in Y2. fold P in Y2. lra. }
    exists (Z.to_pos (2 ^ (prec - 1))), (e' + 1)%Z. rewrite Res. assert (0 < 2 ^ (prec - 1))%Z by (apply Z.pow_pos_nonneg; lia).
    replace (Zle_bool (e' + 1) (emax - prec)) with true by (symmetry; apply Z.leb_le; lia).
    unfold magnitude. rewrite Z2Pos.id by lia.
    assert (Ey : inject_Z (2 ^ (prec - 1)) * p2 (e' + 1) == y).
    { unfold y. rewrite Hz1. fold P. rewrite PP, p2_plus. fold H. change (p2 1) with (inject_Z 2). change (inject_Z 2) with 2%Q. ring. }
    rewrite Ey. repeat split; try tauto; try lia.
    replace prec with (Z.succ (prec - 1)) at 2 by lia. rewrite Z.pow_succ_r by lia. lia.
Qed.
End Round.

(* ---------- doubles ---------- *)
Definition normal (m : positive) (e : Z) : Prop := (2 ^ 52 <= Zpos m < 2 ^ 53 /\ -1074 <= e <= 971)%Z.
Definition largest : Q := inject_Z (2 ^ 53 - 1) * p2 971.

Definition close (k : nat) (x y : Q) : Prop :=
  x <= y * Qpower rounding (Z.of_nat k) /\ y <= x * Qpower rounding (Z.of_nat k).
Lemma rounding_eq : rounding == inject_Z (2 ^ 53) / (inject_Z (2 ^ 53) - 1).
Proof. reflexivity. Qed.
Lemma close_1 x y : x * (inject_Z (2 ^ 53) - 1) <= y * inject_Z (2 ^ 53) -> y * (inject_Z (2 ^ 53) - 1) <= x * inject_Z (2 ^ 53) -> close 1 x y.
Proof.
  intros H1 H2. unfold close. change (Z.of_nat 1) with 1%Z. rewrite Qpower_1_r. unfold rounding.
  change (inject_Z (2 ^ 53)) with (9007199254740992 # 1) in *. split; lra.
Qed.

Lemma round_step sx mx ex lx p q x : (0 < mx)%Z -> (53 <= Z.log2 mx + 1)%Z -> (0 < q)%Z -> inb mx lx p q ->
  x * inject_Z q == inject_Z p * p2 ex -> p2 (-1022) <= x -> x <= largest ->
  exists m e, aux sx mx ex lx = S754_finite sx m e /\ normal m e /\ close 1 x (magnitude m e).
Proof.
  intros H1 H2 H3 H4 H5 H6 H7.
  destruct (aux_close 53 1024 ltac:(lia) sx mx ex lx p q x H1 H2 H3 H4 H5 H6 H7) as (m & e & E & Hm & He & C1 & C2).
  exists m, e. split; [exact E|]. split; [split; [exact Hm|lia]|]. now apply close_1.
Qed.

Lemma log2_53 m : (2 ^ 52 <= m < 2 ^ 53)%Z -> Z.log2 m = 52%Z.
Proof. intros H. apply Z.log2_unique; [lia|]. exact H. Qed.

Lemma mul_step m1 e1 m2 e2 : normal m1 e1 -> normal m2 e2 -> let x := magnitude m1 e1 * magnitude m2 e2 in
  p2 (-1022) <= x -> x <= largest ->
  exists m e, SFmul 53 1024 (S754_finite false m1 e1) (S754_finite false m2 e2) = S754_finite false m e /\ normal m e /\ close 1 x (magnitude m e).
Proof.
  intros (A1 & A2) (B1 & B2) x H1 H2. cbn [SFmul xorb].
  apply (round_step false (Zpos (m1 * m2)) (e1 + e2) loc_Exact (Zpos (m1 * m2)) 1 x); auto; try lia.
  - rewrite Pos2Z.inj_mul. pose proof (Z.log2_mul_below (Zpos m1) (Zpos m2) ltac:(lia) ltac:(lia)) as K. rewrite !log2_53 in K by lia. lia.
  - cbn [inb]. lia.
  - unfold x, magnitude. rewrite p2_plus, Pos2Z.inj_mul, inject_Z_mult. change (inject_Z 1) with 1%Q. ring.
Qed.

Lemma normal_low m e : normal m e -> p2 (-1022) <= magnitude m e.
Proof.
  intros (A & B). unfold magnitude. replace (-1022)%Z with (52 + -1074)%Z by lia. rewrite p2_plus, <- p2_Z by lia.
  eapply Qle_trans; [apply mul_le_r; [apply inj_le, A|]|].
  - pose proof (p2_pos (-1074)). lra.
  - rewrite !(Qmult_comm (inject_Z (Zpos m))). apply mul_le_r; [apply Qpower_le_compat_l; [lia|unfold Qle; cbn; lia]|]. apply (inj_le 0). lia.
Qed.

Lemma int_step mm ez x : (-1021 <= Z.log2 (Zpos mm) + 1 + ez)%Z -> x == magnitude mm ez -> p2 (-1022) <= x -> x <= largest ->
  exists m e, binary_round 53 1024 false mm ez = S754_finite false m e /\ normal m e /\ close 1 x (magnitude m e).
Proof.
  intros H0 Hx H1 H2. pose proof (Z.log2_nonneg (Zpos mm)). rewrite (round_any false mm ez 53) by lia.
  apply (round_step false (Zpos mm * 2 ^ 53) (ez - 53) loc_Exact (Zpos mm * 2 ^ 53) 1 x); auto; try lia.
  - rewrite log2_shift by lia. lia.
  - cbn [inb]. lia.
  - rewrite Hx. unfold magnitude. rewrite inject_Z_mult. replace ez with (53 + (ez - 53))%Z at 1 by lia. rewrite p2_plus, <- (p2_Z 53) by lia.
    change (inject_Z 1) with 1%Q. ring.
Qed.

Lemma add_step m1 e1 m2 e2 : normal m1 e1 -> normal m2 e2 -> let x := magnitude m1 e1 + magnitude m2 e2 in x <= largest ->
  exists m e, SFadd 53 1024 (S754_finite false m1 e1) (S754_finite false m2 e2) = S754_finite false m e /\ normal m e /\ close 1 x (magnitude m e).
Proof.
  intros N1 N2 x H2. pose proof (normal_low _ _ N1) as L1. pose proof (normal_low _ _ N2) as L2. pose proof (p2_pos (-1022)).
  destruct N1 as (A1 & A2). destruct N2 as (B1 & B2). cbn [SFadd cond_Zopp]. rewrite !shl_align_ok by lia.
  set (ez := Z.min e1 e2) in *.
  assert (Q1 : (0 < 2 ^ (e1 - ez))%Z) by (apply Z.pow_pos_nonneg; lia).
  assert (Q2 : (0 < 2 ^ (e2 - ez))%Z) by (apply Z.pow_pos_nonneg; lia).
  remember (Zpos m1 * 2 ^ (e1 - ez) + Zpos m2 * 2 ^ (e2 - ez))%Z as M eqn:EM.
  assert (HM : (2 ^ 52 <= M)%Z) by nia. destruct M as [|mm|mm]; try lia. cbn [binary_normalize].
  apply int_step.
  - assert (52 <= Z.log2 (Zpos mm))%Z by (apply Z.log2_le_pow2; lia). lia.
  - unfold x, magnitude. rewrite EM, inject_Z_plus, !inject_Z_mult, !p2_Z by lia.
    replace e1 with ((e1 - ez) + ez)%Z at 1 by lia. replace e2 with ((e2 - ez) + ez)%Z at 1 by lia. rewrite !p2_plus. ring.
  - unfold x. lra.
  - exact H2.
Qed.

Lemma div_step m1 e1 m2 e2 : normal m1 e1 -> normal m2 e2 -> let x := magnitude m1 e1 / magnitude m2 e2 in
  p2 (-1021) <= x -> x <= largest ->
  exists m e, SFdiv 53 1024 (S754_finite false m1 e1) (S754_finite false m2 e2) = S754_finite false m e /\ normal m e /\ close 1 x (magnitude m e).
Proof.
  intros (A1 & A2) (B1 & B2) x H1 H2.
  assert (Hx : x * inject_Z (Zpos m2) == inject_Z (Zpos m1) * p2 (e1 - e2)).
  { unfold x, magnitude. replace e1 with ((e1 - e2) + e2)%Z at 1 by lia. rewrite p2_plus. pose proof (p2_pos e2). field. split; [lra|discriminate]. }
  assert (P2 : 0 < inject_Z (Zpos m2)) by reflexivity.
  assert (D : (-1022 < e1 - e2)%Z).
  { apply p2_lt_inv. assert (x < 2 * p2 (e1 - e2)).
    { apply (Qmult_lt_r _ _ _ P2). rewrite Hx. setoid_replace (2 * p2 (e1 - e2) * inject_Z (Zpos m2)) with (inject_Z (2 * Zpos m2) * p2 (e1 - e2)) by (rewrite inject_Z_mult; ring).
      apply mul_lt_r; [apply inj_lt; lia|apply p2_pos]. }
    replace (-1021)%Z with (1 + -1022)%Z in H1 by lia. rewrite p2_plus in H1. change (p2 1) with 2 in H1. lra. }
  cbn [SFdiv xorb]. unfold SFdiv_core_binary. rewrite !zdigits_log, !log2_53 by lia.
  unfold fexp, emin. replace (Z.min (Z.max _ _) (e1 - e2)) with (e1 - e2 - 53)%Z by lia.
  replace (e1 - e2 - (e1 - e2 - 53))%Z with 53%Z by lia. cbv iota zeta. rewrite Z.shiftl_mul_pow2 by lia.
  pose proof (Z_div_mod (Zpos m1 * 2 ^ 53) (Zpos m2) ltac:(lia)) as Dm.
  destruct (Z.div_eucl (Zpos m1 * 2 ^ 53) (Zpos m2)) as [a r]. destruct Dm as (Dm & Dr).
  assert (Ha : (2 ^ 52 <= a)%Z) by nia.
  apply (round_step false a (e1 - e2 - 53) (new_location (Zpos m2) r) (a * Zpos m2 + r) (Zpos m2) x); auto; try lia.
  - assert (52 <= Z.log2 a)%Z by (apply Z.log2_le_pow2; lia). lia.
  - apply new_location_ok; lia.
  - rewrite Hx. replace (a * Zpos m2 + r)%Z with (Zpos m1 * 2 ^ 53)%Z by lia. rewrite inject_Z_mult.
    replace (e1 - e2)%Z with (53 + (e1 - e2 - 53))%Z at 1 by lia. rewrite p2_plus, <- (p2_Z 53) by lia. ring.
  - eapply Qle_trans; [|exact H1]. apply Qpower_le_compat_l; [lia|unfold Qle; cbn; lia].
Qed.
