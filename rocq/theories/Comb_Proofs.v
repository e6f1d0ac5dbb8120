(* Binomial coefficients and n_choose_k. *)
From Verif Require Import Base Comb_Model Comb_Spec.

Fixpoint binom (n k : nat) : nat :=
  match n, k with
  | _, 0 => 1
  | 0, S _ => 0
  | S n', S k' => binom n' k' + binom n' (S k')
  end.

Lemma binom_0 n : binom n 0 = 1.
Proof. destruct n; reflexivity. Qed.

Lemma binom_big : forall n k, n < k -> binom n k = 0.
Proof.
  induction n as [|n IH]; intros [|k] H; try lia; [reflexivity|].
  cbn [binom]. rewrite !IH by lia. reflexivity.
Qed.

Lemma binom_self n : binom n n = 1.
Proof. induction n as [|n IH]; [reflexivity|]. cbn [binom]. rewrite IH, binom_big by lia. reflexivity. Qed.

Lemma binom_1 n : binom n 1 = n.
Proof. induction n as [|n IH]; [reflexivity|]. cbn [binom]. rewrite IH, binom_0. lia. Qed.

Lemma binom_fact : forall n k, k <= n -> binom n k * (fact k * fact (n - k)) = fact n.
Proof.
  induction n as [|n IH]; intros k Hk.
  - destruct k; [reflexivity|lia].
  - destruct k as [|k].
    + cbn [binom]. change (fact 0) with 1. rewrite Nat.sub_0_r. lia.
    + cbn [binom]. rewrite Nat.sub_succ.
      destruct (Nat.eq_dec k n) as [->|Hne].
      * rewrite binom_self, binom_big by lia. rewrite Nat.sub_diag. change (fact 0) with 1. cbn [fact]. lia.
      * pose proof (IH k ltac:(lia)) as H1. pose proof (IH (S k) ltac:(lia)) as H2.
        change (fact (S k)) with (S k * fact k) in *. change (fact (S n)) with (S n * fact n).
        replace (n - k) with (S (n - S k)) in * by lia.
        change (fact (S (n - S k))) with (S (n - S k) * fact (n - S k)) in *.
        set (p := binom n k) in *. set (q := binom n (S k)) in *. set (a := fact k) in *.
        set (b := fact (n - S k)) in *. set (m := n - S k) in *.
        assert (n = S k + m) as En by lia. clearbody p q a b m.
        rewrite Nat.mul_add_distr_r.
        replace (p * (S k * a * (S m * b))) with (S k * (p * (a * (S m * b)))) by ring.
        replace (q * (S k * a * (S m * b))) with (S m * (q * (S k * a * b))) by ring.
        rewrite H1, H2. rewrite <- Nat.mul_add_distr_r. f_equal. lia.
Qed.

Lemma fact_pos n : 0 < fact n.
Proof. induction n as [|n IH]; cbn [fact]; lia. Qed.

Lemma binom_sym n k : k <= n -> binom n (n - k) = binom n k.
Proof.
  intros Hk. pose proof (binom_fact n k Hk) as H1. pose proof (binom_fact n (n - k) ltac:(lia)) as H2.
  replace (n - (n - k)) with k in H2 by lia.
  apply (Nat.mul_cancel_r _ _ (fact k * fact (n - k))).
  - pose proof (fact_pos k). pose proof (fact_pos (n - k)). nia.
  - rewrite H1. rewrite <- H2. ring.
Qed.

Lemma binom_min n k m : k <= n -> m = Nat.min k (n - k) -> binom n m = binom n k.
Proof.
  intros Hk ->. destruct (Nat.min_dec k (n - k)) as [-> | ->]; [reflexivity|]. apply binom_sym. auto.
Qed.

(* ---- tables ---- *)
Local Open Scope N_scope.

Definition bin (n k : N) : N := u64 (N.of_nat (binom (N.to_nat n) (N.to_nat k))).

Definition raw_index (dim n k : N) : N := dim * n + N.min k (n - k).

Definition fits (dim b len : N) : Prop :=
  0 < dim /\ len < 2 ^ 64 /\ b < 2 ^ 64 /\
  (forall n, n < b -> n / 2 < dim \/ (n / 2 = dim /\ n = b - 1)) /\
  (forall n k, k <= n -> n < b -> raw_index dim n k < len).

Lemma index_eq dim b len n k : fits dim b len -> k <= n -> n < b -> ck_index dim n k = raw_index dim n k.
Proof.
  intros (_ & Hl & Hb & _ & Hi) Hk Hn. specialize (Hi n k Hk Hn). unfold ck_index, raw_index in *.
  replace (n + 2 ^ 64 - k) with ((n - k) + 1 * 2 ^ 64) by lia.
  unfold u64. rewrite N.mod_add by lia. rewrite (N.mod_small (n - k)) by lia.
  apply N.mod_small. lia.
Qed.

Lemma min_half n k : k <= n -> N.min k (n - k) <= n / 2.
Proof. intros H. pose proof (N.div_mod n 2 ltac:(lia)). pose proof (N.mod_lt n 2 ltac:(lia)). lia. Qed.

Lemma index_inj dim b len n1 k1 n2 k2 : fits dim b len ->
  k1 <= n1 -> n1 < b -> k2 <= n2 -> n2 < b -> raw_index dim n1 k1 = raw_index dim n2 k2 ->
  n1 = n2 /\ N.min k1 (n1 - k1) = N.min k2 (n2 - k2).
Proof.
  intros (Hd & _ & _ & Hc & _) Hk1 Hn1 Hk2 Hn2. unfold raw_index. intros E.
  pose proof (min_half n1 k1 Hk1). pose proof (min_half n2 k2 Hk2).
  pose proof (Hc n1 Hn1) as C1. pose proof (Hc n2 Hn2) as C2.
  set (m1 := N.min k1 (n1 - k1)) in *. set (m2 := N.min k2 (n2 - k2)) in *. clearbody m1 m2.
  set (h1 := n1 / 2) in *. set (h2 := n2 / 2) in *. clearbody h1 h2.
  destruct (N.lt_trichotomy n1 n2) as [Hlt|[Heq|Hgt]].
  - exfalso. assert (dim * n1 + dim <= dim * n2) by nia.
    set (p1 := dim * n1) in *. set (p2 := dim * n2) in *. clearbody p1 p2. lia.
  - subst. split; auto. lia.
  - exfalso. assert (dim * n2 + dim <= dim * n1) by nia.
    set (p1 := dim * n1) in *. set (p2 := dim * n2) in *. clearbody p1 p2. lia.
Qed.

Definition tab_ok (dim b : N) (t : list N) : Prop :=
  forall n k, k <= n -> n < b ->
    exists v, nth_error t (N.to_nat (raw_index dim n k)) = Some v /\ (v = 0 \/ v = bin n k).

Lemma bin_min n1 k1 k2 : k1 <= n1 -> k2 <= n1 -> N.min k1 (n1 - k1) = N.min k2 (n1 - k2) -> bin n1 k1 = bin n1 k2.
Proof.
  intros H1 H2 E. unfold bin. f_equal. f_equal.
  rewrite <- (binom_min (N.to_nat n1) (N.to_nat k1) (N.to_nat (N.min k1 (n1 - k1)))) by lia.
  rewrite <- (binom_min (N.to_nat n1) (N.to_nat k2) (N.to_nat (N.min k1 (n1 - k1)))) by lia.
  reflexivity.
Qed.

Lemma rdN_ok {A} (t : list A) i v : nth_error t (N.to_nat i) = Some v -> rdN t i = Ok v.
Proof.
  intros E. unfold rdN. assert (N.to_nat i < length t)%nat by (apply nth_error_Some; congruence).
  replace (i <? N.of_nat (length t)) with true by (symmetry; apply N.ltb_lt; lia).
  apply rd_nth. exact E.
Qed.

Lemma wrN_ok {A} (t : list A) i v : (N.to_nat i < length t)%nat -> wrN t i v = Ok (upd t (N.to_nat i) v).
Proof.
  intros H. unfold wrN. replace (i <? N.of_nat (length t)) with true by (symmetry; apply N.ltb_lt; lia).
  apply wr_ok. exact H.
Qed.

Lemma tab_write dim b len t n k : fits dim b len -> tab_ok dim b t -> k <= n -> n < b ->
  exists t', wrN t (ck_index dim n k) (bin n k) = Ok t' /\ tab_ok dim b t' /\ length t' = length t.
Proof.
  intros Hf Ht Hk Hn. rewrite (index_eq _ _ _ _ _ Hf Hk Hn).
  destruct (Ht n k Hk Hn) as (v & E & _).
  assert (N.to_nat (raw_index dim n k) < length t)%nat by (apply nth_error_Some; congruence).
  rewrite wrN_ok by auto. eexists. split; [reflexivity|]. split; [|apply upd_length].
  intros n' k' Hk' Hn'.
  destruct (N.eq_dec (raw_index dim n' k') (raw_index dim n k)) as [Ei|Ei].
  - rewrite Ei, nth_error_upd_same by auto. eexists. split; [reflexivity|]. right.
    destruct (index_inj _ _ _ _ _ _ _ Hf Hk' Hn' Hk Hn Ei) as (-> & Em).
    symmetry. apply bin_min; auto.
  - rewrite nth_error_upd_other by lia. apply Ht; auto.
Qed.

Lemma bin_step n k : 0 < k -> k < n -> bin n k = u64 (bin (n - 1) (k - 1) + bin (n - 1) k).
Proof.
  intros Hk Hn. unfold bin, u64. rewrite <- N.add_mod by lia. f_equal.
  rewrite <- Nat2N.inj_add. f_equal.
  replace (N.to_nat n) with (S (N.to_nat (n - 1))) by lia.
  replace (N.to_nat k) with (S (N.to_nat (k - 1))) by lia. reflexivity.
Qed.

Lemma compute_ok dim b len : fits dim b len -> forall fuel n k t,
  (N.to_nat n < fuel)%nat -> k <= n -> n <= b -> tab_ok dim b t ->
  exists t', ck_compute fuel dim n k t = Ok (t', bin n k) /\ tab_ok dim b t' /\ length t' = length t.
Proof.
  intros Hf. induction fuel as [|f IH]; intros n k t Hfu Hk Hn Ht; [lia|].
  cbn [ck_compute]. destruct ((k =? 0) || (k =? n)) eqn:E.
  - exists t. split; [|auto]. apply orb_prop in E. do 2 f_equal.
    destruct E as [E|E]; apply N.eqb_eq in E; subst k.
    + unfold bin. change (N.to_nat 0) with 0%nat. rewrite binom_0. reflexivity.
    + unfold bin. rewrite binom_self. reflexivity.
  - apply orb_false_elim in E. destruct E as [E1 E2]. apply N.eqb_neq in E1, E2.
    rewrite (index_eq _ _ _ (n - 1) (k - 1) Hf) by lia.
    destruct (Ht (n - 1) (k - 1)) as (v1 & R1 & V1); [lia|lia|]. rewrite (rdN_ok _ _ _ R1). cbn [bind].
    assert (exists t1, (if v1 =? 0 then ' (t, v) <- ck_compute f dim (n - 1) (k - 1) t ;;
                       t <- wrN t (raw_index dim (n - 1) (k - 1)) v ;; Ok (t, v) else Ok (t, v1)) = Ok (t1, bin (n - 1) (k - 1)) /\
              tab_ok dim b t1 /\ length t1 = length t) as (t1 & -> & Ht1 & Hl1).
    { destruct (v1 =? 0) eqn:Ev.
      - destruct (IH (n - 1) (k - 1) t) as (t1 & -> & Ht1 & Hl1); [lia|lia|lia|auto|]. cbn [bind].
        destruct (tab_write _ _ _ t1 (n - 1) (k - 1) Hf Ht1) as (t2 & Ew & Ht2 & Hl2); [lia|lia|].
        rewrite (index_eq _ _ _ (n - 1) (k - 1) Hf) in Ew by lia. rewrite Ew. cbn [bind].
        exists t2. split; [reflexivity|]. split; [auto|congruence].
      - apply N.eqb_neq in Ev. exists t. destruct V1 as [->| ->]; [lia|]. auto. }
    cbn [bind].
    rewrite (index_eq _ _ _ (n - 1) k Hf) by lia.
    destruct (Ht1 (n - 1) k) as (v2 & R2 & V2); [lia|lia|]. rewrite (rdN_ok _ _ _ R2). cbn [bind].
    assert (exists t2, (if v2 =? 0 then ' (t, v) <- ck_compute f dim (n - 1) k t1 ;;
                       t <- wrN t (raw_index dim (n - 1) k) v ;; Ok (t, v) else Ok (t1, v2)) = Ok (t2, bin (n - 1) k) /\
              tab_ok dim b t2 /\ length t2 = length t1) as (t2 & -> & Ht2 & Hl2).
    { destruct (v2 =? 0) eqn:Ev.
      - destruct (IH (n - 1) k t1) as (t2 & -> & Ht2 & Hl2); [lia|lia|lia|auto|]. cbn [bind].
        destruct (tab_write _ _ _ t2 (n - 1) k Hf Ht2) as (t3 & Ew & Ht3 & Hl3); [lia|lia|].
        rewrite (index_eq _ _ _ (n - 1) k Hf) in Ew by lia. rewrite Ew. cbn [bind].
        exists t3. split; [reflexivity|]. split; [auto|congruence].
      - apply N.eqb_neq in Ev. exists t1. destruct V2 as [->| ->]; [lia|]. auto. }
    cbn [bind]. exists t2. rewrite (bin_step n k) by lia. split; [reflexivity|]. split; [auto|congruence].
Qed.

Lemma zero_tab dim b len : fits dim b len -> tab_ok dim b (repeat 0 (N.to_nat len)).
Proof.
  intros (_ & _ & _ & _ & Hi) n k Hk Hn. specialize (Hi n k Hk Hn).
  exists 0. split; [|auto]. apply nth_error_repeat. lia.
Qed.

Lemma static_fits : fits 50 100 5000.
Proof.
  split; [lia|]. split; [reflexivity|]. split; [reflexivity|]. split.
  - intros n Hn. left. apply N.div_lt_upper_bound; lia.
  - intros n k Hk Hn. unfold raw_index. pose proof (min_half n k Hk).
    assert (n / 2 < 50) by (apply N.div_lt_upper_bound; lia). lia.
Qed.

Definition statics_ok (st : statics) : Prop := tab_ok 50 100 (static_table st).

Lemma initial_ok : statics_ok initial_statics.
Proof. exact (zero_tab 50 100 5000 static_fits). Qed.

(* the size of the table for n, before reduction modulo 2^64 *)
Definition wanted_size (n : N) : N := n * (n / 2) + n mod 2.

Lemma wanted_small n : n <= 100 -> wanted_size n <= 5000.
Proof.
  intros H. unfold wanted_size. pose proof (N.div_mod n 2 ltac:(lia)). pose proof (N.mod_lt n 2 ltac:(lia)).
  set (q := n / 2) in *. set (r := n mod 2) in *. clearbody q r. subst n. nia.
Qed.
Lemma wanted_large n : 100 < n -> 5000 < wanted_size n.
Proof.
  intros H. unfold wanted_size. pose proof (N.div_mod n 2 ltac:(lia)). pose proof (N.mod_lt n 2 ltac:(lia)).
  set (q := n / 2) in *. set (r := n mod 2) in *. clearbody q r. subst n. nia.
Qed.

Lemma land_1 n : N.land n 1 = n mod 2.
Proof. change 1 with (N.ones 1). rewrite N.land_ones. reflexivity. Qed.

Lemma dynamic_fits n : 100 < n -> wanted_size n < 2 ^ 64 -> fits (n / 2) n (wanted_size n).
Proof.
  intros H Hw. unfold wanted_size in *. pose proof (N.div_mod n 2 ltac:(lia)) as Ed. pose proof (N.mod_lt n 2 ltac:(lia)) as Er.
  set (q := n / 2) in *. set (r := n mod 2) in *. 
  assert (0 < q) as Hq by lia.
  assert (n <= n * q) as Hnq by nia.
  split; [auto|]. split; [auto|]. split; [lia|]. split.
  - intros m Hm. pose proof (N.div_mod m 2 ltac:(lia)). pose proof (N.mod_lt m 2 ltac:(lia)). lia.
  - intros m k Hk Hm. unfold raw_index. pose proof (min_half m k Hk) as Hh.
    pose proof (N.div_mod m 2 ltac:(lia)) as Dm. pose proof (N.mod_lt m 2 ltac:(lia)) as Rm.
    set (mn := N.min k (m - k)) in *. clearbody mn. clearbody q r.
    assert (m = n - 1 \/ m < n - 1) as [->|Hlt] by lia.
    + assert (mn <= q) by lia. assert (r = 0 -> mn < q) by lia.
      assert (q * (n - 1) + q = n * q) as E by nia.
      set (p := q * (n - 1)) in *. set (p' := n * q) in *. clearbody p p'. lia.
    + assert (mn <= q) by lia. assert (q * m + q + q <= n * q) as E by nia.
      set (p := q * m) in *. set (p' := n * q) in *. clearbody p p'. lia.
Qed.

Lemma n_choose_k_ok fuel st n k : statics_ok st -> (N.to_nat n < fuel)%nat -> n < 2 ^ 64 -> wanted_size n < 2 ^ 64 ->
  exists st', n_choose_k fuel st n k = Ok (st', if n =? 0 then 0 else bin n k) /\ statics_ok st'.
Proof.
  intros Hs Hf Hn Hw. unfold n_choose_k.
  destruct (n <? k) eqn:E1.
  { apply N.ltb_lt in E1. exists st. split; [|auto]. do 2 f_equal. destruct (n =? 0); [reflexivity|].
    unfold bin. rewrite binom_big by lia. reflexivity. }
  apply N.ltb_ge in E1. destruct (n =? 0) eqn:E2; [exists st; auto|]. apply N.eqb_neq in E2.
  destruct (k =? 0) eqn:E3.
  { apply N.eqb_eq in E3. subst. exists st. split; [|auto]. unfold bin. change (N.to_nat 0) with 0%nat.
    rewrite binom_0. reflexivity. }
  destruct (n =? k) eqn:E4.
  { apply N.eqb_eq in E4. subst. exists st. split; [|auto]. unfold bin. rewrite binom_self. reflexivity. }
  destruct (k =? 1) eqn:E5.
  { apply N.eqb_eq in E5. subst. exists st. split; [|auto]. unfold bin. change (N.to_nat 1) with 1%nat.
    rewrite binom_1, N2Nat.id. unfold u64. rewrite N.mod_small by auto. reflexivity. }
  rewrite land_1.
  assert (u64 (u64 (n * (n / 2)) + n mod 2) = wanted_size n) as Ew.
  { unfold wanted_size, u64 in *. rewrite N.add_mod_idemp_l by lia. apply N.mod_small. auto. }
  rewrite Ew. set (st1 := if _ && _ then _ else _).
  assert (statics_ok st1) as Hs1.
  { unfold st1. destruct (_ && _); [|exact Hs]. exact (zero_tab 50 100 5000 static_fits). }
  clearbody st1. unfold static_table_size.
  destruct (wanted_size n <=? 5000) eqn:E6.
  - apply N.leb_le in E6. assert (n <= 100).
    { destruct (N.le_gt_cases n 100) as [|Hgt]; auto. apply wanted_large in Hgt. lia. }
    change (static_table_dim / 2) with 50.
    destruct (compute_ok 50 100 5000 static_fits fuel n k (static_table st1)) as (t & -> & Ht & _); auto.
    cbn [bind]. eexists. split; [reflexivity|]. exact Ht.
  - apply N.leb_gt in E6. assert (100 < n).
    { destruct (N.le_gt_cases n 100) as [Hle|]; auto. apply wanted_small in Hle. lia. }
    pose proof (dynamic_fits n ltac:(auto) Hw) as Hfit.
    destruct (compute_ok _ _ _ Hfit fuel n k (repeat 0 (N.to_nat (wanted_size n)))) as (t & -> & Ht & _); auto.
    { lia. } { apply zero_tab. exact Hfit. }
    cbn [bind]. exists st1. auto.
Qed.

Lemma bin_is n k : k <= n -> exists c, is_binomial n k c /\ bin n k = c mod 2 ^ 64.
Proof.
  intros Hk. exists (N.of_nat (binom (N.to_nat n) (N.to_nat k))). split; [|reflexivity].
  unfold is_binomial. rewrite <- !Nat2N.inj_mul. f_equal.
  replace (N.to_nat (n - k)) with (N.to_nat n - N.to_nat k)%nat by lia. apply binom_fact. lia.
Qed.
