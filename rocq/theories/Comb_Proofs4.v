(* nth_combination_sequence. *)
From Verif Require Import Base Comb_Model Comb_Spec Comb_Proofs Comb_Proofs2 Comb_Proofs3.

Lemma u64_small x : (x < 2 ^ 64)%N -> u64 x = x.
Proof. intros H. unfold u64. apply N.mod_small. exact H. Qed.

Lemma u64_sub a b : (b <= a)%N -> (a - b < 2 ^ 64)%N -> u64 (a + 2 ^ 64 - b) = (a - b)%N.
Proof.
  intros H1 H2. unfold u64. replace (a + 2 ^ 64 - b)%N with ((a - b) + 1 * 2 ^ 64)%N by lia.
  rewrite N.mod_add by lia. apply N.mod_small. lia.
Qed.

Lemma bin_small n k : (N.of_nat (binom n k) < 2 ^ 64)%N -> bin (N.of_nat n) (N.of_nat k) = N.of_nat (binom n k).
Proof. intros H. unfold bin. rewrite !Nat2N.id. apply u64_small. exact H. Qed.

Lemma wanted_32 n : (n < 2 ^ 32)%N -> (wanted_size n < 2 ^ 64)%N.
Proof.
  intros H. unfold wanted_size. pose proof (N.mod_lt n 2 ltac:(lia)).
  assert (n / 2 < 2 ^ 31)%N by (apply N.div_lt_upper_bound; lia).
  assert (n * (n / 2) <= 2 ^ 32 * 2 ^ 31)%N by (apply N.mul_le_mono; lia). lia.
Qed.

(* j for a call inside nth_combination_sequence: n may be 0, but then k is not *)
Lemma nck_ok fuel st n k : statics_ok st -> n < fuel -> (N.of_nat n < 2 ^ 32)%N -> 0 < k ->
  (N.of_nat (binom n k) < 2 ^ 64)%N ->
  exists st', n_choose_k fuel st (N.of_nat n) (N.of_nat k) = Ok (st', N.of_nat (binom n k)) /\ statics_ok st'.
Proof.
  intros Hs Hf Hn Hk Hb.
  destruct (n_choose_k_ok fuel st (N.of_nat n) (N.of_nat k)) as (st' & E & Hs'); auto; [lia|lia|apply wanted_32; auto|].
  exists st'. split; auto. rewrite E. do 2 f_equal. rewrite bin_small by auto.
  destruct (N.of_nat n =? 0)%N eqn:E0; auto. apply N.eqb_eq in E0. destruct n; [|lia].
  destruct k; [lia|reflexivity].
Qed.

Lemma wrN_at {A} (a : list A) x b i v : length a = i -> wrN (a ++ x :: b) (N.of_nat i) v = Ok (a ++ v :: b).
Proof. intros <-. rewrite wrN_ok by (rewrite Nat2N.id, app_length; simpl; lia). rewrite Nat2N.id, upd_here. reflexivity. Qed.

Section Comb.
Variables (r k : nat) (fuel : nat).
Hypothesis Hk2 : 2 <= k.
Hypothesis Hkr : k <= r.
Hypothesis Hr : (N.of_nat r < 2 ^ 32)%N.
Hypothesis Hb : (N.of_nat (binom r k) < 2 ^ 64)%N.
Hypothesis Hfuel : r + 1 < fuel.

(* the choice still to be made: kk elements of lo..r-1, number m among them *)
Definition pending (lo kk m : nat) (c : list nat) : Prop :=
  nth_error (choices kk (seq lo (r - lo))) m = Some c.

Lemma pending_bound lo kk m c : pending lo kk m c -> m < binom (r - lo) kk.
Proof.
  unfold pending. intros H. assert (m < length (choices kk (seq lo (r - lo)))) by (apply nth_error_Some; congruence).
  rewrite choices_length, seq_length in *. auto.
Qed.

Lemma pending_step lo kk m c : pending lo (S kk) m c -> lo < r /\
  if m <? binom (r - S lo) kk
  then exists c', c = lo :: c' /\ pending (S lo) kk m c'
  else pending (S lo) (S kk) (m - binom (r - S lo) kk) c.
Proof.
  intros H. assert (lo < r) as Hlo.
  { destruct (Nat.lt_ge_cases lo r); auto. unfold pending in H. replace (r - lo) with 0 in H by lia.
    cbn in H. destruct m; discriminate. }
  split; auto. unfold pending in *. replace (r - lo) with (S (r - S lo)) in H by lia.
  cbn [seq choices] in H.
  assert (length (map (cons lo) (choices kk (seq (S lo) (r - S lo)))) = binom (r - S lo) kk) as Hl.
  { rewrite map_length, choices_length, seq_length. reflexivity. }
  destruct (m <? binom (r - S lo) kk) eqn:E.
  - apply Nat.ltb_lt in E. rewrite nth_error_app1 in H by lia. rewrite nth_error_map in H.
    destruct (nth_error _ m) as [c'|] eqn:Ec; [|discriminate]. injection H as <-. eauto.
  - apply Nat.ltb_ge in E. rewrite nth_error_app2 in H by lia. rewrite Hl in H. exact H.
Qed.

Lemma pending_1 lo m c : pending lo 1 m c -> c = [lo + m] /\ lo + m < r.
Proof.
  assert (forall A (l : list A), choices 1 l = map (fun x => [x]) l) as E1.
  { intros A l. induction l as [|x l IH]; [reflexivity|].
    change (choices 1 (x :: l)) with (map (cons x) (choices 0 l) ++ choices 1 l). rewrite IH. destruct l; reflexivity. }
  unfold pending. rewrite E1, nth_error_map.
  destruct (nth_error (seq lo (r - lo)) m) as [x|] eqn:E; [|discriminate].
  intros H. injection H as <-.
  assert (m < r - lo) by (rewrite <- (seq_length (r - lo) lo); apply nth_error_Some; congruence).
  rewrite (nth_error_nth' _ 0) in E by (rewrite seq_length; auto). rewrite seq_nth in E by auto.
  injection E as <-. split; [reflexivity|lia].
Qed.

Definition one_based (p : list nat) : list N := map (fun e => N.of_nat (S e)) p.
Definition lower (p : list nat) : nat := match rev p with [] => 0 | e :: _ => S e end.

Lemma lower_snoc p e : lower (p ++ [e]) = S e.
Proof. unfold lower. rewrite rev_app_distr. reflexivity. Qed.

(* the inner do-while on 12582-12588 *)
Lemma inner_loop st p n x c' tl :
  statics_ok st -> length p + 2 <= k -> x <= n -> n < binom r k ->
  pending (lower p) (k - length p) (n - x) c' -> x + binom (r - lower p) (k - length p) <= binom r k ->
  holds (loop fuel
     (fun '(st, il, x) =>
        v <- rdN il (N.of_nat (S (length p)) - 1) ;;
        il <- wrN il (N.of_nat (S (length p)) - 1) (u64 (v + 1)) ;;
        v <- rdN il (N.of_nat (S (length p)) - 1) ;;
        ' (st, j) <- n_choose_k fuel st (u64 (N.of_nat r + 2 ^ 64 - v)) (u64 (N.of_nat k + 2 ^ 64 - N.of_nat (S (length p)))) ;;
        let x := u64 (x + j) in
        if (x <? N.of_nat (S n))%N then Ok (inl (st, il, x)) else Ok (inr (st, il, x, j)))
     (st, one_based p ++ N.of_nat (lower p) :: tl, N.of_nat x))
  (fun '(st', il, x', j) => statics_ok st' /\ exists e c'' y, c' = e :: c'' /\
      il = one_based p ++ N.of_nat (S e) :: tl /\ e < r /\
      j = N.of_nat (binom (r - S e) (k - length p - 1)) /\
      x' = (N.of_nat y + j)%N /\ (x' < 2 ^ 64)%N /\ y <= n /\ pending (S e) (k - length p - 1) (n - y) c'' /\
      y + binom (r - S e) (k - length p - 1) <= binom r k).
Proof.
  intros Hs Hp Hx Hn Hpend Hsum.
  apply (loop_rule (fun '(st, il, x) => statics_ok st /\ exists lo y,
       il = one_based p ++ N.of_nat lo :: tl /\ x = N.of_nat y /\ y <= n /\
       pending lo (k - length p) (n - y) c' /\ y + binom (r - lo) (k - length p) <= binom r k /\ lo <= r)
     (fun '(st, il, x) => match rdN il (N.of_nat (length p)) with Ok v => r - N.to_nat v | _ => 0 end)).
  - clear st Hs x Hx Hpend Hsum. intros [[st il] x] (Hs & lo & y & -> & -> & Hy & Hpend & Hsum & _).
    replace (N.of_nat (S (length p)) - 1)%N with (N.of_nat (length p)) by lia.
    set (kk := k - length p - 1). replace (k - length p) with (S kk) in * by lia.
    destruct (pending_step _ _ _ _ Hpend) as (Hlo & Hstep).
    assert (Hrd : forall v, rdN (one_based p ++ v :: tl) (N.of_nat (length p)) = Ok v).
    { intros v. apply rdN_ok. rewrite Nat2N.id. rewrite nth_error_app2 by (unfold one_based; rewrite map_length; lia).
      unfold one_based. rewrite map_length, Nat.sub_diag. reflexivity. }
    rewrite Hrd. cbn [bind]. rewrite u64_small by lia.
    rewrite wrN_ok by (rewrite Nat2N.id, app_length; unfold one_based; rewrite map_length; simpl; lia).
    rewrite Nat2N.id. replace (length p) with (length (one_based p)) at 1 by (unfold one_based; apply map_length).
    rewrite upd_here. cbn [bind]. rewrite Hrd. cbn [bind].
    replace (N.of_nat lo + 1)%N with (N.of_nat (S lo)) by lia.
    rewrite !u64_sub by lia.
    replace (N.of_nat r - N.of_nat (S lo))%N with (N.of_nat (r - S lo)) by lia.
    replace (N.of_nat k - N.of_nat (S (length p)))%N with (N.of_nat kk) by lia.
    assert (binom (r - lo) (S kk) = binom (r - S lo) kk + binom (r - S lo) (S kk)) as Epas.
    { replace (r - lo) with (S (r - S lo)) by lia. reflexivity. }
    destruct (nck_ok fuel st (r - S lo) kk) as (st' & -> & Hs'); [auto|lia|lia|lia|lia|]. cbn [bind].
    cbn zeta. rewrite u64_small by lia. rewrite <- Nat2N.inj_add.
    destruct (n - y <? binom (r - S lo) kk) eqn:E.
    + apply Nat.ltb_lt in E. replace (N.of_nat (y + binom (r - S lo) kk) <? N.of_nat (S n))%N with false by (symmetry; apply N.ltb_ge; lia).
      cbn [holds]. destruct Hstep as (c'' & -> & Hpend'). split; auto. exists lo, c'', y.
      split; [reflexivity|]. split; [reflexivity|]. split; [auto|]. split; [reflexivity|]. split; [lia|]. split; [lia|].
      split; [auto|]. split; [auto|lia].
    + apply Nat.ltb_ge in E. replace (N.of_nat (y + binom (r - S lo) kk) <? N.of_nat (S n))%N with true by (symmetry; apply N.ltb_lt; lia).
      cbn [holds]. split.
      * split; auto. exists (S lo), (y + binom (r - S lo) kk). split; [reflexivity|]. split; [reflexivity|].
        split; [lia|]. replace (n - (y + binom (r - S lo) kk)) with (n - y - binom (r - S lo) kk) by lia. split; [auto|]. lia.
      * rewrite !Hrd. lia.
  - split; auto. exists (lower p), x. split; [auto|]. split; [auto|]. split; [auto|]. split; [auto|]. split; [auto|].
    replace (k - length p) with (S (k - length p - 1)) in Hpend by lia. apply pending_step in Hpend. lia.
  - destruct (rdN _ _); lia.
Qed.

Lemma one_based_length p : length (one_based p) = length p.
Proof. apply map_length. Qed.

(* 12573-12595 *)
Lemma comb_indices_ok st n c : statics_ok st -> nth_error (choices k (seq 0 r)) n = Some c ->
  exists st', comb_indices fuel st (N.of_nat n) (N.of_nat r) (N.of_nat k) = Ok (st', map N.of_nat c) /\ statics_ok st'.
Proof.
  intros Hs Hc. assert (n < binom r k) as Hn.
  { rewrite <- (seq_length r 0), <- choices_length. apply nth_error_Some. congruence. }
  assert (length c = k) as Hlc by (apply nth_error_In in Hc; apply choices_in in Hc; tauto).
  unfold comb_indices. rewrite (u64_small (N.of_nat n + 1)) by lia. replace (N.of_nat n + 1)%N with (N.of_nat (S n)) by lia.
  rewrite Nat2N.id.
  rewrite (u64_sub (N.of_nat k) 1) by lia.
  enough (holds (loop (S (N.to_nat (N.of_nat k - 1)))
      (fun '(st, il, x, i) =>
         if negb (i <=? N.of_nat k - 1)%N then Ok (inr (st, il, x))
         else
           il <- wrN il (i - 1) 0%N ;;
           il <- (if (1 <? i)%N then v <- rdN il (i - 2) ;; wrN il (i - 1) v else Ok il) ;;
           ' (st, il, x, j) <-
             loop fuel
               (fun '(st, il, x) =>
                  v <- rdN il (i - 1) ;;
                  il <- wrN il (i - 1) (u64 (v + 1)) ;;
                  v <- rdN il (i - 1) ;;
                  ' (st, j) <- n_choose_k fuel st (u64 (N.of_nat r + 2 ^ 64 - v)) (u64 (N.of_nat k + 2 ^ 64 - i)) ;;
                  let x := u64 (x + j) in
                  if (x <? N.of_nat (S n))%N then Ok (inl (st, il, x)) else Ok (inr (st, il, x, j)))
               (st, il, x) ;;
           Ok (inl (st, il, u64 (x + 2 ^ 64 - j), u64 (i + 1))))
      (st, repeat 0%N k, 0%N, 1%N))
    (fun '(st', il, x) => statics_ok st' /\ exists p y, c = p ++ [lower p + (n - y)] /\ length p = k - 1 /\
        il = one_based p ++ [0%N] /\ x = N.of_nat y /\ y <= n /\ lower p + (n - y) < r)) as Hmain.
  { apply holds_ex in Hmain. destruct Hmain as ([[st' il] x] & Em & Hs' & p & y & -> & Hlp & -> & -> & Hy & Hlt).
    cbv zeta in Em |- *. rewrite Em. clear Em.
    cbn [bind]. replace (2 <=? N.of_nat k)%N with true by (symmetry; apply N.leb_le; lia).
    assert (rdN (one_based p ++ [0%N]) (N.of_nat k - 2) = Ok (N.of_nat (lower p))) as ->.
    { apply rdN_ok. destruct (@exists_last _ p) as (p' & e & ->); [intros ->; simpl in Hlp; lia|].
      rewrite lower_snoc. rewrite app_length in Hlp. simpl in Hlp.
      unfold one_based. rewrite map_app, <- app_assoc. cbn [map app].
      rewrite nth_error_app2 by (rewrite map_length; lia). rewrite map_length.
      replace (N.to_nat (N.of_nat k - 2) - length p') with 0 by lia. reflexivity. }
    cbn [bind].
    rewrite wrN_ok by (rewrite app_length, one_based_length; simpl; lia).
    replace (N.to_nat (N.of_nat k - 1)) with (length (one_based p)) by (rewrite one_based_length; lia).
    rewrite upd_here. cbn [bind].
    replace (u64 (N.of_nat (lower p) + N.of_nat (S n) + 2 ^ 64 - N.of_nat y)) with (N.of_nat (S (lower p + (n - y)))).
    2:{ rewrite u64_sub by lia. lia. }
    assert (forall cs, (forall e, In e cs -> (N.of_nat e < 2 ^ 32)%N) ->
       for_up 0 (length (one_based cs)) (fun i il => v <- rd il i ;; wr il i (u64 (v + 2 ^ 64 - 1))) (one_based cs) =
       Ok (map N.of_nat cs)) as Hdec.
    { intros cs Hcs. rewrite one_based_length. apply holds_eq.
      pose proof (for_up_rule (S := list N) (fun i il => il = map N.of_nat (firstn i cs) ++ one_based (skipn i cs))
        (fun i il => v <- rd il i ;; wr il i (u64 (v + 2 ^ 64 - 1))) (length cs) 0) as R.
      eapply holds_weaken; [apply R|].
      - intros i il Hi ->. destruct (nth_error cs i) as [e|] eqn:Ee; [|apply nth_error_None in Ee; lia].
        rewrite (skipn_nth_cons _ _ _ Ee). cbn [one_based map].
        assert (length (map N.of_nat (firstn i cs)) = i) as El by (rewrite map_length, firstn_length; lia).
        rewrite (rd_pos _ _ _ _ El). cbn [bind]. rewrite (wr_pos _ _ _ _ _ El). cbn [holds].
        rewrite (firstn_S_nth _ _ _ Ee), map_app, <- app_assoc. cbn [map app]. do 2 f_equal.
        assert (N.of_nat e < 2 ^ 32)%N by (apply Hcs; eapply nth_error_In; eauto).
        rewrite u64_sub by lia. lia.
      - reflexivity.
      - intros il ->. cbn [plus]. rewrite firstn_all, skipn_all. apply app_nil_r. }
    change (one_based p ++ [N.of_nat (S (lower p + (n - y)))]) with (one_based p ++ one_based [lower p + (n - y)]).
    unfold one_based at 1 3. rewrite <- map_app. fold (one_based (p ++ [lower p + (n - y)])).
    replace (length (map (fun e => N.of_nat (S e)) p ++ one_based [lower p + (n - y)])) with
       (length (one_based (p ++ [lower p + (n - y)]))) by (unfold one_based; rewrite map_app; reflexivity).
    rewrite Hdec.
    - cbn [bind]. eexists. split; [reflexivity|]. exact Hs'.
    - intros e He. apply nth_error_In in Hc. apply choices_in in Hc. destruct Hc as [_ Hsub].
      pose proof (subseq_in _ _ _ Hsub He) as Hin. apply in_seq in Hin. lia. }
  apply (loop_rule (fun '(st, il, x, i) => statics_ok st /\ exists p y c', c = p ++ c' /\ length p + 1 <= k /\
       i = N.of_nat (S (length p)) /\ il = one_based p ++ repeat 0%N (k - length p) /\
       x = N.of_nat y /\ y <= n /\ pending (lower p) (k - length p) (n - y) c' /\
       y + binom (r - lower p) (k - length p) <= binom r k)
     (fun '(st, il, x, i) => k - N.to_nat i)).
  - clear st Hs. intros [[[st il] x] i] (Hs & p & y & c' & Ec & Hlp & -> & -> & -> & Hy & Hpend & Hsum).
    destruct (N.of_nat (S (length p)) <=? N.of_nat k - 1)%N eqn:E; cbn [negb].
    + apply N.leb_le in E.
      replace (k - length p) with (S (k - length p - 1)) at 1 by lia. cbn [repeat].
      replace (N.of_nat (S (length p)) - 1)%N with (N.of_nat (length p)) by lia.
      rewrite wrN_at by apply one_based_length. cbn [bind].
      set (tl := repeat 0%N (k - length p - 1)).
      assert ((if (1 <? N.of_nat (S (length p)))%N
               then v <- rdN (one_based p ++ 0%N :: tl) (N.of_nat (S (length p)) - 2) ;;
                    wrN (one_based p ++ 0%N :: tl) (N.of_nat (length p)) v
               else Ok (one_based p ++ 0%N :: tl)) = Ok (one_based p ++ N.of_nat (lower p) :: tl)) as ->.
      { destruct p as [|e0 p0] eqn:Ep.
        - reflexivity.
        - rewrite <- Ep in *. replace (1 <? N.of_nat (S (length p)))%N with true by (symmetry; apply N.ltb_lt; rewrite Ep; simpl; lia).
          destruct (@exists_last _ p) as (p' & e & Ep'); [congruence|].
          assert (rdN (one_based p ++ 0%N :: tl) (N.of_nat (S (length p)) - 2) = Ok (N.of_nat (lower p))) as ->.
          { apply rdN_ok. rewrite Ep', lower_snoc. unfold one_based. rewrite map_app, <- app_assoc. cbn [map app].
            rewrite nth_error_app2 by (rewrite map_length, app_length; cbn [length]; lia). rewrite map_length, app_length. cbn [length].
            replace (N.to_nat (N.of_nat (S (length p' + 1)) - 2) - length p') with 0 by lia. reflexivity. }
          cbn [bind]. apply wrN_at. apply one_based_length. }
      cbn [bind].
      replace (N.of_nat (length p)) with (N.of_nat (S (length p)) - 1)%N by lia.
      eapply holds_bind2; [apply (inner_loop st p n y c' tl); [exact Hs|lia|exact Hy|exact Hn|exact Hpend|exact Hsum]|].
      intros [[[st' il'] x'] j] (Hs' & e & c'' & y' & -> & -> & He & -> & -> & Hx' & Hy' & Hpend' & Hsum').
      cbn [holds]. split; [split; auto|].
      * exists (p ++ [e]), y', c''. rewrite app_length, lower_snoc. cbn [length].
        split; [rewrite <- app_assoc; exact Ec|]. split; [lia|].
        split; [rewrite u64_small by lia; lia|].
        split; [unfold one_based; rewrite map_app, <- app_assoc; cbn [map app]; unfold tl; do 3 f_equal; lia|].
        split; [rewrite u64_sub by lia; lia|]. split; [auto|].
        replace (k - (length p + 1)) with (k - length p - 1) by lia. auto.
      * rewrite u64_small by lia. lia.
    + apply N.leb_gt in E. cbn [holds]. split; auto.
      assert (k - length p = 1) as E1 by lia. rewrite E1 in *.
      apply pending_1 in Hpend. destruct Hpend as (-> & Hlt).
      exists p, y. split; [exact Ec|]. split; [lia|]. split; [reflexivity|]. auto.
  - split; auto. exists [], 0, c. split; [reflexivity|]. split; [simpl; lia|]. split; [reflexivity|].
    cbn [length]. rewrite Nat.sub_0_r. split; [reflexivity|]. split; [reflexivity|]. split; [lia|].
    unfold pending. change (lower []) with 0. rewrite !Nat.sub_0_r. split; [exact Hc|]. lia.
  - lia.
Qed.

End Comb.

(* 12601-12615 *)
Lemma marks_ok r (c : list nat) : (forall e, In e c -> e < r) ->
  for_up 0 (length (map N.of_nat c)) (fun i et => v <- rd (map N.of_nat c) i ;; wrN et v 1%N) (repeat 0%N r) =
  Ok (map (fun i => if existsb (Nat.eqb i) c then 1%N else 0%N) (seq 0 r)).
Proof.
  intros Hc. rewrite map_length. apply holds_eq.
  pose proof (for_up_rule (S := list N) (fun m et =>
      et = map (fun i => if existsb (Nat.eqb i) (firstn m c) then 1%N else 0%N) (seq 0 r))
    (fun i et => v <- rd (map N.of_nat c) i ;; wrN et v 1%N) (length c) 0) as R.
  eapply holds_weaken; [apply R|].
  - intros m et Hm ->. destruct (nth_error c m) as [e|] eqn:Ee; [|apply nth_error_None in Ee; lia].
    assert (e < r) as He by (apply Hc; eapply nth_error_In; eauto).
    assert (rd (map N.of_nat c) m = Ok (N.of_nat e)) as -> by (apply rd_nth; rewrite nth_error_map, Ee; reflexivity).
    cbn [bind]. rewrite wrN_ok by (rewrite Nat2N.id, map_length, seq_length; auto). rewrite Nat2N.id. cbn [holds].
    apply nth_error_ext. intros i. rewrite nth_error_upd, map_length, seq_length, !nth_error_map.
    rewrite (firstn_S_nth _ _ _ Ee).
    destruct (Nat.lt_ge_cases i r) as [Hi|Hi].
    + rewrite (nth_error_nth' (seq 0 r) 0) by (rewrite seq_length; auto). rewrite seq_nth by auto. cbn [option_map plus].
      rewrite existsb_app. cbn [existsb]. rewrite orb_false_r.
      destruct (Nat.eq_dec i e) as [->|Hne].
      * rewrite Nat.eqb_refl, orb_true_r. replace (e <? r) with true by (symmetry; apply Nat.ltb_lt; auto). reflexivity.
      * replace (e =? i) with false by (symmetry; apply Nat.eqb_neq; lia).
        replace (i =? e) with false by (symmetry; apply Nat.eqb_neq; lia). rewrite orb_false_r. reflexivity.
    + rewrite (proj2 (nth_error_None (seq 0 r) i)) by (rewrite seq_length; lia). cbn [option_map].
      destruct (e =? i) eqn:E; [apply Nat.eqb_eq in E; lia|]. reflexivity.
  - cbn [firstn existsb]. clear. generalize 0 as a0. induction r as [|r IH]; intros a0; [reflexivity|].
    cbn [repeat seq map]. f_equal. apply IH.
  - intros et ->. cbn [plus]. rewrite firstn_all. reflexivity.
Qed.

Lemma missing_ok r (c : list nat) : (forall e, In e c -> e < r) ->
  missing_indices (N.of_nat r) (map N.of_nat c) = Ok (map N.of_nat (others r c)).
Proof.
  intros Hc. unfold missing_indices. rewrite Nat2N.id. rewrite (marks_ok r c Hc). cbn [bind].
  rewrite map_length, seq_length. apply holds_eq.
  set (g := fun i => if existsb (Nat.eqb i) c then 1%N else 0%N).
  pose proof (for_up_rule (S := list N) (fun m acc =>
      acc = map N.of_nat (filter (fun i => negb (existsb (Nat.eqb i) c)) (seq 0 m)))
    (fun i acc => e <- rd (map g (seq 0 r)) i ;; if (e =? 0)%N then Ok (acc ++ [N.of_nat i]) else Ok acc) r 0) as R.
  eapply holds_weaken; [apply R|].
  - intros m acc Hm ->.
    assert (rd (map g (seq 0 r)) m = Ok (g m)) as ->.
    { apply rd_nth. rewrite nth_error_map, (nth_error_nth' _ 0) by (rewrite seq_length; lia).
      rewrite seq_nth by lia. reflexivity. }
    cbn [bind]. rewrite seq_S, filter_app, map_app. cbn [plus filter].
    unfold g. destruct (existsb (Nat.eqb m) c); cbn [negb map holds N.eqb].
    + rewrite app_nil_r. reflexivity.
    + reflexivity.
  - reflexivity.
  - intros acc ->. reflexivity.
Qed.
