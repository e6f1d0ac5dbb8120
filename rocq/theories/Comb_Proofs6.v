(* Element-level forms of the combination and permutation results; facts about
   the limits of the integer types. *)
From Verif Require Import Base Comb_Model Comb_Spec Comb_Proofs Comb_Proofs2 Comb_Proofs3 Comb_Proofs4 Comb_Proofs5.
From Coq Require Import Permutation Sorted.

Lemma choices_map {A B} (f : A -> B) : forall l k, choices k (map f l) = map (map f) (choices k l).
Proof.
  induction l as [|x l IH]; intros [|k]; try reflexivity.
  cbn [map choices]. rewrite map_app, !IH, !map_map. reflexivity.
Qed.

Lemma picks_map {A B} (f : A -> B) : forall l,
  picks (map f l) = map (fun '(x, r) => (f x, map f r)) (picks l).
Proof.
  induction l as [|x l IH]; [reflexivity|]. cbn [map picks]. rewrite IH, !map_map.
  f_equal. apply map_ext. intros [y r]. reflexivity.
Qed.

Lemma arr_map {A B} (f : A -> B) : forall n l, arrangements n (map f l) = map (map f) (arrangements n l).
Proof.
  induction n as [|n IH]; intros l; [reflexivity|]. cbn [arrangements].
  rewrite picks_map. generalize (picks l) as ps. induction ps as [|[x r] ps IHp]; [reflexivity|].
  cbn [map flat_map]. rewrite map_app, IH, IHp, !map_map. reflexivity.
Qed.

Lemma choices_elements {A} (s : list A) k n ps : nth_error (choices k (seq 0 (length s))) n = Some ps ->
  exists c, nth_error (choices k s) n = Some c /\ at_positions s ps c.
Proof.
  intros H. destruct s as [|d s'] eqn:Es.
  - cbn [length seq] in H. destruct k; cbn in *; [|destruct n; discriminate].
    destruct n as [|[|n]]; try discriminate. injection H as <-. exists []. split; [reflexivity|constructor].
  - rewrite <- Es in *. exists (map (fun p => nth p s d) ps). split.
    + rewrite <- (map_nth_seq d s), choices_map, nth_error_map. rewrite map_nth_seq. rewrite H. reflexivity.
    + assert (forall p, In p ps -> p < length s) as Hp.
      { intros p Hin. apply nth_error_In in H. apply choices_in in H. destruct H as [_ H].
        pose proof (subseq_in _ _ _ H Hin) as Hi. apply in_seq in Hi. lia. }
      clear -Hp. unfold at_positions. induction ps as [|p ps IH]; [constructor|]. cbn [map]. constructor.
      * apply nth_error_nth'. apply Hp. left. reflexivity.
      * apply IH. intros q Hq. apply Hp. right. exact Hq.
Qed.

Lemma arr_elements {A} (s : list A) n ps : nth_error (arrangements (length s) (seq 0 (length s))) n = Some ps ->
  exists p, nth_error (arrangements (length s) s) n = Some p /\ at_positions s ps p.
Proof.
  intros H. destruct s as [|d s'] eqn:Es.
  - cbn in *. destruct n as [|[|n]]; try discriminate. injection H as <-. exists []. split; [reflexivity|constructor].
  - rewrite <- Es in *. exists (map (fun p => nth p s d) ps). split.
    + assert (arrangements (length s) s = map (map (fun p => nth p s d)) (arrangements (length s) (seq 0 (length s)))) as ->.
      { rewrite <- arr_map, map_nth_seq. reflexivity. }
      rewrite nth_error_map, H. reflexivity.
    + assert (forall p, In p ps -> p < length s) as Hp.
      { intros p Hin. apply nth_error_In in H. apply arr_in in H; [|apply seq_length].
        apply (Permutation_in _ H) in Hin. apply in_seq in Hin. lia. }
      clear -Hp. unfold at_positions. induction ps as [|p ps IH]; [constructor|]. cbn [map]. constructor.
      * apply nth_error_nth'. apply Hp. left. reflexivity.
      * apply IH. intros q Hq. apply Hp. right. exact Hq.
Qed.

Lemma nth_comb_range_ok {A} fuel st n k (s : list A) complete ps :
  statics_ok st -> 2 <= k -> k <= length s -> length s + 1 < fuel -> (N.of_nat (length s) < 2 ^ 32)%N ->
  (N.of_nat (length (choices k (seq 0 (length s)))) < 2 ^ 64)%N ->
  nth_error (choices k (seq 0 (length s))) n = Some ps ->
  exists st' out, nth_combination_range fuel st (N.of_nat n) (N.of_nat k) s complete = Ok (st', out) /\ statics_ok st' /\
    at_positions s (ps ++ if complete then others (length s) ps else []) out.
Proof.
  intros Hs Hk Hks Hf Hl Hb Hn. rewrite choices_length, seq_length in Hb.
  assert (forall p, In p ps -> p < length s) as Hp.
  { intros p Hin. apply nth_error_In in Hn. apply choices_in in Hn. destruct Hn as [_ H].
    pose proof (subseq_in _ _ _ H Hin) as Hi. apply in_seq in Hi. lia. }
  destruct (comb_indices_ok (length s) k fuel) with (st := st) (n := n) (c := ps) as (st' & E & Hs'); auto.
  unfold nth_combination_range, nth_combination_back. rewrite E. cbn [bind].
  destruct (at_ex s (ps ++ if complete then others (length s) ps else [])) as (out & Hout).
  { intros p Hin. apply in_app_iff in Hin. destruct Hin as [Hin|Hin]; auto.
    destruct complete; [|contradiction]. unfold others in Hin. apply filter_In in Hin. destruct Hin as [Hin _].
    apply in_seq in Hin. lia. }
  exists st', out. split; [|auto].
  destruct complete.
  - rewrite (missing_ok _ _ Hp). cbn [bind]. rewrite <- map_app. rewrite (gather_ok _ _ _ Hout). reflexivity.
  - cbn [bind]. rewrite app_nil_r in Hout. rewrite (gather_ok _ _ _ Hout). reflexivity.
Qed.

Lemma nth_perm_string_ok n (s p : list ascii) : 1 <= length s <= 21 ->
  nth_error (arrangements (length s) s) n = Some p ->
  nth_permutation_string (N.of_nat n) s = Ok p.
Proof.
  intros Hl Hn.
  destruct (nth_error (arrangements (length s) (seq 0 (length s))) n) as [ps|] eqn:Eps.
  - destruct (arr_elements s n ps Eps) as (p' & E' & Hat). assert (p' = p) as -> by congruence.
    unfold nth_permutation_string. rewrite (nth_perm_ok _ _ _ Hl Eps). cbn [bind]. apply gather_ok. exact Hat.
  - apply nth_error_None in Eps. rewrite arr_length in Eps by apply seq_length.
    assert (n < length (arrangements (length s) s)) by (apply nth_error_Some; congruence).
    rewrite arr_length in * by reflexivity. lia.
Qed.

(* ------------------------------------------------------------------ *)
Fixpoint factN (k : nat) : N := match k with 0 => 1%N | S k' => (N.of_nat k * factN k')%N end.
Lemma factN_ok k : N.of_nat (fact k) = factN k.
Proof.
  induction k as [|k IH]; [reflexivity|].
  change (fact (S k)) with (S k * fact k). rewrite Nat2N.inj_mul, IH. reflexivity.
Qed.

Lemma arr_head {A} k (l : list A) x l' n p : length l = S k -> l = x :: l' -> n < fact k ->
  nth_error (arrangements (S k) l) n = Some p -> nth_error p 0 = Some x.
Proof.
  intros Hl -> Hn H. rewrite arr_nth in H by exact Hl. rewrite (Nat.div_small _ _ Hn) in H.
  cbn [picks nth_error] in H.
  destruct (nth_error _ _) as [q|]; [|discriminate]. injection H as <-. reflexivity.
Qed.

Lemma arr_head_22 n p : (n < 51090942171709440000)%N ->
  nth_error (arrangements 22 (seq 0 22)) (N.to_nat n) = Some p -> nth_error p 0 = Some 0.
Proof.
  intros Hn H. apply (arr_head 21 (seq 0 22) 0 (seq 1 21) (N.to_nat n) p); [reflexivity|reflexivity| |exact H].
  assert (N.of_nat (fact 21) = factN 21) as E by apply factN_ok. revert E. generalize (fact 21) as f. intros f E.
  assert (factN 21 = 51090942171709440000%N) as E2 by (vm_compute; reflexivity). lia.
Qed.

Lemma k_zero_ub fuel st n r : comb_indices fuel st n r 0 = UB.
Proof.
  unfold comb_indices. generalize (N.to_nat (u64 (0 + 2 ^ 64 - 1))) as m. intros m. reflexivity.
Qed.
Lemma k_one_ub fuel st n r : comb_indices fuel st n r 1 = UB.
Proof. reflexivity. Qed.

Lemma n_choose_k_huge fuel : n_choose_k (S fuel) initial_statics (2 ^ 33) 2 = UB.
Proof. vm_compute. reflexivity. Qed.
