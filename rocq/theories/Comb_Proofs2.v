(* nth_permutation_sequence. *)
From Verif Require Import Base Comb_Model Comb_Spec Comb_Proofs.
From Coq Require Import Permutation.

(* ---- the specification: arrangements ---- *)
Lemma picks_length {A} (l : list A) : length (picks l) = length l.
Proof. induction l as [|x l IH]; [reflexivity|]. cbn [picks length]. rewrite map_length, IH. reflexivity. Qed.

Lemma picks_perm {A} (l : list A) x r : In (x, r) (picks l) -> Permutation (x :: r) l.
Proof.
  revert x r. induction l as [|a l IH]; intros x r; cbn [picks]; [intros []|].
  intros [E|Hin].
  - injection E as <- <-. apply Permutation_refl.
  - apply in_map_iff in Hin. destruct Hin as ([y r'] & E & Hin). injection E as <- <-.
    eapply perm_trans; [apply perm_swap|]. apply perm_skip. apply IH. exact Hin.
Qed.

Lemma picks_len_r {A} (l : list A) x r : In (x, r) (picks l) -> S (length r) = length l.
Proof. intros H. apply picks_perm in H. apply Permutation_length in H. exact H. Qed.

Lemma flat_map_block {A B} (f : A -> list B) (m : nat) : forall l i,
  (forall a, In a l -> length (f a) = m) -> 0 < m ->
  nth_error (flat_map f l) i = match nth_error l (i / m) with Some a => nth_error (f a) (i mod m) | None => None end.
Proof.
  induction l as [|a l IH]; intros i Hl Hm; cbn [flat_map].
  - destruct (i / m); destruct i; reflexivity.
  - destruct (Nat.lt_ge_cases i m) as [Hlt|Hge].
    + rewrite Nat.div_small, Nat.mod_small by auto. cbn [nth_error].
      apply nth_error_app1. rewrite Hl by (left; auto). exact Hlt.
    + rewrite nth_error_app2 by (rewrite Hl by (left; auto); lia). rewrite Hl by (left; auto).
      rewrite IH by (auto; intros; apply Hl; right; auto).
      assert (i / m = S ((i - m) / m) /\ i mod m = (i - m) mod m) as (-> & ->).
      { replace i with ((i - m) + 1 * m) at 1 3 by lia. rewrite Nat.div_add, Nat.mod_add by lia. split; lia. }
      reflexivity.
Qed.

Lemma flat_map_len {A B} (f : A -> list B) m l : (forall a, In a l -> length (f a) = m) ->
  length (flat_map f l) = length l * m.
Proof.
  induction l as [|a l IH]; intros H; [reflexivity|]. cbn [flat_map length]. rewrite app_length, IH, H; simpl; auto.
  intros; apply H; right; auto.
Qed.

Lemma arr_length {A} : forall n (l : list A), length l = n -> length (arrangements n l) = fact n.
Proof.
  induction n as [|n IH]; intros l Hl; [reflexivity|]. cbn [arrangements].
  rewrite (flat_map_len _ (fact n)).
  - rewrite picks_length, Hl. reflexivity.
  - intros [x r] Hin. rewrite map_length. apply IH. apply picks_len_r in Hin. lia.
Qed.

Lemma arr_nth {A} n (l : list A) i : length l = S n ->
  nth_error (arrangements (S n) l) i =
  match nth_error (picks l) (i / fact n) with
  | Some (x, r) => option_map (cons x) (nth_error (arrangements n r) (i mod fact n))
  | None => None
  end.
Proof.
  intros Hl. cbn [arrangements]. rewrite (flat_map_block _ (fact n)).
  - destruct (nth_error (picks l) (i / fact n)) as [[x r]|]; [|reflexivity]. rewrite nth_error_map. reflexivity.
  - intros [x r] Hin. rewrite map_length. apply arr_length. apply picks_len_r in Hin. lia.
  - apply fact_pos.
Qed.

Lemma in_picks {A} (x : A) l : In x l -> exists r, In (x, r) (picks l).
Proof.
  induction l as [|a l IH]; [intros []|]. intros [->|Hin].
  - exists l. left. reflexivity.
  - destruct (IH Hin) as (r & Hr). exists (a :: r). right. apply in_map_iff. exists (x, r). auto.
Qed.

Lemma arr_in {A} : forall n (l : list A) p, length l = n -> (In p (arrangements n l) <-> Permutation p l).
Proof.
  induction n as [|n IH]; intros l p Hl.
  - apply length_zero_iff_nil in Hl. subst. cbn. split.
    + intros [<-|[]]. apply perm_nil.
    + intros H. apply Permutation_sym, Permutation_nil in H. auto.
  - cbn [arrangements]. rewrite in_flat_map. split.
    + intros ([x r] & Hin & Hp). apply in_map_iff in Hp. destruct Hp as (q & <- & Hq).
      pose proof (picks_len_r _ _ _ Hin). apply IH in Hq; [|lia]. apply picks_perm in Hin.
      eapply perm_trans; [apply perm_skip; exact Hq|exact Hin].
    + intros Hp. destruct p as [|x p]; [apply Permutation_length in Hp; simpl in Hp; lia|].
      destruct (in_picks x l) as (r & Hr).
      { eapply Permutation_in; [exact Hp|left; auto]. }
      exists (x, r). split; [exact Hr|]. apply in_map. pose proof (picks_len_r _ _ _ Hr). apply IH; [lia|].
      apply picks_perm in Hr. eapply Permutation_cons_inv. eapply perm_trans; [exact Hp|]. apply Permutation_sym. exact Hr.
Qed.

(* removing one element *)
Fixpoint remove_at {A} (i : nat) (l : list A) : list A :=
  match l, i with
  | [], _ => []
  | _ :: l', 0 => l'
  | x :: l', S i' => x :: remove_at i' l'
  end.

Definition bump (d v : nat) : nat := if d <=? v then S v else v.

Lemma picks_nth {A} : forall (l : list A) d, nth_error (picks l) d =
  match nth_error l d with Some x => Some (x, remove_at d l) | None => None end.
Proof.
  induction l as [|a l IH]; intros [|d]; try reflexivity. cbn [picks nth_error].
  rewrite nth_error_map, IH. destruct (nth_error l d); reflexivity.
Qed.

Lemma remove_nth {A} : forall (l : list A) d v, nth_error (remove_at d l) v = nth_error l (bump d v).
Proof.
  induction l as [|a l IH]; intros d v; [destruct (bump d v); destruct v; destruct d; reflexivity|].
  destruct d as [|d]; cbn [remove_at]; [reflexivity|].
  destruct v as [|v]; [reflexivity|]. cbn [nth_error]. rewrite IH. unfold bump.
  change (S d <=? S v) with (d <=? v). destruct (d <=? v); reflexivity.
Qed.

Lemma remove_len {A} : forall (l : list A) d, d < length l -> S (length (remove_at d l)) = length l.
Proof.
  induction l as [|a l IH]; intros d Hd; [simpl in Hd; lia|]. destruct d as [|d]; [reflexivity|].
  cbn [remove_at length] in *. rewrite IH by lia. reflexivity.
Qed.

(* factorial digits *)
Fixpoint digits (k n : nat) : list nat :=
  match k with
  | 0 => []
  | S k' => n / fact k' :: digits k' (n mod fact k')
  end.

Lemma digits_length k : forall n, length (digits k n) = k.
Proof. induction k as [|k IH]; intros n; cbn [digits length]; auto. Qed.

Lemma digits_nth : forall k n i, i < k -> n < fact k -> exists d, nth_error (digits k n) i = Some d /\ d < k - i.
Proof.
  induction k as [|k IH]; intros n i Hi Hn; [lia|]. cbn [digits].
  destruct i as [|i]; cbn [nth_error].
  - eexists. split; [reflexivity|]. apply Nat.div_lt_upper_bound; [pose proof (fact_pos k); lia|].
    change (fact (S k)) with (S k * fact k) in Hn. lia.
  - destruct (IH (n mod fact k) i) as (d & E & Hd); [lia| |].
    + apply Nat.mod_upper_bound. pose proof (fact_pos k). lia.
    + exists d. split; [exact E|lia].
Qed.

(* the i-th element of the arrangement with given digits *)
Lemma arr_elem {A} : forall k (l : list A) n p, length l = k -> n < fact k ->
  nth_error (arrangements k l) n = Some p ->
  length p = k /\ forall i d, nth_error (digits k n) i = Some d ->
    nth_error p i = nth_error l (fold_right bump d (firstn i (digits k n))).
Proof.
  induction k as [|k IH]; intros l n p Hl Hn E.
  - cbn [arrangements] in E. change (fact 0) with 1 in Hn. replace n with 0 in E by lia. injection E as <-.
    split; [reflexivity|]. intros [|i] d; discriminate.
  - rewrite arr_nth in E by auto. rewrite picks_nth in E. cbn [digits].
    destruct (nth_error l (n / fact k)) as [x|] eqn:Ex; [|discriminate].
    destruct (nth_error (arrangements k (remove_at (n / fact k) l)) (n mod fact k)) as [q|] eqn:Eq; [|discriminate].
    injection E as <-. assert (n / fact k < length l) as Hd by (apply nth_error_Some; congruence).
    destruct (IH (remove_at (n / fact k) l) (n mod fact k) q) as (Hlq & Hq); auto.
    { pose proof (remove_len l _ Hd). lia. }
    { apply Nat.mod_upper_bound. pose proof (fact_pos k). lia. }
    split; [simpl; lia|]. intros [|i] d Hdi; cbn [nth_error] in *.
    + injection Hdi as <-. cbn [firstn fold_right]. auto.
    + rewrite (Hq i d Hdi). cbn [firstn fold_right]. apply remove_nth.
Qed.

Lemma fold_bump_bound (k : nat) : forall l v m, v + length l < m -> fold_right bump v l < m.
Proof.
  clear k. induction l as [|d l IH]; intros v m H; cbn [fold_right length] in *; [lia|].
  specialize (IH v (m - 1) ltac:(lia)). unfold bump at 1. destruct (d <=? fold_right bump v l); lia.
Qed.

(* ---- the code ---- *)
Lemma wr_pos {A} (a : list A) x b v i : length a = i -> wr (a ++ x :: b) i v = Ok (a ++ v :: b).
Proof. intros <-. apply wr_here. Qed.
Lemma rd_pos {A} (a : list A) x b i : length a = i -> rd (a ++ x :: b) i = Ok x.
Proof. intros <-. apply rd_here. Qed.

Lemma fact_mono a b : a <= b -> fact a <= fact b.
Proof. intros H. apply fact_le. exact H. Qed.

Lemma fact_small i : i <= 20 -> (N.of_nat (fact i) < 2 ^ 64)%N.
Proof.
  intros H. apply N.le_lt_trans with (N.of_nat (fact 20)).
  - pose proof (fact_mono i 20 H). lia.
  - assert (forall n, N.of_nat (fact n) = fold_left N.mul (map N.of_nat (seq 1 n)) 1%N) as E.
    { induction n as [|n IH]; [reflexivity|]. rewrite seq_S, map_app, fold_left_app, <- IH.
      cbn [map fold_left]. change (fact (S n)) with (S n * fact n). lia. }
    rewrite E. vm_compute. reflexivity.
Qed.

Definition facts (k : nat) : list N := map (fun i => N.of_nat (fact i)) (seq 0 k).

Lemma facts_ok k : 1 <= k <= 21 ->
  (fa <- wr (repeat 0%N k) 0 1%N ;;
   for_up 1 (k - 1) (fun i fa => v <- rd fa (i - 1) ;; wr fa i (u64 (v * N.of_nat i))) fa) = Ok (facts k).
Proof.
  intros Hk. rewrite wr_ok by (rewrite repeat_length; lia). cbn [bind]. apply holds_eq.
  pose proof (for_up_rule (S := list N) (fun i fa => fa = facts i ++ repeat 0%N (k - i))
     (fun i fa => v <- rd fa (i - 1) ;; wr fa i (u64 (v * N.of_nat i))) (k - 1) 1) as R.
  eapply holds_weaken; [apply R|].
  - intros i fa Hi ->. unfold facts.
    assert (rd (map (fun i0 => N.of_nat (fact i0)) (seq 0 i) ++ repeat 0%N (k - i)) (i - 1) = Ok (N.of_nat (fact (i - 1)))) as Er.
    { apply rd_nth. rewrite nth_error_app1 by (rewrite map_length, seq_length; lia).
      rewrite nth_error_map. replace (nth_error (seq 0 i) (i - 1)) with (Some (i - 1)); [reflexivity|].
      symmetry. rewrite (nth_error_nth' _ 0) by (rewrite seq_length; lia). rewrite seq_nth by lia. f_equal. }
    rewrite Er. cbn [bind].
    replace (u64 (N.of_nat (fact (i - 1)) * N.of_nat i)) with (N.of_nat (fact i)).
    2:{ rewrite <- Nat2N.inj_mul. replace (fact (i - 1) * i) with (fact i).
        - unfold u64. symmetry. apply N.mod_small. apply fact_small. lia.
        - destruct i as [|i]; [lia|]. replace (S i - 1) with i by lia. change (fact (S i)) with (S i * fact i). lia. }
    rewrite seq_S, map_app, <- app_assoc. cbn [map app].
    replace (k - i) with (S (k - S i)) by lia. cbn [repeat].
    rewrite wr_pos by (rewrite map_length, seq_length; lia). reflexivity.
  - destruct k as [|k]; [lia|]. replace (S k - 1) with k by lia. reflexivity.
  - intros fa ->. replace (1 + (k - 1)) with k by lia. rewrite Nat.sub_diag. cbn [repeat]. apply app_nil_r.
Qed.

Lemma facts_rd k i : i < k -> rd (facts k) i = Ok (N.of_nat (fact i)).
Proof.
  intros H. apply rd_nth. unfold facts. rewrite nth_error_map.
  rewrite (nth_error_nth' _ 0) by (rewrite seq_length; lia). rewrite seq_nth by lia. reflexivity.
Qed.

Lemma divmod_ok n f : 0 < f -> divN (N.of_nat n) (N.of_nat f) = Ok (N.of_nat (n / f)) /\
                      modN (N.of_nat n) (N.of_nat f) = Ok (N.of_nat (n mod f)).
Proof.
  intros H. unfold divN, modN. replace (N.of_nat f =? 0)%N with false by (symmetry; apply N.eqb_neq; lia).
  rewrite Nat2N.inj_div, Nat2N.inj_mod. auto.
Qed.

(* remaining value after i digits *)
Fixpoint rest_after (i k n : nat) : nat :=
  match i with
  | 0 => n
  | S i' => match k with 0 => n | S k' => rest_after i' k' (n mod fact k') end
  end.

Lemma rest_step : forall i k n, i < k -> rest_after (S i) k n = rest_after i k n mod fact (k - i - 1).
Proof.
  induction i as [|i IH]; intros k n H; destruct k as [|k]; try lia.
  - cbn [rest_after]. replace (S k - 0 - 1) with k by lia. reflexivity.
  - change (rest_after (S (S i)) (S k) n) with (rest_after (S i) k (n mod fact k)).
    change (rest_after (S i) (S k) n) with (rest_after i k (n mod fact k)).
    rewrite IH by lia. reflexivity.
Qed.

Lemma digits_rest : forall i k n, i < k -> nth_error (digits k n) i = Some (rest_after i k n / fact (k - i - 1)).
Proof.
  induction i as [|i IH]; intros k n H; destruct k as [|k]; try lia; cbn [digits nth_error rest_after].
  - replace (S k - 0 - 1) with k by lia. reflexivity.
  - rewrite IH by lia. reflexivity.
Qed.

Lemma digits_code k n fa : fa = facts k ->
  for_up 0 k (fun i '(pm, n) =>
             f <- rd fa (k - i - 1) ;; q <- divN n f ;; pm <- wr pm i q ;; r <- modN n f ;; Ok (pm, r))
         (repeat 0%N k, N.of_nat n) = Ok (map N.of_nat (digits k n), N.of_nat (rest_after k k n)).
Proof.
  intros ->. apply holds_eq.
  pose proof (for_up_rule (S := list N * N) (fun i '(pm, m) => m = N.of_nat (rest_after i k n) /\
      pm = map N.of_nat (firstn i (digits k n)) ++ repeat 0%N (k - i))
     (fun i '(pm, n) => f <- rd (facts k) (k - i - 1) ;; q <- divN n f ;; pm <- wr pm i q ;; r <- modN n f ;; Ok (pm, r)) k 0) as R.
  eapply holds_weaken; [apply R|].
  - intros i [pm m] Hi (-> & ->). rewrite facts_rd by lia. cbn [bind].
    destruct (divmod_ok (rest_after i k n) (fact (k - i - 1)) (fact_pos _)) as [-> ->]. cbn [bind].
    replace (k - i) with (S (k - S i)) at 1 by lia. cbn [repeat].
    assert (length (map N.of_nat (firstn i (digits k n))) = i) as El.
    { rewrite map_length, firstn_length, digits_length. lia. }
    rewrite (wr_pos _ _ _ _ _ El). cbn [bind holds]. split.
    + rewrite rest_step by lia. reflexivity.
    + rewrite (firstn_S_nth _ _ _ (digits_rest i k n ltac:(lia))), map_app, <- app_assoc. reflexivity.
  - split; [reflexivity|]. rewrite Nat.sub_0_r. reflexivity.
  - intros [pm m] (-> & ->). cbn [plus]. rewrite Nat.sub_diag, app_nil_r. f_equal. f_equal.
    rewrite firstn_all2; [reflexivity|]. rewrite digits_length. lia.
Qed.

Definition final (ds : list nat) (i : nat) : nat := fold_right bump (nth i ds 0) (firstn i ds).

Lemma inner_code ds k i tl : length ds = k -> i < k -> k <= 21 ->
  (forall v, In v ds -> v < 21) ->
  for_up 0 i (fun b pm => let j := i - 1 - b in
            vj <- rd pm j ;; vi <- rd pm i ;;
            if (vj <=? vi)%N then wr pm i (u64 (vi + 1)) else Ok pm)
     (map N.of_nat (firstn i ds) ++ N.of_nat (nth i ds 0) :: tl) =
  Ok (map N.of_nat (firstn i ds) ++ N.of_nat (final ds i) :: tl).
Proof.
  intros Hl Hi Hk Hb. apply holds_eq.
  set (pre := map N.of_nat (firstn i ds)).
  assert (length pre = i) as Hpre by (unfold pre; rewrite map_length, firstn_length; lia).
  pose proof (for_up_rule (S := list N) (fun b pm =>
      pm = pre ++ N.of_nat (fold_right bump (nth i ds 0) (skipn (i - b) (firstn i ds))) :: tl)
     (fun b pm => let j := i - 1 - b in
            vj <- rd pm j ;; vi <- rd pm i ;;
            if (vj <=? vi)%N then wr pm i (u64 (vi + 1)) else Ok pm) i 0) as R.
  eapply holds_weaken; [apply R|].
  - intros b pm Hb' ->. cbn zeta.
    set (v := fold_right bump (nth i ds 0) (skipn (i - b) (firstn i ds))).
    destruct (nth_error (firstn i ds) (i - 1 - b)) as [d|] eqn:Ed.
    2:{ apply nth_error_None in Ed. rewrite firstn_length in Ed. lia. }
    assert (rd (pre ++ N.of_nat v :: tl) (i - 1 - b) = Ok (N.of_nat d)) as ->.
    { rewrite rd_app_l by lia. apply rd_nth. unfold pre. rewrite nth_error_map, Ed. reflexivity. }
    cbn [bind]. rewrite (rd_pos _ _ _ _ Hpre). cbn [bind].
    replace (i - S b) with (i - 1 - b) by lia.
    rewrite (skipn_nth_cons _ _ _ Ed). replace (S (i - 1 - b)) with (i - b) by lia.
    cbn [fold_right]. fold v. unfold bump at 1.
    destruct (d <=? v) eqn:E.
    + replace (N.of_nat d <=? N.of_nat v)%N with true by (symmetry; apply N.leb_le; apply Nat.leb_le in E; lia).
      rewrite (wr_pos _ _ _ _ _ Hpre). cbn [holds]. do 2 f_equal.
      assert (v < 50).
      { apply (fold_bump_bound k). rewrite skipn_length, firstn_length.
        assert (nth i ds 0 < 21) by (apply Hb; apply nth_In; lia). lia. }
      unfold u64. rewrite N.mod_small by lia. lia.
    + replace (N.of_nat d <=? N.of_nat v)%N with false by (symmetry; apply N.leb_gt; apply Nat.leb_gt in E; lia).
      reflexivity.
  - rewrite Nat.sub_0_r. rewrite skipn_all2 by (rewrite firstn_length; lia). reflexivity.
  - intros pm ->. cbn [plus]. rewrite Nat.sub_diag. reflexivity.
Qed.

Lemma outer_code ds k : length ds = k -> 1 <= k -> k <= 21 -> (forall v, In v ds -> v < 21) ->
  for_up 0 (k - 1)
    (fun a pm => let i := k - 1 - a in
       for_up 0 i
         (fun b pm => let j := i - 1 - b in
            vj <- rd pm j ;; vi <- rd pm i ;;
            if (vj <=? vi)%N then wr pm i (u64 (vi + 1)) else Ok pm) pm) (map N.of_nat ds) =
  Ok (map N.of_nat (map (final ds) (seq 0 k))).
Proof.
  intros Hl H1 Hk Hb. apply holds_eq.
  pose proof (for_up_rule (S := list N) (fun a pm =>
      pm = map N.of_nat (firstn (k - a) ds) ++ map N.of_nat (map (final ds) (seq (k - a) a)))
    (fun a pm => let i := k - 1 - a in
       for_up 0 i
         (fun b pm => let j := i - 1 - b in
            vj <- rd pm j ;; vi <- rd pm i ;;
            if (vj <=? vi)%N then wr pm i (u64 (vi + 1)) else Ok pm) pm) (k - 1) 0) as R.
  eapply holds_weaken; [apply R|].
  - intros a pm Ha ->. cbn zeta. set (i := k - 1 - a).
    replace (k - a) with (S i) by lia. replace (k - S a) with i by lia.
    assert (nth_error ds i = Some (nth i ds 0)) as Ed by (apply nth_error_nth'; lia).
    rewrite (firstn_S_nth _ _ _ Ed), map_app, <- app_assoc. cbn [map app].
    rewrite (inner_code ds k i) by (auto; lia). cbn [holds]. reflexivity.
  - rewrite Nat.sub_0_r, firstn_all2 by lia. cbn [seq map]. now rewrite app_nil_r.
  - intros pm ->. cbn [plus]. replace (k - (k - 1)) with 1 by lia. destruct k as [|k]; [lia|].
    replace (S k - 1) with k by lia. destruct ds as [|d ds]; [simpl in Hl; lia|]. reflexivity.
Qed.

Lemma nth_perm_ok n k p : 1 <= k <= 21 ->
  nth_error (arrangements k (seq 0 k)) n = Some p ->
  nth_permutation_sequence (N.of_nat n) k = Ok (map N.of_nat p).
Proof.
  intros Hk E. assert (n < fact k) as Hn.
  { rewrite <- (arr_length k (seq 0 k)) by apply seq_length. apply nth_error_Some. congruence. }
  unfold nth_permutation_sequence.
  pose proof (facts_ok k Hk) as Hf.
  destruct (wr (repeat 0%N k) 0 1%N) as [fa0| |]; try discriminate. cbn [bind] in *.
  rewrite Hf. cbn [bind]. rewrite (digits_code k n _ eq_refl). cbn [bind].
  etransitivity; [apply (outer_code (digits k n) k)|].
  5:{ do 2 f_equal. destruct (arr_elem k (seq 0 k) n p (seq_length _ _) Hn E) as (Hlp & He).
    apply nth_error_ext. intros i. rewrite nth_error_map.
    destruct (Nat.lt_ge_cases i k) as [Hlt|Hge].
    + destruct (digits_nth k n i Hlt Hn) as (d & Ed & Hd).
      rewrite (He i d Ed). rewrite (nth_error_nth' (seq 0 k) 0) by (rewrite seq_length; auto).
      rewrite seq_nth by auto. cbn [option_map plus].
      unfold final. rewrite (nth_error_nth _ _ 0 Ed).
      assert (fold_right bump d (firstn i (digits k n)) < k) as Hb.
      { apply (fold_bump_bound k). rewrite firstn_length, digits_length. lia. }
      rewrite (nth_error_nth' (seq 0 k) 0) by (rewrite seq_length; auto). rewrite seq_nth by auto. reflexivity.
    + rewrite (proj2 (nth_error_None (seq 0 k) i)) by (rewrite seq_length; lia).
      symmetry. apply nth_error_None. lia. }
  - apply digits_length.
  - lia.
  - lia.
  - intros v Hv. apply In_nth_error in Hv. destruct Hv as (i & Hi).
    assert (i < k) as Hlt by (rewrite <- (digits_length k n); apply nth_error_Some; congruence).
    destruct (digits_nth k n i Hlt Hn) as (d & Ed & Hd). rewrite Ed in Hi. injection Hi as <-. lia.
Qed.

(* ---- order of arrangements ---- *)
Lemma lex_irrefl {A} (lt : A -> A -> Prop) : (forall x, ~ lt x x) -> forall l, ~ lex lt l l.
Proof.
  intros Hi l. induction l as [|x l IH]; intros H; inversion H; subst; auto. eapply Hi; eauto.
Qed.

Lemma sorted_nth_lt l i j a b : (forall i j a b, i < j -> nth_error l i = Some a -> nth_error l j = Some b -> a < b) ->
  i < j -> nth_error l i = Some a -> nth_error l j = Some b -> a < b.
Proof. intros H. apply H. Qed.

Definition increasing (l : list nat) : Prop :=
  forall i j a b, i < j -> nth_error l i = Some a -> nth_error l j = Some b -> a < b.

Lemma increasing_remove l d : increasing l -> increasing (remove_at d l).
Proof.
  intros H i j a b Hij. rewrite !remove_nth. apply H. unfold bump.
  destruct (d <=? i) eqn:E1, (d <=? j) eqn:E2; try lia.
Qed.

Lemma arr_lex : forall n l i j p q, length l = n -> increasing l -> i < j ->
  nth_error (arrangements n l) i = Some p -> nth_error (arrangements n l) j = Some q -> lex lt p q.
Proof.
  induction n as [|n IH]; intros l i j p q Hl Hs Hij Hp Hq.
  - cbn in Hq. destruct j as [|[|j]]; simpl in Hq; try discriminate; lia.
  - rewrite arr_nth in Hp, Hq by auto. rewrite picks_nth in Hp, Hq.
    destruct (nth_error l (i / fact n)) as [x|] eqn:Ex; [|discriminate].
    destruct (nth_error l (j / fact n)) as [y|] eqn:Ey; [|discriminate].
    destruct (nth_error (arrangements n _) (i mod fact n)) as [p'|] eqn:Ep; [|discriminate].
    destruct (nth_error (arrangements n _) (j mod fact n)) as [q'|] eqn:Eq; [|discriminate].
    injection Hp as <-. injection Hq as <-.
    assert (fact n <> 0) as Hf by (pose proof (fact_pos n); lia).
    assert (i / fact n <= j / fact n) as Hdiv by (apply Nat.div_le_mono; lia).
    destruct (Nat.eq_dec (i / fact n) (j / fact n)) as [Ed|Hd].
    + rewrite Ed in Ex, Ep. rewrite Ex in Ey. injection Ey as <-. apply lex_eq.
      apply (IH _ _ _ _ _) with (5 := Eq) (4 := Ep).
      * assert (j / fact n < length l) as Hlt by (apply nth_error_Some; congruence).
        pose proof (remove_len l _ Hlt). lia.
      * apply increasing_remove. exact Hs.
      * pose proof (Nat.div_mod i (fact n) Hf). pose proof (Nat.div_mod j (fact n) Hf).
        rewrite Ed in *. lia.
    + apply lex_lt. apply (Hs (i / fact n) (j / fact n)); auto. lia.
Qed.

Lemma increasing_seq a n : increasing (seq a n).
Proof.
  intros i j x y Hij Hi Hj.
  assert (i < n) by (rewrite <- (seq_length n a); apply nth_error_Some; congruence).
  assert (j < n) by (rewrite <- (seq_length n a); apply nth_error_Some; congruence).
  rewrite (nth_error_nth' _ 0) in Hi by (rewrite seq_length; auto).
  rewrite (nth_error_nth' _ 0) in Hj by (rewrite seq_length; auto).
  rewrite seq_nth in Hi, Hj by auto. injection Hi as <-. injection Hj as <-. lia.
Qed.
