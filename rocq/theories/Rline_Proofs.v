From Verif Require Import Base Parse_Model IO_Model IO_Spec IO_Proofs Stl_Model Rline_Model Rline_Spec.
Local Open Scope nat_scope.

Section Draws.
Variable M : nat.

Fixpoint fails (k : nat) (ds : list nat) : bool :=
  match ds with [] => true | d :: ds => negb (d * k <? M) && fails (S k) ds end.
Fixpoint picks (k : nat) (ds : list nat) (i : nat) : bool :=
  match ds, i with
  | [], _ => false
  | d :: ds, 0 => (d * k <? M) && fails (S k) ds
  | d :: ds, S i => picks (S k) ds i
  end.

Lemma run_ok : forall ls ds k cur, length ds = length ls -> (N.of_nat (k + length ls) < 2 ^ 64)%N ->
  exists l, fold_left (select (N.of_nat M)) ls (Ok (Selector (N.of_nat k) cur (map N.of_nat ds))) =
    Ok (Selector (N.of_nat (k + length ls)) l []) /\
    (fails k ds = true /\ l = cur \/ exists i, nth_error ls i = Some l /\ picks k ds i = true).
Proof.
  induction ls as [|s ls IH]; intros [|d ds] k cur E B; try discriminate; cbn [fold_left map].
  - exists cur. rewrite Nat.add_0_r. auto.
  - cbn [length] in *. unfold select at 2. cbn [bind rng Rline_Model.line line_count].
    rewrite N.mod_small by lia. replace (N.of_nat k + 1)%N with (N.of_nat (S k)) by lia.
    destruct (IH ds (S k) (if (N.of_nat d * N.of_nat k <? N.of_nat M)%N then s else cur)) as (l & El & H); [lia|lia|].
    exists l. split; [rewrite El; do 2 f_equal; lia|].
    replace ((N.of_nat d * N.of_nat k <? N.of_nat M)%N) with (d * k <? M) in * by
      (destruct (Nat.ltb_spec (d * k) M), (N.ltb_spec (N.of_nat d * N.of_nat k) (N.of_nat M)); lia || reflexivity).
    cbn [fails]. destruct H as [(Hf & ->)|(i & Hi & Hp)].
    + destruct (d * k <? M) eqn:Ed; [right; exists 0; cbn [picks]; rewrite Ed, Hf; auto|left; rewrite Hf; auto].
    + right. exists (S i). auto.
Qed.

Lemma picks_fails ds : forall k i, picks k ds i = true -> fails k ds = false.
Proof.
  induction ds as [|d ds IH]; intros k [|i] H; cbn [picks fails] in *; try discriminate.
  - apply andb_prop in H. destruct H as [-> _]. reflexivity.
  - rewrite (IH _ _ H). apply andb_false_r.
Qed.
Lemma picks_unique ds : forall k i j, picks k ds i = true -> picks k ds j = true -> i = j.
Proof.
  induction ds as [|d ds IH]; intros k [|i] [|j] Hi Hj; cbn [picks] in *; try discriminate; try reflexivity.
  - apply andb_prop in Hi. destruct Hi as [_ Hi]. rewrite (picks_fails _ _ _ Hj) in Hi. discriminate.
  - apply andb_prop in Hj. destruct Hj as [_ Hj]. rewrite (picks_fails _ _ _ Hi) in Hj. discriminate.
  - f_equal. eauto.
Qed.
Lemma fails_spec ds : forall k, fails k ds = true <-> forall i d, nth_error ds i = Some d -> M <= d * (k + i).
Proof.
  induction ds as [|d ds IH]; intros k; cbn [fails].
  - split; [intros _ [|i]; discriminate|reflexivity].
  - rewrite andb_true_iff, IH. split.
    + intros [H1 H2] [|i] e E; cbn in E.
      * injection E as <-. rewrite Nat.add_0_r. destruct (Nat.ltb_spec (d * k) M); [discriminate|lia].
      * specialize (H2 _ _ E). rewrite Nat.add_succ_r. exact H2.
    + intros H. split.
      * specialize (H 0 d eq_refl). rewrite Nat.add_0_r in H. destruct (Nat.ltb_spec (d * k) M); [lia|reflexivity].
      * intros i e E. specialize (H (S i) e E). rewrite Nat.add_succ_r in H. exact H.
Qed.
Lemma picks_spec ds : forall k i, picks k ds i = true <->
  (exists d, nth_error ds i = Some d /\ d * (k + i) < M) /\ forall j d, i < j -> nth_error ds j = Some d -> M <= d * (k + j).
Proof.
  induction ds as [|d ds IH]; intros k i; cbn [picks].
  - split; [discriminate|]. intros ((d & E & _) & _). destruct i; discriminate.
  - destruct i as [|i].
    + rewrite andb_true_iff, fails_spec. split.
      * intros [H1 H2]. split; [exists d; split; [reflexivity|]; rewrite Nat.add_0_r; now apply Nat.ltb_lt|].
        intros [|j] e Hj E; [lia|]. specialize (H2 j e E). rewrite Nat.add_succ_r. exact H2.
      * intros ((e & E & H1) & H2). injection E as <-. rewrite Nat.add_0_r in H1. split; [now apply Nat.ltb_lt|].
        intros j e E. specialize (H2 (S j) e ltac:(lia) E). rewrite Nat.add_succ_r in H2. exact H2.
    + rewrite IH. rewrite Nat.add_succ_r. split.
      * intros ((e & E & H1) & H2). split; [exists e; auto|]. intros [|j] f Hj E'; [lia|].
        specialize (H2 j f ltac:(lia) E'). rewrite Nat.add_succ_r. exact H2.
      * intros ((e & E & H1) & H2). split; [exists e; auto|]. intros j f Hj E'.
        specialize (H2 (S j) f ltac:(lia) E'). rewrite Nat.add_succ_r in H2. exact H2.
Qed.

(* ---------- counting ---------- *)
(* c k: how many draws make line k the current one *)
Definition c (k : nat) : nat := length (filter (fun d => d * k <? M) (seq 0 M)).
Lemma filter_below n m : length (filter (fun d => d <? n) (seq 0 m)) = Nat.min n m.
Proof.
  induction m as [|m IH]; [now rewrite Nat.min_0_r|]. rewrite seq_S, filter_app, app_length, IH. cbn [filter plus].
  destruct (Nat.ltb_spec m n); cbn [length]; lia.
Qed.
Lemma c_bounds k : 0 < k -> M <= c k * k /\ c k * k < M + k /\ c k <= M.
Proof.
  intros Hk. assert (E : c k = Nat.min ((M + k - 1) / k) M).
  { unfold c. rewrite <- filter_below. f_equal. apply filter_ext. intros d.
    pose proof (Nat.div_mod (M + k - 1) k ltac:(lia)) as D. pose proof (Nat.mod_upper_bound (M + k - 1) k ltac:(lia)) as R.
    set (q := (M + k - 1) / k) in *. set (r := (M + k - 1) mod k) in *.
    destruct (Nat.ltb_spec (d * k) M), (Nat.ltb_spec d q); try reflexivity; exfalso.
    - assert (q * k <= d * k) by (apply Nat.mul_le_mono_r; lia). lia.
    - assert ((d + 1) * k <= q * k) by (apply Nat.mul_le_mono_r; lia). lia. }
  pose proof (Nat.div_mod (M + k - 1) k ltac:(lia)) as D. pose proof (Nat.mod_upper_bound (M + k - 1) k ltac:(lia)) as R.
  set (q := (M + k - 1) / k) in *. set (r := (M + k - 1) mod k) in *. rewrite E.
  destruct (Nat.le_gt_cases q M); [rewrite Nat.min_l by lia; nia|exfalso].
  assert (k * (M + 1) <= k * q) by (apply Nat.mul_le_mono_l; lia). nia.
Qed.

Lemma number_cons P n : number P (sequences M (S n)) =
  fold_right Nat.add 0 (map (fun d => number (fun ds => P (d :: ds)) (sequences M n)) (seq 0 M)).
Proof.
  unfold number. cbn [sequences]. generalize (seq 0 M) as l. induction l as [|d l IH]; [reflexivity|].
  cbn [flat_map map fold_right]. rewrite filter_app, app_length, IH. f_equal.
  clear IH. generalize (sequences M n) as xs. intros xs. induction xs as [|x xs IHx]; [reflexivity|]. cbn [map filter]. destruct (P (d :: x)); cbn [length]; now rewrite IHx.
Qed.
Lemma number_ext P Q l : (forall x, In x l -> P x = Q x) -> number P l = number Q l.
Proof.
  unfold number. induction l as [|x l IH]; intros H; [reflexivity|]. cbn [filter]. rewrite (H x (or_introl eq_refl)).
  destruct (Q x); cbn [length]; rewrite IH; auto with datatypes.
Qed.
Lemma number_and (b : bool) P l : number (fun x => b && P x) l = if b then number P l else 0.
Proof.
  destruct b; [reflexivity|]. unfold number. induction l as [|x l IH]; [reflexivity|exact IH].
Qed.
Lemma sum_if (f : nat -> bool) (a : nat) l :
  fold_right Nat.add 0 (map (fun d => if f d then a else 0) l) = length (filter f l) * a.
Proof. induction l as [|d l IH]; [reflexivity|]. cbn [map fold_right filter]. rewrite IH. destruct (f d); cbn [length]; lia. Qed.
Lemma filter_negb {A} (f : A -> bool) l : length (filter (fun x => negb (f x)) l) = length l - length (filter f l).
Proof.
  assert (H : length (filter f l) + length (filter (fun x => negb (f x)) l) = length l); [|lia].
  induction l as [|x l IH]; [reflexivity|]. cbn [filter]. destruct (f x); cbn [negb length]; lia.
Qed.

Lemma number_all n : length (sequences M n) = M ^ n.
Proof.
  assert (E : forall n, length (sequences M n) = number (fun _ => true) (sequences M n)).
  { intros m. unfold number. f_equal. induction (sequences M m) as [|x xs IH]; [reflexivity|]. cbn [filter]. now rewrite <- IH. }
  induction n as [|n IH]; [reflexivity|]. rewrite E, number_cons, <- E, IH. cbn [Nat.pow].
  transitivity (length (seq 0 M) * M ^ n); [|now rewrite seq_length].
  generalize (seq 0 M) as l. induction l as [|d l IHl]; [reflexivity|]. cbn [map fold_right length]. rewrite IHl. lia.
Qed.

Lemma number_fails n : forall k, number (fails k) (sequences M (S n)) = (M - c k) * number (fails (S k)) (sequences M n).
Proof.
  intros k. rewrite number_cons. cbn [fails].
  rewrite (map_ext _ (fun d => if negb (d * k <? M) then number (fails (S k)) (sequences M n) else 0)) by (intros d; apply number_and).
  rewrite sum_if, filter_negb, seq_length. reflexivity.
Qed.
Lemma number_picks_0 n k : number (fun ds => picks k ds 0) (sequences M (S n)) = c k * number (fails (S k)) (sequences M n).
Proof.
  rewrite number_cons. cbn [picks].
  rewrite (map_ext _ (fun d => if d * k <? M then number (fails (S k)) (sequences M n) else 0)) by (intros d; apply number_and).
  apply sum_if.
Qed.
Lemma number_picks_S n k i : number (fun ds => picks k ds (S i)) (sequences M (S n)) = M * number (fun ds => picks (S k) ds i) (sequences M n).
Proof.
  rewrite number_cons. cbn [picks]. rewrite <- (seq_length M 0) at 2.
  generalize (seq 0 M) as l. induction l as [|d l IH]; [reflexivity|]. cbn [map fold_right length]. rewrite IH. lia.
Qed.
Lemma number_picks i : forall n k, i < n ->
  number (fun ds => picks k ds i) (sequences M n) = M ^ i * c (k + i) * number (fails (k + i + 1)) (sequences M (n - i - 1)).
Proof.
  induction i as [|i IH]; intros [|n] k H; try lia.
  - rewrite number_picks_0. cbn [Nat.pow]. rewrite Nat.add_0_r, Nat.add_1_r. replace (S n - 0 - 1) with n by lia. lia.
  - rewrite number_picks_S, IH by lia. cbn [Nat.pow]. replace (S k + i) with (k + S i) by lia. replace (S n - S i - 1) with (n - i - 1) by lia. lia.
Qed.

Lemma fails_upper m : forall k, 0 < k -> number (fails (k + 1)) (sequences M m) * (k + m) <= k * M ^ m.
Proof.
  induction m as [|m IH]; intros k Hk.
  - change (sequences M 0) with [@nil nat]. change (number (fails (k + 1)) [@nil nat]) with 1. cbn [Nat.pow]. lia.
  - rewrite number_fails. replace (S (k + 1)) with (S k + 1) by lia. specialize (IH (S k) ltac:(lia)).
    destruct (c_bounds (k + 1) ltac:(lia)) as (B1 & B2 & B3). cbn [Nat.pow].
    set (F := number (fails (S k + 1)) (sequences M m)) in *. set (x := c (k + 1)) in *.
    assert ((M - x) * (k + 1) <= k * M) by nia.
    replace ((M - x) * F * (k + S m)) with ((M - x) * (F * (S k + m))) by lia. nia.
Qed.
Lemma fails_lower m : forall k, 0 < k -> k * (M - 1) ^ m <= number (fails (k + 1)) (sequences M m) * (k + m).
Proof.
  induction m as [|m IH]; intros k Hk.
  - change (sequences M 0) with [@nil nat]. change (number (fails (k + 1)) [@nil nat]) with 1. cbn [Nat.pow]. lia.
  - rewrite number_fails. replace (S (k + 1)) with (S k + 1) by lia. specialize (IH (S k) ltac:(lia)).
    destruct (c_bounds (k + 1) ltac:(lia)) as (B1 & B2 & B3). cbn [Nat.pow].
    set (F := number (fails (S k + 1)) (sequences M m)) in *. set (x := c (k + 1)) in *.
    assert (k * (M - 1) <= (M - x) * (k + 1)) by nia.
    replace ((M - x) * F * (k + S m)) with ((M - x) * (F * (S k + m))) by lia. nia.
Qed.
Lemma fails_exact m : forall k, 0 < k -> (forall t, 1 <= t <= m -> Nat.divide (k + t) M) ->
  number (fails (k + 1)) (sequences M m) * (k + m) = k * M ^ m.
Proof.
  induction m as [|m IH]; intros k Hk D.
  - change (sequences M 0) with [@nil nat]. change (number (fails (k + 1)) [@nil nat]) with 1. cbn [Nat.pow]. lia.
  - rewrite number_fails. replace (S (k + 1)) with (S k + 1) by lia.
    assert (IH' : number (fails (S k + 1)) (sequences M m) * (S k + m) = S k * M ^ m).
    { apply IH; [lia|]. intros t Ht. replace (S k + t) with (k + S t) by lia. apply D. lia. }
    destruct (c_bounds (k + 1) ltac:(lia)) as (B1 & B2 & B3). destruct (D 1 ltac:(lia)) as (q & Eq). cbn [Nat.pow].
    set (F := number (fails (S k + 1)) (sequences M m)) in *. set (x := c (k + 1)) in *.
    assert (x = q) as -> by nia.
    replace ((M - q) * F * (k + S m)) with ((M - q) * (F * (S k + m))) by lia. rewrite IH'.
    replace (M - q) with (k * q) by lia.
    transitivity (k * (q * (k + 1) * M ^ m)); [lia|]. rewrite <- Eq. reflexivity.
Qed.
End Draws.
