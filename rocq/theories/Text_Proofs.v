(* Proofs about alignment, character classes and consecutive-value searches. *)
From Verif Require Import Base Split_Model Edit_Model Codec_Model Match_Model Num_Model Parse_Model
  Text_Model Text_Spec Match_Proofs.
From Verif Require Export Text_Spec2.
Local Open Scope nat_scope.

Lemma half_split n : Nat.div2 n + (Nat.div2 n + (if Nat.odd n then 1 else 0)) = n.
Proof.
  pose proof (Nat.div2_odd n) as H. unfold Nat.b2n in H. destruct (Nat.odd n); lia.
Qed.

Lemma sat_nth {A} (p : A -> bool) s j x : nth_error s j = Some x -> (sat p s j <-> p x = true).
Proof.
  intros E. split.
  - intros (y & Ey & Hy). congruence.
  - intros H. exists x; auto.
Qed.

Lemma sat_lt {A} (p : A -> bool) s j : sat p s j -> j < length s.
Proof. intros (x & E & _). now apply nth_error_some_lt in E. Qed.

Lemma window_le {A} (p : A -> bool) s n i : 1 <= n -> window p s n i -> i + n <= length s.
Proof. intros Hn H. assert (sat p s (i + n - 1)) by (apply H; lia). apply sat_lt in H0. lia. Qed.

Section Consecutive.
  Context {A : Type}.
  Variable p : A -> bool.

  Lemma skip_not_ok s itr : itr <= length s ->
    holds (skip_not p s itr) (fun j => itr <= j <= length s /\
      (forall k, itr <= k < j -> ~ sat p s k) /\ (j = length s \/ sat p s j)).
  Proof.
    intros H. unfold skip_not.
    apply loop_rule with (I := fun i => itr <= i <= length s /\ forall k, itr <= k < i -> ~ sat p s k)
                         (mu := fun i => length s - i).
    - intros i (Hi & Hk). destruct (Nat.eqb_spec i (length s)) as [->|Hne].
      + simpl. repeat split; auto; lia.
      + destruct (rd_ok s i ltac:(lia)) as (x & E & N). rewrite E. cbn [bind].
        destruct (p x) eqn:Px; simpl.
        * repeat split; auto; try lia. right. exists x; auto.
        * repeat split; try lia. intros k Hk2. destruct (Nat.eq_dec k i) as [->|].
          -- rewrite (sat_nth p s i x N). congruence.
          -- apply Hk; lia.
    - split; [lia|]. intros; lia.
    - lia.
  Qed.

  Lemma distance_small (s : list A) itr : (N.of_nat (length s) < 2 ^ 32)%N ->
    distance32 s itr = N.of_nat (length s - itr).
  Proof. intros H. unfold distance32. apply N.mod_small. lia. Qed.

  Lemma find_exactly_ok n s a : 1 <= n -> a <= length s -> (N.of_nat (length s) < 2 ^ 32)%N ->
    holds (find_exactly_n p (N.of_nat n) s a false) (fun r =>
      first_window p s n a r \/
      (r = (length s, length s) /\ forall r', ~ first_window p s n a r')).
  Proof.
    intros Hn Ha Hl. unfold find_exactly_n. rewrite distance_small by exact Hl.
    assert (Hnone : (forall i, a <= i -> i + n <= length s -> ~ window p s n i) ->
                    forall r', ~ first_window p s n a r').
    { intros H [i j] (H1 & H2 & H3 & H4). cbn [fst snd] in *. apply (H i); auto.
      apply (window_le p); auto. }
    destruct (N.ltb_spec (N.of_nat (length s - a)) (N.of_nat n)) as [Hs|Hs].
    - simpl. right. split; auto. apply Hnone. intros; lia.
    - apply loop_rule with
        (I := fun '(itr, count) => exists r, r < n /\ count = N.of_nat (n - r) /\
                a + r <= itr <= length s /\ (forall j, itr - r <= j < itr -> sat p s j) /\
                (forall k, a <= k < itr - r -> ~ window p s n k))
        (mu := fun '(itr, _) => length s - itr).
      + intros [itr count] (r & Hr & -> & Hi & Hsat & Hno).
        destruct (Nat.eqb_spec itr (length s)) as [->|Hne].
        * simpl. right. split; auto. apply Hnone. intros i Hai Hin Hw.
          destruct (Nat.lt_ge_cases i (length s - r)) as [Hlt|Hge]; [|lia].
          apply (Hno i); auto; lia.
        * destruct (rd_ok s itr ltac:(lia)) as (x & E & N). rewrite E. cbn [bind].
          destruct (p x) eqn:Px.
          -- assert (Hx : sat p s itr) by (exists x; auto).
             assert (Hd : dec64 (N.of_nat (n - r)) = N.of_nat (n - S r)).
             { unfold dec64. destruct (N.eqb_spec (N.of_nat (n - r)) 0); lia. }
             cbv zeta. rewrite Hd.
             destruct (N.eqb_spec (N.of_nat (n - S r)) 0) as [Hz|Hz]; cbn [negb].
             ++ destruct (N.ltb_spec (N.of_nat itr + 1) (N.of_nat n)); [lia|].
                rewrite Nat2N.id. cbn [holds]. left. unfold first_window. cbn [fst snd].
                split; [lia|]. split; auto. split.
                ** intros j Hj. destruct (Nat.eq_dec j itr) as [->|]; auto. apply Hsat; lia.
                ** intros k Hk. apply Hno. lia.
             ++ cbn [holds]. split; [|lia]. exists (S r). split; [lia|]. split; auto. split; [lia|]. split.
                ** intros j Hj. destruct (Nat.eq_dec j itr) as [->|]; auto. apply Hsat; lia.
                ** intros k Hk. apply Hno. lia.
          -- apply holds_bind2 with (1 := skip_not_ok s (S itr) ltac:(lia)).
             intros j (Hj & Hnj & _). cbn [holds]. split; [|lia].
             exists 0. rewrite !Nat.sub_0_r. split; [lia|]. split; auto. split; [lia|]. split; [intros; lia|].
             intros k Hk Hw. destruct (Nat.lt_ge_cases k (itr - r)) as [Hlt|Hge].
             ++ apply (Hno k); auto. lia.
             ++ destruct (Nat.le_gt_cases k itr).
                ** assert (Hx : sat p s itr) by (apply Hw; lia).
                   rewrite (sat_nth p s itr x N) in Hx. congruence.
                ** apply (Hnj k); [lia|]. apply Hw. lia.
      + exists 0. rewrite Nat.sub_0_r. split; [lia|]. split; auto. split; [lia|].
        split; intros; lia.
      + lia.
  Qed.

  Lemma back_range_ok itr count : (count < 2 ^ 31)%N -> N.to_nat count <= itr ->
    back_range itr count = Ok (itr - N.to_nat count, itr).
  Proof.
    intros H1 H2. unfold back_range.
    destruct (N.ltb_spec count (2 ^ 31)); [|lia]. destruct (Nat.leb_spec (N.to_nat count) itr); [|lia].
    cbn [andb]. repeat f_equal. lia.
  Qed.

  Lemma find_atleast_ok n s a : 1 <= n -> a <= length s -> (N.of_nat (length s) < 2 ^ 31)%N ->
    holds (find_atleast_n p (N.of_nat n) s a) (fun r =>
      first_run p s n a r \/
      (r = (length s, length s) /\ forall r', ~ first_run p s n a r')).
  Proof.
    intros Hn Ha Hl. unfold find_atleast_n. rewrite distance_small by lia.
    assert (Hnone : (forall i j, run p s a i j -> n <= j - i -> False) ->
                    forall r', ~ first_run p s n a r').
    { intros H [i j] (H1 & H2 & H3). cbn [fst snd] in *. eapply H; eauto. }
    assert (Hend : forall i j, run p s a i j -> j <= length s).
    { intros i j (H1 & H2 & H3 & _). apply (window_le p) in H3; lia. }
    destruct (N.ltb_spec (N.of_nat (length s - a)) (N.of_nat n)) as [Hs|Hs].
    - simpl. right. split; auto. apply Hnone. intros i j Hr Hij.
      pose proof (Hend _ _ Hr). destruct Hr as (? & ? & _). lia.
    - apply loop_rule with
        (I := fun '(itr, count) => exists c, count = N.of_nat c /\
                a + c <= itr <= length s /\ (forall j, itr - c <= j < itr -> sat p s j) /\
                (itr - c = a \/ ~ sat p s (itr - c - 1)) /\
                (c = 0 -> itr = a \/ itr = length s \/ sat p s itr) /\
                (forall i j, run p s a i j -> n <= j - i -> itr - c <= i))
        (mu := fun '(itr, _) => length s - itr).
      + intros [itr count] (c & -> & Hi & Hsat & Hl0 & Hc0 & Hno).
        (* the end of the current run has been reached *)
        assert (Hstop : ~ sat p s itr ->
          if (N.of_nat n <=? N.of_nat c)%N then
            holds (r <- back_range itr (N.of_nat c) ;; Ok (inr (A := nat * N) r))
              (fun x => match x with inl _ => False | inr r => first_run p s n a r end)
          else forall i j, run p s a i j -> n <= j - i -> itr <= i).
        { intros Hns. destruct (N.leb_spec (N.of_nat n) (N.of_nat c)).
          - rewrite back_range_ok by lia. rewrite Nat2N.id. simpl.
            unfold first_run. cbn [fst snd]. split; [|split; [lia|exact Hno]].
            unfold run. split; [lia|]. split; [lia|]. split; [|split; auto].
            intros j Hj. apply Hsat. lia.
          - intros i j Hr Hij. pose proof (Hno i j Hr Hij) as Hi2.
            destruct (Nat.le_gt_cases itr i); auto. exfalso. apply Hns.
            destruct Hr as (_ & _ & Hw & _). apply Hw. lia. }
        destruct (Nat.eqb_spec itr (length s)) as [->|Hne].
        * assert (Hns : ~ sat p s (length s)) by (intros X; apply sat_lt in X; lia).
          specialize (Hstop Hns).
          destruct (N.leb_spec (N.of_nat n) (N.of_nat c)).
          -- eapply holds_weaken; [exact Hstop|]. cbv beta. intros [?|r] Hr; [contradiction|]. now left.
          -- simpl. right. split; auto. apply Hnone. intros i j Hr Hij.
             pose proof (Hstop i j Hr Hij). pose proof (Hend i j Hr). lia.
        * destruct (rd_ok s itr ltac:(lia)) as (x & E & N). rewrite E. cbn [bind].
          destruct (p x) eqn:Px.
          -- assert (Hx : sat p s itr) by (exists x; auto).
             simpl. split; [|lia]. exists (S c). split; [lia|]. split; [lia|]. split; [|split; [|split]].
             ++ intros j Hj. destruct (Nat.eq_dec j itr) as [->|]; auto. apply Hsat; lia.
             ++ replace (S itr - S c) with (itr - c) by lia. exact Hl0.
             ++ lia.
             ++ intros i j Hr Hij. pose proof (Hno i j Hr Hij). lia.
          -- assert (Hns : ~ sat p s itr) by (rewrite (sat_nth p s itr x N); congruence).
             specialize (Hstop Hns).
             destruct (N.leb_spec (N.of_nat n) (N.of_nat c)).
             ++ eapply holds_weaken; [exact Hstop|]. cbv beta. intros [?|r] Hr; [contradiction|]. now left.
             ++ pose proof (skip_not_ok s itr ltac:(lia)) as Hsk.
                apply holds_bind2 with (1 := Hsk).
                intros j (Hj & Hnj & Hjs).
                assert (itr < j).
                { destruct (Nat.eq_dec j itr) as [->|]; [|lia]. destruct Hjs; [lia|tauto]. }
                simpl. split; [|lia]. exists 0. rewrite !Nat.sub_0_r. split; auto. split; [lia|].
                split; [intros; lia|]. split; [right; apply Hnj; lia|]. split; [auto|].
                intros i k Hr Hik. pose proof (Hstop i k Hr Hik).
                destruct (Nat.le_gt_cases j i); auto. exfalso. apply (Hnj i); [lia|].
                destruct Hr as (_ & ? & Hw & _). apply Hw. lia.
      + exists 0. rewrite !Nat.sub_0_r. split; auto. split; [lia|]. split; [intros; lia|].
        split; [now left|]. split; [auto|]. intros i j (? & _). lia.
      + lia.
  Qed.

  Lemma match_exactly_ok n s a : 1 <= n -> a <= length s -> (N.of_nat (length s) < 2 ^ 32)%N ->
    holds (match_exactly_n p (N.of_nat n) s a) (fun b => b = true <-> window p s n a).
  Proof.
    intros Hn Ha Hl. unfold match_exactly_n. rewrite distance_small by exact Hl.
    destruct (N.ltb_spec (N.of_nat (length s - a)) (N.of_nat n)) as [Hs|Hs].
    - simpl. split; [discriminate|]. intros Hw. apply (window_le p) in Hw; lia.
    - apply loop_rule with
        (I := fun '(itr, count) => exists r, r < n /\ count = N.of_nat (n - r) /\
                itr = a + r /\ itr <= length s /\ (forall j, a <= j < itr -> sat p s j))
        (mu := fun '(itr, _) => length s - itr).
      + intros [itr count] (r & Hr & -> & Hi & Hle & Hsat).
        destruct (Nat.eqb_spec itr (length s)) as [He|Hne]; [lia|].
        destruct (rd_ok s itr ltac:(lia)) as (x & E & N). rewrite E. cbn [bind].
        destruct (p x) eqn:Px.
        * assert (Hx : sat p s itr) by (exists x; auto).
          assert (Hd : dec64 (N.of_nat (n - r)) = N.of_nat (n - S r)).
          { unfold dec64. destruct (N.eqb_spec (N.of_nat (n - r)) 0); lia. }
          cbv zeta. rewrite Hd.
          assert (Hall : forall j, a <= j < S itr -> sat p s j).
          { intros j Hj. destruct (Nat.eq_dec j itr) as [->|]; auto. apply Hsat; lia. }
          destruct (N.eqb_spec (N.of_nat (n - S r)) 0) as [Hz|Hz].
          -- simpl. split; auto. intros _ j Hj. apply Hall. lia.
          -- simpl. split; [|lia]. exists (S r). repeat split; auto; lia.
        * simpl. split; [discriminate|]. intros Hw.
          assert (Hx : sat p s itr) by (apply Hw; lia).
          rewrite (sat_nth p s itr x N) in Hx. congruence.
      + exists 0. repeat split; try lia.
      + lia.
  Qed.

  Lemma match_atleast_ok n s a : a <= length s -> (N.of_nat (length s) < 2 ^ 32)%N ->
    holds (match_atleast_n p (N.of_nat n) s a) (fun b =>
      b = true <-> exists k, n <= k /\ a + k < length s /\ window p s k a /\ ~ sat p s (a + k)).
  Proof.
    intros Ha Hl. unfold match_atleast_n. rewrite distance_small by exact Hl.
    destruct (N.ltb_spec (N.of_nat (length s - a)) (N.of_nat n)) as [Hs|Hs].
    - simpl. split; [discriminate|]. intros (k & Hk & Hk2 & _). lia.
    - apply loop_rule with
        (I := fun '(itr, count) => exists c, count = N.of_nat c /\
                itr = a + c /\ itr <= length s /\ (forall j, a <= j < itr -> sat p s j))
        (mu := fun '(itr, _) => length s - itr).
      + intros [itr count] (c & -> & Hi & Hle & Hsat).
        destruct (Nat.eqb_spec itr (length s)) as [He|Hne].
        * simpl. split; [discriminate|]. intros (k & Hk & Hk2 & _ & Hns). exfalso. apply Hns, Hsat. lia.
        * destruct (rd_ok s itr ltac:(lia)) as (x & E & N). rewrite E. cbn [bind].
          destruct (p x) eqn:Px.
          -- assert (Hx : sat p s itr) by (exists x; auto).
             simpl. split; [|lia]. exists (S c). split; [lia|]. split; [lia|]. split; [lia|].
             intros j Hj. destruct (Nat.eq_dec j itr) as [->|]; auto. apply Hsat; lia.
          -- assert (Hns : ~ sat p s itr) by (rewrite (sat_nth p s itr x N); congruence).
             assert (Hk : forall k, a + k < length s -> window p s k a -> ~ sat p s (a + k) -> k = c).
             { intros k H1 H2 H3. destruct (Nat.lt_trichotomy k c) as [H|[H|H]]; auto; exfalso.
               - apply H3, Hsat. lia.
               - apply Hns, H2. lia. }
             destruct (N.leb_spec (N.of_nat n) (N.of_nat c)); simpl; (split; [try discriminate|]).
             ++ intros _. exists c. split; [lia|]. split; [lia|]. split; [|now rewrite <- Hi].
                intros j Hj. apply Hsat. lia.
             ++ auto.
             ++ intros (k & Hk1 & Hk2 & Hk3 & Hk4). pose proof (Hk k Hk2 Hk3 Hk4). lia.
      + exists 0. split; auto. split; [lia|]. split; [lia|]. intros; lia.
      + lia.
  Qed.

  (* with stateful_predicate a text in which nothing matches runs past its end *)
  Lemma find_exactly_stateful_ub n s a : 1 <= n -> a < length s -> (N.of_nat (length s) < 2 ^ 32)%N ->
    n <= length s - a -> (forall j, a <= j -> ~ sat p s j) ->
    find_exactly_n p (N.of_nat n) s a true = UB.
  Proof.
    intros Hn Ha Hl Hna Hno. unfold find_exactly_n. rewrite distance_small by exact Hl.
    destruct (N.ltb_spec (N.of_nat (length s - a)) (N.of_nat n)) as [Hs|Hs]; [lia|].
    cbn [loop]. destruct (Nat.eqb_spec a (length s)); [lia|].
    destruct (rd_ok s a ltac:(lia)) as (x & E & N). rewrite E. cbn [bind].
    destruct (p x) eqn:Px.
    { exfalso. apply (Hno a); [lia|]. exists x; auto. }
    pose proof (skip_not_ok s (S a) ltac:(lia)) as H. apply holds_ex in H.
    destruct H as (j & Ej & Hj & _ & Hjs). rewrite Ej. cbn [bind negb].
    destruct Hjs as [->|Hjs]; [|exfalso; apply (Hno j); auto; lia].
    now rewrite Nat.eqb_refl.
  Qed.

  (* ---------------- repeated search ---------------- *)
  Lemma first_window_unique s n a r r' : first_window p s n a r -> first_window p s n a r' -> r = r'.
  Proof.
    destruct r as [i j], r' as [i' j']. intros (H1 & H2 & H3 & H4) (H1' & H2' & H3' & H4').
    cbn [fst snd] in *.
    destruct (Nat.lt_trichotomy i i') as [H|[H|H]].
    - exfalso. apply (H4' i); auto.
    - subst. reflexivity.
    - exfalso. apply (H4 i'); auto.
  Qed.

  Lemma run_end_unique s a i j j' : run p s a i j -> run p s a i j' -> j = j'.
  Proof.
    intros (_ & H1 & H2 & _ & H3) (_ & H1' & H2' & _ & H3').
    destruct (Nat.lt_trichotomy j j') as [H|[H|H]]; auto; exfalso.
    - apply H3, H2'. lia.
    - apply H3', H2. lia.
  Qed.

  Lemma first_run_unique s n a r r' : first_run p s n a r -> first_run p s n a r' -> r = r'.
  Proof.
    destruct r as [i j], r' as [i' j']. intros (H1 & H2 & H3) (H1' & H2' & H3').
    cbn [fst snd] in *.
    assert (i = i').
    { pose proof (H3 _ _ H1' H2'). pose proof (H3' _ _ H1 H2). lia. }
    subst i'. f_equal. eapply run_end_unique; eauto.
  Qed.
End Consecutive.

Lemma successive_unique (found : nat -> nat * nat -> Prop) :
  (forall a r r', found a r -> found a r' -> r = r') ->
  forall a l, successive found a l -> forall l', successive found a l' -> l = l'.
Proof.
  intros Hu a l H. induction H as [a Hn|a r l Hr H IH]; intros l' H'; inversion H'; subst; auto.
  - exfalso. eapply Hn; eauto.
  - exfalso. match goal with X : forall r, ~ found a r |- _ => eapply X; eauto end.
  - assert (r = r0) by eauto. subst. f_equal. auto.
Qed.

Section SplitFound.
  Context {A : Type}.
  Variable s : list A.
  Variable find : list A -> nat -> outcome (nat * nat).
  Variable found : nat -> nat * nat -> Prop.
  Hypothesis find_ok : forall a, a <= length s ->
    holds (find s a) (fun r => found a r \/ (r = (length s, length s) /\ forall r', ~ found a r')).
  Hypothesis found_in : forall a r, found a r -> a <= fst r /\ fst r < snd r <= length s.

  Lemma found_end r : ~ found (length s) r.
  Proof. intros H. apply found_in in H. lia. Qed.

  Lemma found_list : forall m a, a <= length s -> length s - a <= m -> exists l, successive found a l.
  Proof.
    induction m as [|m IH]; intros a Ha Hm.
    - exists []. constructor. replace a with (length s) by lia. exact found_end.
    - pose proof (find_ok a Ha) as H. apply holds_ex in H.
      destruct H as (r & _ & [H|(_ & H)]); [|exists []; now constructor].
      pose proof (found_in _ _ H). destruct (IH (snd r)) as (l & Hl); try lia.
      exists (r :: l). econstructor; eauto.
  Qed.

  Variable limit : nat -> bool.

  Lemma split_found_gen l : successive found 0 l ->
    (forall a r r', found a r -> found a r' -> r = r') ->
    forall k, (forall j, j < k -> limit j = true) -> (k < length l -> limit k = false) -> k <= length l ->
    loop (S (length s))
      (fun '(first, out, match_count) =>
         if (first =? length s) || negb (limit match_count) then Ok (inr (out, match_count))
         else
           f <- find s first ;;
           if (fst f =? length s) && (fst f =? snd f) then Ok (inr (out, match_count))
           else Ok (inl (snd f, out ++ [f], S match_count)))
      (0, [], 0) = Ok (firstn k l, k).
  Proof.
    intros Hl Hu k Hk1 Hk2 Hkl. apply holds_eq.
    apply loop_rule with
      (I := fun '(first, out, cnt) => first <= length s /\ cnt <= k /\ out = firstn cnt l /\
              successive found first (skipn cnt l))
      (mu := fun '(first, _, _) => length s - first).
    - intros [[first out] cnt] (Hf & Hc & -> & Hs).
      destruct (Nat.eqb_spec first (length s)) as [->|Hne]; cbn [orb].
      + simpl. inversion Hs as [a Hn E1 E2|a r l0 Hr Hl0]; subst.
        * symmetry in E2. assert (length (skipn cnt l) = 0) by (now rewrite E2). rewrite skipn_length in H.
          assert (cnt = k) by lia. now subst.
        * exfalso. eapply found_end; eauto.
      + destruct (limit cnt) eqn:Hlim; cbn [negb].
        2:{ simpl. destruct (Nat.eq_dec cnt k) as [->|]; auto. rewrite Hk1 in Hlim by lia. discriminate. }
        pose proof (find_ok first Hf) as H. apply holds_ex in H.
        destruct H as (r & E & [Hr|(-> & Hn)]); rewrite E; cbn [bind].
        * pose proof (found_in _ _ Hr).
          destruct (Nat.eqb_spec (fst r) (length s)); [lia|]. cbn [andb holds].
          inversion Hs as [a Hn E1 E2|a r0 l0 Hr0 Hl0 E1 E2]; subst; [exfalso; eapply Hn; eauto|].
          assert (r0 = r) by eauto. subst r0.
          assert (Hnth : nth_error l cnt = Some r).
          { rewrite <- (Nat.add_0_r cnt), <- nth_error_skipn. now rewrite <- E2. }
          assert (cnt < length l) by (eapply nth_error_some_lt; eauto).
          assert (cnt < k).
          { destruct (Nat.eq_dec cnt k) as [->|]; [|lia]. rewrite Hk2 in Hlim by lia. discriminate. }
          split; [|lia]. split; [lia|]. split; [lia|]. split; [symmetry; now apply firstn_S_nth|].
          rewrite (skipn_nth_cons _ _ _ Hnth) in E2. assert (E3 : l0 = skipn (S cnt) l) by congruence. now rewrite <- E3.
        * cbn [fst snd]. rewrite !Nat.eqb_refl. cbn [andb holds].
          inversion Hs as [a Hn2 E1 E2|a r l0 Hr Hl0]; subst.
          -- assert (length (skipn cnt l) = 0) by (now rewrite <- E2). rewrite skipn_length in H.
             assert (cnt = k) by lia. now subst.
          -- exfalso. eapply Hn; eauto.
    - repeat split; auto; lia.
    - lia.
  Qed.
End SplitFound.

Lemma split_found_ok {A} (s : list A) find (found : nat -> nat * nat -> Prop) :
  (forall a, a <= length s ->
    holds (find s a) (fun r => found a r \/ (r = (length s, length s) /\ forall r', ~ found a r'))) ->
  (forall a r, found a r -> a <= fst r /\ fst r < snd r <= length s) ->
  (forall a r r', found a r -> found a r' -> r = r') ->
  exists l, successive found 0 l /\ split_found find s = Ok (l, length l).
Proof.
  intros H1 H2 H3. destruct (found_list s find found H1 H2 (length s) 0) as (l & Hl); try lia.
  exists l. split; auto. unfold split_found.
  pose proof (split_found_gen s find found H1 H2 (fun _ => true) l Hl H3 (length l)) as H.
  rewrite firstn_all in H. rewrite <- H; auto; [|intros; lia].
  apply loop_ext. intros [[f o] m]. cbn [negb]. now rewrite orb_false_r.
Qed.

Lemma split_found_n_ok {A} (s : list A) find (found : nat -> nat * nat -> Prop) n :
  (forall a, a <= length s ->
    holds (find s a) (fun r => found a r \/ (r = (length s, length s) /\ forall r', ~ found a r'))) ->
  (forall a r, found a r -> a <= fst r /\ fst r < snd r <= length s) ->
  (forall a r r', found a r -> found a r' -> r = r') ->
  exists l, successive found 0 l /\
    split_found_n find (N.of_nat n) s = Ok (firstn (S n) l, Nat.min (S n) (length l)).
Proof.
  intros H1 H2 H3. destruct (found_list s find found H1 H2 (length s) 0) as (l & Hl); try lia.
  exists l. split; auto. unfold split_found_n.
  pose proof (split_found_gen s find found H1 H2 (fun m => (N.of_nat m <=? N.of_nat n)%N) l Hl H3
    (Nat.min (S n) (length l))) as H.
  rewrite H.
  - f_equal. f_equal. destruct (Nat.min_spec (S n) (length l)) as [[? ->]|[? ->]]; auto.
    rewrite firstn_all. now rewrite (firstn_all2 (n := S n)) by lia.
  - intros j Hj. apply N.leb_le. lia.
  - intros Hj. apply N.leb_gt. lia.
  - lia.
Qed.

Lemma first_window_in {A} (p : A -> bool) s n a r : 1 <= n -> first_window p s n a r ->
  a <= fst r /\ fst r < snd r <= length s.
Proof.
  intros Hn (H1 & H2 & H3 & _). apply (window_le p) in H3; lia.
Qed.

Lemma first_run_in {A} (p : A -> bool) s n a r : first_run p s n a r ->
  a <= fst r /\ fst r < snd r <= length s.
Proof.
  intros ((H1 & H2 & H3 & _) & _). apply (window_le p) in H3; lia.
Qed.

Lemma find_n_values_ok {A} m (p : A -> bool) n s a : 1 <= n -> a <= length s -> (N.of_nat (length s) < 2 ^ 31)%N ->
  holds (find_n_values (N.of_nat n) m p s a) (fun r =>
    first_found m p s n a r \/ (r = (length s, length s) /\ forall r', ~ first_found m p s n a r')).
Proof.
  intros Hn Ha Hl. destruct m; cbn [find_n_values first_found].
  - apply find_exactly_ok; auto; lia.
  - now apply find_atleast_ok.
Qed.

Lemma first_found_in {A} m (p : A -> bool) s n a r : 1 <= n -> first_found m p s n a r ->
  a <= fst r /\ fst r < snd r <= length s.
Proof. destruct m; cbn [first_found]; intros; [eapply first_window_in|eapply first_run_in]; eauto. Qed.

Lemma first_found_unique {A} m (p : A -> bool) s n a r r' :
  first_found m p s n a r -> first_found m p s n a r' -> r = r'.
Proof. destruct m; cbn [first_found]; [apply first_window_unique|apply first_run_unique]. Qed.

(* ---------------- remove and insert ---------------- *)
Lemma remove_inplace_ok ov a x b : (ov = true -> b = []) ->
  remove_inplace ov (a ++ x :: b) (length a) = Ok (a ++ b).
Proof.
  intros Hov. unfold remove_inplace. rewrite !app_length. cbn [length].
  destruct (Nat.leb_spec (length a + S (length b)) (length a)); [lia|].
  unfold memcpy_within. rewrite !app_length. cbn [length].
  replace (length a + S (length b) - length a) with (S (length b)) by lia.
  destruct (Nat.ltb_spec (length a + S (length b) + 1) (length a + S (length b))); [lia|].
  destruct (Nat.ltb_spec (length a + S (length b) + 1) (length a + 1 + S (length b))); [lia|].
  cbn [orb].
  assert (E : ov && (length a <? length a + 1 + S (length b)) && (length a + 1 <? length a + S (length b)) = false).
  { destruct ov; auto. rewrite Hov by auto. cbn [length andb].
    destruct (Nat.ltb_spec (length a + 1) (length a + 1)); [lia|]. apply andb_false_r. }
  rewrite E. cbn [andb bind].
  replace ((a ++ x :: b) ++ [zero]) with (a ++ [x] ++ b ++ [zero]) by now rewrite <- !app_assoc.
  rewrite firstn_app_len.
  replace (skipn (length a + 1) (a ++ [x] ++ b ++ [zero])) with (b ++ [zero]).
  2:{ rewrite app_assoc. replace (length a + 1) with (length (a ++ [x])) by now rewrite app_length.
      now rewrite skipn_app_len. }
  rewrite (firstn_all2 (n := S (length b))) by (rewrite app_length; simpl; lia).
  f_equal. replace (length a + S (length b) - 1) with (length (a ++ b)) by (rewrite app_length; lia).
  rewrite <- app_assoc, !app_assoc, <- app_assoc. apply firstn_app_len.
Qed.

Lemma remove_inplace_ub a x b : b <> [] -> remove_inplace true (a ++ x :: b) (length a) = UB.
Proof.
  intros Hb. unfold remove_inplace. rewrite !app_length. cbn [length].
  destruct (Nat.leb_spec (length a + S (length b)) (length a)); [lia|].
  unfold memcpy_within. rewrite !app_length. cbn [length].
  replace (length a + S (length b) - length a) with (S (length b)) by lia.
  destruct (Nat.ltb_spec (length a + S (length b) + 1) (length a + S (length b))); [lia|].
  destruct (Nat.ltb_spec (length a + S (length b) + 1) (length a + 1 + S (length b))); [lia|].
  cbn [orb andb]. destruct b as [|y b]; [congruence|]. cbn [length].
  destruct (Nat.ltb_spec (length a) (length a + 1 + S (S (length b)))); [|lia].
  destruct (Nat.ltb_spec (length a + 1) (length a + S (S (length b)))); [|lia].
  reflexivity.
Qed.

Lemma insert_inplace_ok ov a b c : (ov = true -> b = []) ->
  insert_inplace ov (a ++ b) (length a) c = Ok (a ++ c :: b).
Proof.
  intros Hov. unfold insert_inplace. cbv zeta. rewrite !app_length. cbn [length].
  destruct (Nat.ltb_spec (length a + length b + 1) (length a)); [lia|].
  unfold memcpy_within. rewrite !app_length. cbn [length].
  replace (length a + length b + 1 - length a) with (S (length b)) by lia.
  destruct (Nat.ltb_spec (length a + length b + 1 + 1) (length a + 1 + S (length b))); [lia|].
  destruct (Nat.ltb_spec (length a + length b + 1 + 1) (length a + S (length b))); [lia|].
  cbn [orb].
  assert (E : ov && (length a + 1 <? length a + S (length b)) = false).
  { destruct ov; auto. rewrite Hov by auto. cbn [length andb].
    destruct (Nat.ltb_spec (length a + 1) (length a + 1)); [lia|]. reflexivity. }
  rewrite E. cbn [andb bind].
  assert (X : firstn (length a + length b + 1)
     (firstn (length a + 1) (((a ++ b) ++ [zero]) ++ [zero]) ++
      firstn (S (length b)) (skipn (length a) (((a ++ b) ++ [zero]) ++ [zero])) ++
      skipn (length a + 1 + S (length b)) (((a ++ b) ++ [zero]) ++ [zero])) =
     firstn (length a + 1) (((a ++ b) ++ [zero]) ++ [zero]) ++ b).
  { assert (Y : firstn (S (length b)) (skipn (length a) (((a ++ b) ++ [zero]) ++ [zero])) = b ++ [zero]).
    { rewrite <- !app_assoc, skipn_app_len, app_assoc.
      replace (S (length b)) with (length (b ++ [zero])) by (rewrite app_length; simpl; lia).
      apply firstn_app_len. }
    rewrite Y.
    set (h := firstn (length a + 1) _).
    assert (Hh : length h = length a + 1).
    { unfold h. rewrite firstn_length, !app_length. simpl. lia. }
    replace (length a + length b + 1) with (length (h ++ b)) by (rewrite app_length; lia).
    rewrite <- app_assoc, app_assoc. apply firstn_app_len. }
  rewrite X.
  assert (Hh : exists y, firstn (length a + 1) (((a ++ b) ++ [zero]) ++ [zero]) = a ++ [y]).
  { exists (nth 0 (b ++ [zero]) zero). rewrite <- !app_assoc.
    destruct b as [|z b]; cbn [app nth].
    - change [zero; zero] with ([zero] ++ [zero]). rewrite app_assoc.
      replace (length a + 1) with (length (a ++ [zero])) by now rewrite app_length.
      apply firstn_app_len.
    - change (z :: b ++ [zero; zero]) with ([z] ++ b ++ [zero; zero]). rewrite app_assoc.
      replace (length a + 1) with (length (a ++ [z])) by now rewrite app_length.
      apply firstn_app_len. }
  destruct Hh as (y & ->). rewrite !app_length. cbn [length].
  destruct (Nat.ltb_spec (length a) (length a + 1 + length b)); [|lia].
  rewrite <- app_assoc. cbn [app]. apply wr_here.
Qed.

Lemma insert_inplace_ub a b c : b <> [] -> insert_inplace true (a ++ b) (length a) c = UB.
Proof.
  intros Hb. unfold insert_inplace. cbv zeta. rewrite !app_length. cbn [length].
  destruct (Nat.ltb_spec (length a + length b + 1) (length a)); [lia|].
  unfold memcpy_within. rewrite !app_length. cbn [length].
  replace (length a + length b + 1 - length a) with (S (length b)) by lia.
  destruct (Nat.ltb_spec (length a + length b + 1 + 1) (length a + 1 + S (length b))); [lia|].
  destruct (Nat.ltb_spec (length a + length b + 1 + 1) (length a + S (length b))); [lia|].
  cbn [orb andb]. destruct b as [|y b]; [congruence|]. cbn [length].
  destruct (Nat.ltb_spec (length a + 1) (length a + S (S (length b)))); [|lia].
  destruct (Nat.ltb_spec (length a) (length a + 1 + S (S (length b)))); [|lia].
  reflexivity.
Qed.

Lemma insert_beyond_ub ov s i c : length s < i -> c <> zero -> insert_inplace ov s i c = UB.
Proof.
  intros Hi Hc. unfold insert_inplace. cbv zeta. rewrite !app_length. cbn [length].
  destruct (Nat.ltb_spec (length s + 1) i); [reflexivity|].
  assert (i = length s + 1) by lia. subst i. rewrite Nat.sub_diag.
  unfold memcpy_within. rewrite !app_length. cbn [length].
  destruct (Nat.ltb_spec (length s + 1 + 1) (length s + 1 + 1 + 0)); [lia|].
  destruct (Nat.ltb_spec (length s + 1 + 1) (length s + 1 + 0)); [lia|].
  cbn [orb Nat.eqb negb]. rewrite andb_false_r. cbn [bind].
  match goal with |- context [firstn (length s + 1) ?l] => set (t := firstn (length s + 1) l) end.
  assert (length t <= length s + 1) by (unfold t; rewrite firstn_length; lia).
  destruct (Nat.ltb_spec (length s + 1) (length t)); [lia|].
  destruct (Ascii.eqb_spec c zero); [congruence|reflexivity].
Qed.

(* ---------------- field checkers ---------------- *)
Lemma std_equal_eqb a b : length b = length a ->
  std_equal (fun c d => Ok (Ascii.eqb c d)) a b = Ok true <-> a = b.
Proof.
  intros Hl. unfold std_equal.
  assert (H : holds (loop (S (length a))
    (fun i => if i =? length a then Ok (inr true)
              else x <- rd a i ;; y <- rd b i ;; r <- Ok (Ascii.eqb x y) ;;
                   if r : bool then Ok (inl (S i)) else Ok (inr false)) 0) (fun r => r = true <-> a = b)).
  { apply loop_rule with (I := fun i => i <= length a /\ firstn i a = firstn i b) (mu := fun i => length a - i).
    - intros i (Hi & He). destruct (Nat.eqb_spec i (length a)) as [->|Hne].
      + simpl. split; auto. intros _. rewrite firstn_all in He. rewrite <- Hl, firstn_all in He. exact He.
      + destruct (rd_ok a i ltac:(lia)) as (x & E & N). destruct (rd_ok b i ltac:(lia)) as (y & E' & N').
        rewrite E, E'. cbn [bind]. destruct (Ascii.eqb_spec x y) as [->|Hxy]; cbn [holds].
        * split; [|lia]. split; [lia|]. rewrite (firstn_S_nth _ _ _ N), (firstn_S_nth _ _ _ N'). now rewrite He.
        * split; [discriminate|]. intros ->. congruence.
    - split; [lia|reflexivity].
    - lia. }
  apply holds_ex in H. destruct H as (r & -> & Hr). rewrite <- Hr. split; congruence.
Qed.

Lemma expect_ok s x t : exists b, expect s x t = Ok (b, t) /\ (b = true <-> x = s).
Proof.
  unfold expect. destruct (Nat.eqb_spec (length x) (length s)) as [Hl|Hl]; cbn [negb].
  2:{ exists false. split; auto. split; [discriminate|]. intros ->. congruence. }
  pose proof (std_equal_eqb s x Hl) as H.
  destruct (std_equal (fun c d => Ok (Ascii.eqb c d)) s x) as [b| |] eqn:E.
  - exists b. split; auto. split.
    + intros ->. symmetry. now apply H.
    + intros ->. assert (Ok b = Ok true) by now apply H. congruence.
  - exfalso. assert (X : holds (std_equal (fun c d => Ok (Ascii.eqb c d)) s x) (fun _ => True)).
    { unfold std_equal. apply loop_rule with (I := fun i => i <= length s) (mu := fun i => length s - i); try lia.
      intros i Hi. destruct (Nat.eqb_spec i (length s)); [simpl; auto|].
      destruct (rd_ok s i ltac:(lia)) as (u & Eu & _). destruct (rd_ok x i ltac:(lia)) as (v & Ev & _).
      rewrite Eu, Ev. cbn [bind]. destruct (Ascii.eqb u v); simpl; auto; lia. }
    rewrite E in X. exact X.
  - exfalso. assert (X : holds (std_equal (fun c d => Ok (Ascii.eqb c d)) s x) (fun _ => True)).
    { unfold std_equal. apply loop_rule with (I := fun i => i <= length s) (mu := fun i => length s - i); try lia.
      intros i Hi. destruct (Nat.eqb_spec i (length s)); [simpl; auto|].
      destruct (rd_ok s i ltac:(lia)) as (u & Eu & _). destruct (rd_ok x i ltac:(lia)) as (v & Ev & _).
      rewrite Eu, Ev. cbn [bind]. destruct (Ascii.eqb u v); simpl; auto; lia. }
    rewrite E in X. exact X.
Qed.

Lemma iexpect_imatch s x t : iexpect s x t = (b <- imatch s x ;; Ok (b, t)).
Proof.
  unfold iexpect, imatch. destruct (Nat.eqb_spec (length x) (length s)) as [Hl|Hl];
    destruct (Nat.eqb_spec (length s) (length x)) as [Hl'|Hl']; try lia; cbn [negb]; [|reflexivity].
  f_equal. unfold std_equal.
  assert (H : forall f i,
    loop f (fun i => if i =? length s then Ok (inr true)
              else x0 <- rd s i ;; y <- rd x i ;; r <- imatch_char x0 y ;;
                   if r : bool then Ok (inl (S i)) else Ok (inr false)) i =
    loop f (fun '(i1, i2) =>
         if length s =? i1 then Ok (inr true)
         else
           a <- rd s i1 ;; u1 <- toupper_char a ;;
           b <- rd x i2 ;; u2 <- toupper_char b ;;
           if negb (u1 =? u2)%Z then Ok (inr false)
           else Ok (inl (S i1, S i2))) (i, i)).
  { induction f as [|f IH]; intros i; [reflexivity|]. cbn [loop].
    rewrite (Nat.eqb_sym (length s) i). destruct (Nat.eqb_spec i (length s)) as [|Hne]; [reflexivity|].
    destruct (Nat.lt_ge_cases i (length s)) as [Hi|Hi].
    - destruct (rd_ok s i Hi) as (u & Eu & _). destruct (rd_ok x i ltac:(lia)) as (v & Ev & _).
      rewrite Eu, Ev. cbn [bind]. unfold imatch_char.
      destruct (toupper_char u) as [u1| |]; cbn [bind]; auto.
      destruct (toupper_char v) as [v1| |]; cbn [bind]; auto.
      destruct (u1 =? v1)%Z; cbn [negb]; auto.
    - now rewrite (rd_ub s) by lia. }
  apply H.
Qed.
