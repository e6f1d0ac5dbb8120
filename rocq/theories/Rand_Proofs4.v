(* How many sequences of draws give a selection. *)
From Coq Require Import Permutation Factorial.
From Verif Require Import Base Comb_Model Comb_Spec Comb_Proofs Comb_Proofs5 Rand_Spec2 Rand_Proofs.
Local Open Scope nat_scope.

Lemma are_iff {A} n (P Q : A -> Prop) : (forall x, P x <-> Q x) -> there_are n P -> there_are n Q.
Proof. intros H (l & Hn & Hl & Hi). exists l. split; [exact Hn|]. split; [exact Hl|]. intros x. rewrite Hi. apply H. Qed.
Lemma nodup_app {A} (a b : list A) : NoDup a -> NoDup b -> (forall x, In x a -> In x b -> False) -> NoDup (a ++ b).
Proof.
  intros Ha Hb H. induction Ha as [|x a Hx Ha IH]; [exact Hb|]. cbn. constructor.
  - intros Hi. apply in_app_or in Hi. destruct Hi as [Hi|Hi]; [contradiction|]. apply (H x); [now left|exact Hi].
  - apply IH. intros y Hy. apply H. now right.
Qed.
Lemma are_image {A B} n (P : A -> Prop) (f : A -> B) : (forall x y, P x -> P y -> f x = f y -> x = y) -> there_are n P ->
  there_are n (fun y => exists x, P x /\ y = f x).
Proof.
  intros Hf (l & Hn & Hl & Hi). exists (map f l). split; [|split; [now rewrite map_length|]].
  - assert (Hp : forall x, In x l -> P x) by (intros x; apply Hi). clear Hi Hl. induction Hn as [|x l Hx Hn IH]; cbn; constructor.
    + intros H. apply in_map_iff in H as (y & Ey & Hy). apply Hx. rewrite <- (Hf y x); auto; apply Hp; [now right|now left].
    + apply IH. intros y Hy. apply Hp. now right.
  - intros y. rewrite in_map_iff. split; [intros (x & <- & H); exists x; split; [now apply Hi|reflexivity]|intros (x & H & ->); exists x; split; [reflexivity|now apply Hi]].
Qed.
Lemma are_union {A B} n (X : list A) (P : A -> B -> Prop) : NoDup X -> (forall x, In x X -> there_are n (P x)) ->
  (forall x y b, P x b -> P y b -> x = y) -> there_are (length X * n) (fun b => exists x, In x X /\ P x b).
Proof.
  intros HX HP Hd. induction HX as [|x X Hx HX IH].
  - exists []. split; [constructor|]. split; [reflexivity|]. intros b. split; [intros []|intros (x & [] & _)].
  - destruct (HP x (or_introl eq_refl)) as (l & Hn & Hl & Hi). destruct IH as (l2 & Hn2 & Hl2 & Hi2); [intros y Hy; apply HP; now right|].
    exists (l ++ l2). split; [|split].
    + apply nodup_app; auto. intros b H1 H2. apply Hi in H1. apply Hi2 in H2 as (y & Hy & H2). assert (x = y) by (eapply Hd; eauto). subst y. contradiction.
    + rewrite app_length, Hl, Hl2. reflexivity.
    + intros b. rewrite in_app_iff, Hi, Hi2. split; [intros [H|(y & Hy & H)]; [exists x; split; [now left|exact H]|exists y; split; [now right|exact H]]|].
      intros (y & [<-|Hy] & H); [now left|right; eauto].
Qed.

(* the last draw *)
Lemma rising_snoc b m rs r : rising b (S m) (rs ++ [r]) <-> rising b m rs /\ r < b + m.
Proof.
  unfold rising. rewrite app_length. cbn [length]. split.
  - intros (Hl & H). assert (length rs = m) as <- by lia. split; [split; [reflexivity|]|].
    + intros j x Hx. apply H. rewrite nth_error_app1; [exact Hx|]. eapply nth_error_some_lt; eauto.
    + apply H. rewrite nth_error_app2, Nat.sub_diag by lia. reflexivity.
  - intros ((Hl & H) & Hr). split; [lia|]. intros j x Hx. destruct (Nat.lt_ge_cases j m) as [Hj|Hj].
    + rewrite nth_error_app1 in Hx by lia. auto.
    + rewrite nth_error_app2 in Hx by lia. destruct (j - length rs) as [|i] eqn:E; cbn in Hx; [|destruct i; discriminate]. injection Hx as <-. lia.
Qed.
Lemma rising_last b m rs : rising b (S m) rs -> exists rs' r, rs = rs' ++ [r].
Proof. intros (Hl & _). destruct (exists_last (l := rs)) as (rs' & r & E); [destruct rs; [discriminate|congruence]|]. eauto. Qed.
Lemma rising_count m : there_are (fact m) (rising 1 m).
Proof.
  induction m as [|m IH].
  - exists [[]]. split; [repeat constructor; intros []|]. split; [reflexivity|]. intros rs. split.
    + intros [<-|[]]. split; [reflexivity|]. intros [|j] r; discriminate.
    + intros (H & _). apply length_zero_iff_nil in H. left. auto.
  - cbn [fact]. replace (S m * fact m) with (length (seq 0 (S m)) * fact m) by (rewrite seq_length; reflexivity).
    eapply are_iff; [|apply (are_union (fact m) (seq 0 (S m)) (fun r rs => exists rs', rising 1 m rs' /\ rs = rs' ++ [r]))].
    + intros rs. cbv beta. split.
      * intros (r & Hr & rs' & H & ->). apply in_seq in Hr. apply rising_snoc. split; [exact H|lia].
      * intros H. destruct (rising_last _ _ _ H) as (rs' & r & ->). apply rising_snoc in H as [H Hr]. exists r. split; [apply in_seq; lia|]. eauto.
    + apply seq_NoDup.
    + intros r _. apply are_image; [|exact IH]. intros x y _ _ E. apply app_inj_tail in E as [E _]. exact E.
    + intros r r' rs (a & _ & ->) (b & _ & E). apply app_inj_tail in E as [_ E]. exact E.
Qed.

(* the positions held after the draws rs: a draw below k replaces *)
Section Reservoir.
Variable k : nat.
Definition replace_one (t : nat) (ps : list nat) (r : nat) : list nat := if r <? k then upd ps r t else ps.
Fixpoint kept (t : nat) (rs ps : list nat) : list nat :=
  match rs with
  | [] => ps
  | r :: rs => kept (S t) rs (replace_one t ps r)
  end.
Lemma kept_snoc rs r : forall t ps, kept t (rs ++ [r]) ps = replace_one (t + length rs) (kept t rs ps) r.
Proof.
  induction rs as [|r0 rs IH]; intros t ps; cbn [app kept length]; [now rewrite Nat.add_0_r|]. rewrite IH. f_equal. lia.
Qed.
Definition held (rs : list nat) : list nat := kept k rs (seq 0 k).
Lemma held_snoc rs r : held (rs ++ [r]) = if r <? k then upd (held rs) r (k + length rs) else held rs.
Proof. unfold held. now rewrite kept_snoc. Qed.
Lemma held_ok rs : NoDup (held rs) /\ length (held rs) = k /\ forall p, In p (held rs) -> p < k + length rs.
Proof.
  induction rs as [|r rs (Hn & Hl & Hp)] using rev_ind.
  - cbn. split; [apply seq_NoDup|]. split; [apply seq_length|]. intros p H. apply in_seq in H. lia.
  - rewrite held_snoc, app_length. cbn [length]. destruct (Nat.ltb_spec r k) as [H|H].
    + split; [apply nodup_upd; auto; intros Hi; apply Hp in Hi; lia|]. split; [now rewrite upd_length|].
      intros p Hi. apply in_upd_or in Hi. destruct Hi as [Hi|Hi]; [apply Hp in Hi; lia|lia].
    + split; [auto|]. split; [auto|]. intros p Hi. apply Hp in Hi. lia.
Qed.
Lemma upd_perm {A} (l : list A) i (x y : A) : nth_error l i = Some x -> Permutation (y :: l) (x :: upd l i y).
Proof.
  revert i. induction l as [|a l IH]; intros [|i] H; cbn in H; try discriminate.
  - injection H as ->. cbn. apply perm_swap.
  - cbn [upd]. rewrite perm_swap. rewrite (IH i H). apply perm_swap.
Qed.

Lemma held_count m : forall qs, NoDup qs -> length qs = k -> (forall q, In q qs -> q < k + m) ->
  there_are (fact m) (fun rs => rising (S k) m rs /\ Permutation (held rs) qs).
Proof.
  induction m as [|m IH]; intros qs Hn Hl Hq.
  - exists [[]]. split; [repeat constructor; intros []|]. split; [reflexivity|]. intros rs. split.
    + intros [<-|[]]. split; [split; [reflexivity|]; intros [|j] r; discriminate|].
      cbn. symmetry. apply NoDup_Permutation_bis; [exact Hn|rewrite seq_length; lia|]. intros q H. apply in_seq. apply Hq in H. lia.
    + intros ((H & _) & _). apply length_zero_iff_nil in H. left. auto.
  - cbn [fact]. set (t := k + m). destruct (in_dec Nat.eq_dec t qs) as [Ht|Ht].
    + (* the new position is wanted *)
      apply in_split in Ht as (q1 & q2 & Eq). assert (P : Permutation qs (t :: q1 ++ q2)) by (subst qs; symmetry; apply Permutation_middle).
      set (rest := q1 ++ q2) in *. clearbody rest. clear q1 q2 Eq.
      assert (Hn2 : NoDup (t :: rest)) by (eapply Permutation_NoDup; eauto). inversion Hn2 as [|? ? Htr Hnr]; subst.
      assert (Hlr : S (length rest) = length qs) by (rewrite (Permutation_length P); reflexivity).
      assert (Hrt : forall q, In q rest -> q < t). { intros q Hi. assert (q < k + S m) by (apply Hq; eapply Permutation_in; [symmetry; exact P|now right]). assert (q <> t) by congruence. unfold t in *. lia. }
      set (X := filter (fun x => if in_dec Nat.eq_dec x rest then false else true) (seq 0 t)).
      assert (HX : NoDup X) by (apply NoDup_filter, seq_NoDup).
      assert (IX : forall x, In x X <-> x < t /\ ~ In x rest).
      { intros x. unfold X. rewrite filter_In, in_seq. destruct (in_dec Nat.eq_dec x rest); split; intros [H1 H2]; try discriminate; try contradiction; split; auto; lia. }
      assert (LX : length X = S m).
      { assert (PX : Permutation (X ++ rest) (seq 0 t)).
        { apply NoDup_Permutation.
          - apply nodup_app; auto. intros x Hx Hr. apply IX in Hx as [_ Hx]. contradiction.
          - apply seq_NoDup.
          - intros x. rewrite in_app_iff, IX, in_seq. destruct (in_dec Nat.eq_dec x rest) as [H|H]; [specialize (Hrt x H)|]; split; try tauto; lia || (intros; left; split; [lia|assumption]) || idtac.
            intros [[H1 _]|H1]; [lia|contradiction]. }
        apply Permutation_length in PX. rewrite app_length, seq_length in PX. unfold t in PX. lia. }
      replace (S m * fact m) with (length X * fact m) by (rewrite LX; reflexivity).
      eapply are_iff; [|apply (are_union (fact m) X (fun x rs => exists rs', (rising (S k) m rs' /\ Permutation (held rs') (x :: rest)) /\
        exists r, nth_error (held rs') r = Some x /\ rs = rs' ++ [r])); [exact HX| |]].
      * intros rs. cbv beta. split.
        -- intros (x & Hx & rs' & (H & Hp) & r & Er & ->). pose proof (nth_error_some_lt _ _ _ Er) as Hr. destruct (held_ok rs') as (N1 & L1 & B1).
           split; [apply rising_snoc; split; [exact H|lia]|]. rewrite held_snoc. replace (r <? k) with true by (symmetry; apply Nat.ltb_lt; lia).
           replace (k + length rs') with t by (unfold t; destruct H; lia). rewrite P.
           apply (Permutation_cons_inv (a := x)). rewrite <- (upd_perm _ _ _ t Er), Hp. apply perm_swap.
        -- intros (H & Hp). destruct (rising_last _ _ _ H) as (rs' & r & ->). apply rising_snoc in H as [H Hr].
           rewrite held_snoc in Hp. destruct (held_ok rs') as (N1 & L1 & B1). assert (Lr : length rs' = m) by (destruct H; auto). rewrite Lr in *. fold t in Hp, B1.
           destruct (Nat.ltb_spec r k) as [Hrk|Hrk].
           ++ destruct (nth_error (held rs') r) as [x|] eqn:Er; [|apply nth_error_None in Er; lia].
              assert (Hx : Permutation (held rs') (x :: rest)).
              { apply (Permutation_cons_inv (a := t)). rewrite (upd_perm _ _ _ t Er), Hp, P. apply perm_swap. }
              exists x. split; [|exists rs'; split; [auto|]; exists r; auto]. apply IX. split.
              { apply B1. eapply nth_error_In; eauto. }
              { assert (NoDup (x :: rest)) as Hd by (eapply Permutation_NoDup; eauto). now inversion Hd. }
           ++ exfalso. assert (In t (held rs')) as Hi by (eapply Permutation_in; [symmetry; rewrite Hp; exact P|now left]). apply B1 in Hi. lia.
      * intros x Hx. apply IX in Hx as [Hx1 Hx2].
        assert (W : there_are (fact m) (fun rs => rising (S k) m rs /\ Permutation (held rs) (x :: rest))).
        { apply IH; [constructor; auto|cbn; lia|]. intros q [<-|Hi]; [exact Hx1|auto]. }
        set (f := fun rs' : list nat => (fix find (l : list nat) : nat := match l with [] => 0 | a :: l => if Nat.eqb a x then 0 else S (find l) end) (held rs')).
        assert (Hf : forall rs', In x (held rs') -> nth_error (held rs') (f rs') = Some x).
        { intros rs'. unfold f. generalize (held rs') as l. induction l as [|a l IHl]; [intros []|]. intros Hi. destruct (Nat.eqb_spec a x) as [->|Ne]; [reflexivity|].
          cbn [nth_error]. apply IHl. destruct Hi; [congruence|assumption]. }
        eapply are_iff; [|apply (are_image _ _ (fun rs' => rs' ++ [f rs']) ltac:(intros a b _ _ E; apply app_inj_tail in E as [E _]; exact E) W)].
        intros rs. cbv beta. split.
        -- intros (rs' & (H & Hp) & ->). exists rs'. split; [auto|]. exists (f rs'). split; [|reflexivity]. apply Hf. eapply Permutation_in; [symmetry; exact Hp|now left].
        -- intros (rs' & (H & Hp) & r & Er & ->). exists rs'. split; [auto|]. do 2 f_equal. destruct (held_ok rs') as (N1 & _ & _).
           apply (proj1 (NoDup_nth_error (held rs'))); [exact N1|eapply nth_error_some_lt; eauto|]. rewrite Er. symmetry. apply Hf. eapply nth_error_In; eauto.
      * intros x y rs (a & (_ & _) & r & Ex & ->) (b & (_ & _) & r' & Ey & E). apply app_inj_tail in E as [-> ->]. congruence.
    + (* the new position is not wanted *)
      assert (Hq2 : forall q, In q qs -> q < k + m). { intros q Hi. assert (q <> t) by congruence. specialize (Hq q Hi). unfold t in *. lia. }
      specialize (IH qs Hn Hl Hq2). replace (S m * fact m) with (length (seq k (S m)) * fact m) by (rewrite seq_length; reflexivity).
      eapply are_iff; [|apply (are_union (fact m) (seq k (S m)) (fun r rs => exists rs', (rising (S k) m rs' /\ Permutation (held rs') qs) /\ rs = rs' ++ [r])); [apply seq_NoDup| |]].
      * intros rs. cbv beta. split.
        -- intros (r & Hr & rs' & (H & Hp) & ->). apply in_seq in Hr. split; [apply rising_snoc; split; [exact H|lia]|].
           rewrite held_snoc. replace (r <? k) with false by (symmetry; apply Nat.ltb_ge; lia). exact Hp.
        -- intros (H & Hp). destruct (rising_last _ _ _ H) as (rs' & r & ->). apply rising_snoc in H as [H Hr].
           rewrite held_snoc in Hp. assert (Lr : length rs' = m) by (destruct H; auto). destruct (held_ok rs') as (N1 & L1 & B1). rewrite Lr in *. fold t in Hp.
           destruct (Nat.ltb_spec r k) as [Hrk|Hrk].
           ++ exfalso. apply Ht. eapply Permutation_in; [exact Hp|]. apply (nth_error_In _ r). apply nth_error_upd_same. lia.
           ++ exists r. split; [apply in_seq; lia|]. exists rs'. auto.
      * intros r _. apply (are_image _ _ (fun rs' => rs' ++ [r])); [|exact IH]. intros x y _ _ E. apply app_inj_tail in E as [E _]. exact E.
      * intros r r' rs (a & _ & ->) (b & _ & E). apply app_inj_tail in E as [_ E]. exact E.
Qed.
End Reservoir.
