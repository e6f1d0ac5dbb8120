(* The n-th combination and permutation as the result of n steps. *)
From Verif Require Import Base Comb_Model Comb_Spec Comb_Proofs Comb_Proofs2 Comb_Proofs3 Comb_Proofs5 Comb_Proofs6 Enum_Model Enum_Spec Enum_Proofs Enum_Proofs2 Enum_Proofs3 Jump_Spec.
From Coq Require Import Permutation Sorted.

Lemma sel_map {A B} (f : A -> B) : forall l k, sel k (map f l) = map (fun '(c, r) => (map f c, map f r)) (sel k l).
Proof.
  induction l as [|x l IH]; intros [|k]; try reflexivity.
  cbn [map sel]. rewrite map_app, !IH, !map_map. f_equal; apply map_ext; intros [c r]; reflexivity.
Qed.

Lemma existsb_in i (l : list nat) : existsb (Nat.eqb i) l = true <-> In i l.
Proof. rewrite existsb_exists. split; [intros (x & H & E); apply Nat.eqb_eq in E; now subst|intros H; exists i; rewrite Nat.eqb_refl; auto]. Qed.

Lemma sel_rest : forall (l : list nat) k c r, NoDup l -> In (c, r) (sel k l) -> r = filter (fun i => negb (existsb (Nat.eqb i) c)) l.
Proof.
  induction l as [|x l IH]; intros [|k] c r N H; cbn [sel] in H.
  - destruct H as [H|[]]. now injection H as <- <-.
  - destruct H.
  - destruct H as [H|[]]. injection H as <- <-. cbn [existsb negb]. clear. induction (x :: l) as [|y m IH]; [reflexivity|]. cbn [filter]. now rewrite <- IH.
  - inversion N as [|? ? Nx Nl]; subst. apply in_app_iff in H. rewrite !in_map_iff in H. destruct H as [([c' r'] & E & H)|([c' r'] & E & H)]; injection E as <- <-.
    + rewrite (IH k c' r' Nl H). cbn [filter existsb]. rewrite Nat.eqb_refl. cbn [orb negb]. apply filter_ext_in. intros y Hy.
      cbn [existsb]. destruct (Nat.eqb_spec y x); [subst; contradiction|reflexivity].
    + pose proof (sel_in Nat.ltb _ _ _ _ H) as [_ P]. cbn [filter].
      destruct (existsb (Nat.eqb x) c') eqn:E.
      * apply existsb_in in E. exfalso. apply Nx. eapply Permutation_in; [exact P|]. apply in_app_iff. now left.
      * cbn [negb]. f_equal. exact (IH (S k) c' r' Nl H).
Qed.

(* what nth_combination_sequence writes: the selection and the rest *)
Lemma range_sel {A} fuel st n k (s : list A) c r :
  statics_ok st -> 2 <= k -> k <= length s -> length s + 1 < fuel -> (N.of_nat (length s) < 2 ^ 32)%N ->
  (N.of_nat (length (choices k s)) < 2 ^ 64)%N -> nth_error (sel k s) n = Some (c, r) ->
  exists st', nth_combination_range fuel st (N.of_nat n) (N.of_nat k) s true = Ok (st', c ++ r) /\ statics_ok st'.
Proof.
  intros Hs Hk Hks Hf Hl Hb Hn. destruct s as [|d s'] eqn:Es; [cbn in Hks; lia|]. rewrite <- Es in *. clear Es s'.
  rewrite choices_length in Hb.
  assert (E : sel k s = map (fun '(c, r) => (map (fun p => nth p s d) c, map (fun p => nth p s d) r)) (sel k (seq 0 (length s)))).
  { rewrite <- (map_nth_seq d s) at 1. apply sel_map. }
  rewrite E, nth_error_map in Hn. destruct (nth_error (sel k (seq 0 (length s))) n) as [[ps qs]|] eqn:Ep; [|discriminate]. cbn in Hn. injection Hn as <- <-.
  assert (Hq : qs = others (length s) ps) by (apply (sel_rest _ k); [apply seq_NoDup|eapply nth_error_In; eauto]).
  assert (Hc : nth_error (choices k (seq 0 (length s))) n = Some ps) by (rewrite <- sel_choices, nth_error_map, Ep; reflexivity).
  destruct (nth_comb_range_ok fuel st n k s true ps Hs Hk Hks Hf Hl) as (st' & out & R & Hs' & At); [rewrite choices_length, seq_length; exact Hb|exact Hc|].
  exists st'. split; [|exact Hs']. rewrite R. rewrite (at_map d _ _ _ At), map_app, <- Hq. reflexivity.
Qed.

Section Steps.
Context {T : Type}.
Variable lt : T -> T -> bool.
Hypothesis asym : forall a b, lt a b = true -> lt b a = false.

Lemma sel_steps l k : Comb_Proofs3.sorted lt l -> forall n i c r c' r',
  nth_error (sel k l) i = Some (c, r) -> nth_error (sel k l) (i + n) = Some (c', r') -> stepped (next_combination lt k) n (c ++ r) (c' ++ r').
Proof.
  intros Hs. induction n as [|n IH]; intros i c r c' r' E E'.
  - rewrite Nat.add_0_r in E'. assert (c = c' /\ r = r') as [<- <-] by (split; congruence). constructor.
  - destruct (nth_error (sel k l) (S i)) as [[c2 r2]|] eqn:E2.
    + econstructor; [exact (next_step lt asym l k i c r c2 r2 Hs E E2)|]. apply (IH (S i) c2 r2 c' r' E2). rewrite <- E'. f_equal. lia.
    + exfalso. apply nth_error_None in E2. assert (i + S n < length (sel k l)) by (apply nth_error_Some; congruence). lia.
Qed.

Lemma visit_from l k fuel j c0 r0 : Comb_Proofs3.sorted lt l -> k <= length l -> binom (length l) k < fuel ->
  nth_error (sel k l) j = Some (c0, r0) -> visit_combinations fuel lt k (c0 ++ r0) = Ok (skipn j (choices k l), l).
Proof.
  intros Hs Hk Hf Hj. unfold visit_combinations. apply holds_eq.
  assert (Hlen : length (choices k l) = length (sel k l)) by (rewrite <- sel_choices; apply map_length).
  apply (loop_rule (fun '(s, acc) => exists i c r, j <= i /\ nth_error (sel k l) i = Some (c, r) /\ s = c ++ r /\
             acc = firstn (i - j) (skipn j (choices k l))) (fun '(s, acc) => length (choices k l) - length acc)).
  - intros [s acc] (i & c & r & Hi & En & -> & ->). cbn zeta.
    assert (i < length (sel k l)) as Hil by (apply nth_error_Some; congruence).
    assert (length c = k) as Hlc by (apply nth_error_In in En; apply (sel_in lt) in En; tauto).
    rewrite (sub_prefix c r k Hlc).
    assert (nth_error (skipn j (choices k l)) (i - j) = Some c) as Ec.
    { rewrite nth_error_skipn. replace (j + (i - j)) with i by lia. rewrite <- sel_choices, nth_error_map, En. reflexivity. }
    rewrite <- (firstn_S_nth _ _ _ Ec).
    destruct (nth_error (sel k l) (S i)) as [[c' r']|] eqn:En'.
    + rewrite (next_step lt asym l k i c r c' r' Hs En En'). cbn [bind holds]. split.
      * exists (S i), c', r'. split; [lia|]. split; [exact En'|]. split; [reflexivity|]. f_equal. lia.
      * assert (S i < length (sel k l)) by (apply nth_error_Some; congruence). rewrite !firstn_length, !skipn_length. lia.
    + rewrite (next_end lt asym l k i c r Hs Hk En En'). cbn [bind holds]. apply nth_error_None in En'.
      rewrite firstn_all2 by (rewrite skipn_length; lia). reflexivity.
  - exists j, c0, r0. rewrite Nat.sub_diag. auto.
  - cbn [length]. rewrite choices_length. lia.
Qed.
End Steps.

(* ---------- permutations ---------- *)
Lemma strict_unique {A} (R : A -> A -> Prop) : (forall x, ~ R x x) -> (forall x y z, R x y -> R y z -> R x z) ->
  forall l m, StronglySorted R l -> StronglySorted R m -> (forall x, In x l <-> In x m) -> l = m.
Proof.
  intros Hi Ht. induction l as [|x l IH]; intros [|y m] Sl Sm H; [reflexivity| | |].
  - exfalso. apply (proj2 (H y)). now left.
  - exfalso. apply (proj1 (H x)). now left.
  - inversion Sl as [|? ? Sl' Fl]; inversion Sm as [|? ? Sm' Fm]; subst. rewrite Forall_forall in Fl, Fm.
    assert (x = y).
    { destruct (proj1 (H x) (or_introl eq_refl)) as [->|Hx]; [reflexivity|]. destruct (proj2 (H y) (or_introl eq_refl)) as [->|Hy]; [reflexivity|].
      exfalso. apply (Hi x). exact (Ht _ _ _ (Fl _ Hy) (Fm _ Hx)). }
    subst y. f_equal. apply IH; auto. intros z. split; intros Hz.
    + destruct (proj1 (H z) (or_intror Hz)) as [<-|]; [|assumption]. exfalso. exact (Hi _ (Fl _ Hz)).
    + destruct (proj2 (H z) (or_intror Hz)) as [<-|]; [|assumption]. exfalso. exact (Hi _ (Fm _ Hz)).
Qed.

Lemma nth_sorted {A} (R : A -> A -> Prop) l : (forall i j x y, i < j -> nth_error l i = Some x -> nth_error l j = Some y -> R x y) -> StronglySorted R l.
Proof.
  induction l as [|x l IH]; intros H; [constructor|]. constructor.
  - apply IH. intros i j a b L E1 E2. apply (H (S i) (S j)); auto. lia.
  - apply Forall_forall. intros y Hy. apply In_nth_error in Hy. destruct Hy as (j & Ej). apply (H 0 (S j)); auto. lia.
Qed.

Lemma sorted_nth {A} (R : A -> A -> Prop) l : StronglySorted R l -> forall i j x y, i < j -> nth_error l i = Some x -> nth_error l j = Some y -> R x y.
Proof.
  induction 1 as [|a l S IH F]; intros i j x y L E1 E2; [destruct i; discriminate|]. destruct j as [|j]; [lia|]. cbn in E2. destruct i as [|i].
  - injection E1 as <-. rewrite Forall_forall in F. apply F. eapply nth_error_In; eauto.
  - apply (IH i j); auto. lia.
Qed.

Lemma arrangements_sorted {T} (lt : T -> T -> bool) (s : list T) : StronglySorted (less lt) s -> StronglySorted (lex (less lt)) (arrangements (length s) s).
Proof.
  intros Hs. destruct s as [|d s'] eqn:Es; [repeat constructor|]. rewrite <- Es in *. clear Es s'.
  assert (E : arrangements (length s) s = map (map (fun p => nth p s d)) (arrangements (length s) (seq 0 (length s)))) by (rewrite <- arr_map, map_nth_seq; reflexivity).
  rewrite E. apply nth_sorted. intros i j x y L Hx Hy. rewrite nth_error_map in Hx, Hy.
  destruct (nth_error _ i) as [p|] eqn:Ep; [|discriminate]. destruct (nth_error _ j) as [q|] eqn:Eq; [|discriminate]. cbn in Hx, Hy. injection Hx as <-. injection Hy as <-.
  assert (X : lex Peano.lt p q) by (eapply (arr_lex (length s)); eauto; [apply seq_length|apply increasing_seq]).
  assert (Bp : forall a, In a p -> a < length s).
  { intros a Ha. apply nth_error_In, arr_in in Ep; [|apply seq_length]. apply (Permutation_in _ Ep) in Ha. apply in_seq in Ha. lia. }
  assert (Bq : forall a, In a q -> a < length s).
  { intros a Ha. apply nth_error_In, arr_in in Eq; [|apply seq_length]. apply (Permutation_in _ Eq) in Ha. apply in_seq in Ha. lia. }
  clear Ep Eq L E. induction X as [y l|x y l l' H|x l l' X IH]; cbn [map].
  - apply lex_nil.
  - apply lex_lt. apply (sorted_nth _ _ Hs x y); auto; apply nth_error_nth'; [apply Bp|apply Bq]; now left.
  - apply lex_eq. apply IH; intros a Ha; [apply Bp|apply Bq]; now right.
Qed.

Lemma ascends {T} (lt : T -> T -> bool) (s : list T) : total_order lt -> StronglySorted (less lt) s -> ascending lt s.
Proof.
  intros Ho. induction 1 as [|x l S IH F]; constructor; [exact IH|]. eapply Forall_impl; [|exact F]. cbn. intros y L.
  destruct (lt y x) eqn:E; [|reflexivity]. destruct Ho as (I & Tr & _). pose proof (Tr _ _ _ L E) as X. rewrite I in X. discriminate.
Qed.

Lemma permutations_are {T} (lt : T -> T -> bool) (s : list T) ps : total_order lt -> StronglySorted (less lt) s ->
  permutations_from lt s ps -> ps = arrangements (length s) s.
Proof.
  intros Ho Hs (S1 & H). apply (strict_unique (lex (less lt))); auto using arrangements_sorted.
  - apply lex_irrefl. intros x. unfold less. rewrite (proj1 Ho). discriminate.
  - intros x y z. apply (lex_trans lt Ho).
  - intros p. rewrite H, arr_in by reflexivity. split; [tauto|]. intros P. split; [exact P|].
    apply (ascending_min lt Ho); [|exact P]. apply ascends; auto.
Qed.

(* n steps of next_permutation from the sorted sequence *)
Lemma perm_steps {T} (lt : T -> T -> bool) (s : list T) : total_order lt -> StronglySorted (less lt) s -> forall n p,
  nth_error (arrangements (length s) s) n = Some p -> stepped (next_permutation lt) n s p.
Proof.
  intros Ho Hs.
  set (ps := arrangements (length s) s). pose proof (arrangements_sorted lt s Hs) as Sp. fold ps in Sp.
  assert (K : forall n i p q, nth_error ps i = Some p -> nth_error ps (i + n) = Some q -> stepped (next_permutation lt) n p q).
  { induction n as [|n IH]; intros i p q Ep Eq.
    - rewrite Nat.add_0_r in Eq. assert (p = q) as <- by congruence. constructor.
    - destruct (nth_error ps (S i)) as [p'|] eqn:Ep'.
      2:{ exfalso. apply nth_error_None in Ep'. assert (i + S n < length ps) by (apply nth_error_Some; congruence). lia. }
      assert (P : forall r, In r ps <-> Permutation r s) by (intros r; apply arr_in; reflexivity).
      assert (Pp : Permutation p s) by (apply P; eapply nth_error_In; eauto).
      assert (Pp' : Permutation p' s) by (apply P; eapply nth_error_In; eauto).
      assert (L : lex (less lt) p p') by (apply (sorted_nth _ _ Sp i (S i)); auto).
      econstructor; [|apply (IH (S i) p' q Ep'); rewrite <- Eq; f_equal; lia].
      pose proof (next_ok lt Ho p) as H. destruct (next_permutation lt p) as [[r b]| |]; cbn [holds] in H; try contradiction.
      destruct b.
      + destruct H as (P0 & a & D1 & b & D2 & Es & Er & D & Hab & H2).
        pose proof (successor lt Ho P0 a D1 b D2 D Hab H2) as Su. cbv zeta in Su. rewrite <- Es, <- Er in Su. destruct Su as (Pr & Lr & Sr).
        destruct (Sr p' (perm_trans Pp' (Permutation_sym Pp)) L) as [->|Lt]; [reflexivity|]. exfalso.
        assert (Hr : In r ps) by (apply P; rewrite Pr; exact Pp). apply In_nth_error in Hr. destruct Hr as (j & Ej).
        assert (Irr : forall x, ~ lex (less lt) x x) by (apply lex_irrefl; intros x; unfold less; rewrite (proj1 Ho); discriminate).
        destruct (lt_eq_lt_dec j i) as [[Hj|Hj]|Hj].
        * apply (Irr r). eapply (lex_trans lt Ho); [apply (sorted_nth _ _ Sp j i _ _ Hj Ej Ep)|exact Lr].
        * subst j. assert (X : p = r) by congruence. rewrite <- X in Lr. exact (Irr _ Lr).
        * destruct (Nat.eq_dec j (S i)) as [->|Hj'].
          -- assert (X : p' = r) by congruence. rewrite <- X in Lt. exact (Irr _ Lt).
          -- apply (Irr r). eapply (lex_trans lt Ho); [exact Lt|apply (sorted_nth _ _ Sp (S i) j); auto; lia].
      + destruct H as (D & _). exfalso. exact (descending_max lt Ho p D p' (perm_trans Pp' (Permutation_sym Pp)) L).
  }
  intros n p E. apply (K n 0); [|exact E].
  assert (Hi : In s ps) by (apply arr_in; reflexivity). apply In_nth_error in Hi. destruct Hi as ([|j] & Ej); [exact Ej|].
  exfalso. destruct (nth_error ps 0) as [q|] eqn:E0.
  - pose proof (sorted_nth _ _ Sp 0 (S j) _ _ ltac:(lia) E0 Ej) as L.
    assert (Irr : forall x, ~ lex (less lt) x x) by (apply lex_irrefl; intros x; unfold less; rewrite (proj1 Ho); discriminate).
    destruct (ascending_min lt Ho s (ascends lt s Ho Hs) q) as [->|L2].
    + apply nth_error_In in E0. apply arr_in in E0; [exact E0|reflexivity].
    + exact (Irr _ L).
    + apply (Irr q). exact (lex_trans lt Ho _ _ _ L L2).
  - apply nth_error_None in E0. destruct ps; [destruct j; discriminate|cbn in E0; lia].
Qed.
