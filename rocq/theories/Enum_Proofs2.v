(* for_each_combination: the whole functions. *)
From Verif Require Import Base Comb_Model Comb_Spec Comb_Proofs2 Comb_Proofs3 Enum_Model Enum_Spec Enum_Proofs.
From Coq Require Import Permutation Sorted.

Lemma loop_map {S R R'} (g : R -> R') (b1 : S -> outcome (S + R)) (b2 : S -> outcome (S + R')) :
  (forall st, b2 st = x <- b1 st ;; Ok (match x with inl s => inl s | inr r => inr (g r) end)) ->
  forall fuel st, loop fuel b2 st = r <- loop fuel b1 st ;; Ok (g r).
Proof.
  intros H. induction fuel as [|fuel IH]; intros st; [reflexivity|]. cbn [loop]. rewrite H.
  destruct (b1 st) as [[s|r]| |]; cbn [bind]; auto.
Qed.

Section Sim.
Context {T St : Type}.
Variable f : list T -> St -> St.

Lemma combine_sim : forall fuel s first1 last1 d1 first2 last2 d2 d st,
  combine_discontinuous_conditional fuel (fun l st => (f l st, true)) s first1 last1 d1 first2 last2 d2 d st =
  ' (s, st) <- combine_discontinuous fuel f s first1 last1 d1 first2 last2 d2 d st ;; Ok (s, st, true).
Proof.
  induction fuel as [|fuel IH]; intros; [reflexivity|].
  cbn [combine_discontinuous_conditional combine_discontinuous].
  destruct ((d1 =? 0) || (d2 =? 0)); [reflexivity|].
  match goal with |- bind ?a _ = bind (bind ?b _) _ =>
    assert (E : a = x <- b ;; Ok (let '(s, st) := x in (s, st, true))) end.
  { destruct (d1 =? 1).
    - apply (loop_map (fun '(s, st) => (s, st, true))). intros ((s1, st1), i2).
      destruct (i2 =? last2); [reflexivity|]. cbn [negb].
      destruct (iter_swap s1 first1 i2); reflexivity.
    - apply (loop_map (fun '(s, st) => (s, st, true))). intros (((s1, st1), i2), d22).
      destruct (i2 =? last2); [reflexivity|]. rewrite IH.
      destruct (combine_discontinuous fuel f s1 (S first1) last1 (d1 - 1) i2 last2 d22 (d + 1) st1) as [(s2, st2)| |];
        cbn [bind negb]; try reflexivity.
      destruct (iter_swap s2 first1 i2); reflexivity. }
  rewrite E. clear E. match goal with |- bind (bind ?b _) _ = _ => destruct b as [(s1, st1)| |] end; cbn [bind negb]; try reflexivity.
  match goal with |- bind ?b _ = _ => destruct b end; reflexivity.
Qed.

Lemma visit_until_true {X} (g : X -> St -> St) xs st :
  visit_until (fun x st => (g x st, true)) xs st = (visit_all g xs st, None).
Proof. revert st; induction xs as [|x xs IH]; intros st; [reflexivity|]. cbn [visit_until]. rewrite IH. reflexivity. Qed.

End Sim.

Section Whole.
Context {T St : Type}.

Lemma choices_nil (k : nat) : 0 < k -> choices k (@nil T) = [].
Proof. destruct k; [lia|reflexivity]. Qed.

Lemma conditional_ok (f : list T -> St -> St * bool) size s st : N.to_nat size <= length s -> (N.of_nat (length s) < 2 ^ 63)%N ->
  exists s' st', for_each_combination_conditional f size s st = Ok (s', st') /\
    match visit_until f (choices (N.to_nat size) s) st with
    | (st2, None) => st' = st2 /\ s' = s
    | (st2, Some c) => st' = st2 /\ Permutation s' s /\ firstn (N.to_nat size) s' = c
    end.
Proof.
  intros H H63. unfold for_each_combination_conditional.
  replace (as_difference size) with (Z.of_N size) by (unfold as_difference; replace (size <? 2 ^ 63)%N with true by (symmetry; apply N.ltb_lt; lia); reflexivity).
  destruct (Z.ltb_spec (Z.of_nat (length s)) (Z.of_N size)) as [E|_]; [lia|].
  destruct (N.ltb_spec (N.of_nat (length s)) size) as [E|_]; [lia|].
  set (k := N.to_nat size) in *.
  assert (Hs : forall c b st2, f (firstn k s) st = (st2, b) -> choices k s = [firstn k s] -> c = tt ->
     match visit_until f (choices k s) st with
     | (st3, None) => b = true /\ st3 = st2
     | (st3, Some c) => b = false /\ st3 = st2 /\ c = firstn k s
     end).
  { intros _ b st2 E1 E2 _. rewrite E2. cbn [visit_until]. rewrite E1. destruct b; auto. }
  destruct (Nat.eq_dec k 0) as [E0|E0]; [|destruct (Nat.eq_dec k (length s)) as [E1|E1]].
  - assert (Ec : choices k s = [firstn k s]) by (rewrite E0; destruct s; reflexivity).
    cbn [combine_discontinuous_conditional]. replace (k =? 0) with true by (symmetry; apply Nat.eqb_eq; exact E0). cbn [orb].
    unfold bound_range_conditional. unfold sub. cbn [fst snd skipn]. rewrite Nat.sub_0_r.
    destruct (f (firstn k s) st) as (st2, b) eqn:Ef. cbn [bind]. exists s, st2. split; [reflexivity|].
    specialize (Hs tt b st2 eq_refl Ec eq_refl). destruct (visit_until f (choices k s) st) as (st3, [c|]).
    + destruct Hs as (_ & -> & ->). auto.
    + destruct Hs as (_ & ->). auto.
  - assert (Ec : choices k s = [firstn k s]) by (rewrite E1, choices_all, firstn_all; reflexivity).
    cbn [combine_discontinuous_conditional]. replace (length s - k =? 0) with true by (symmetry; apply Nat.eqb_eq; lia).
    rewrite orb_true_r.
    unfold bound_range_conditional. unfold sub. cbn [fst snd skipn]. rewrite Nat.sub_0_r.
    destruct (f (firstn k s) st) as (st2, b) eqn:Ef. cbn [bind]. exists s, st2. split; [reflexivity|].
    specialize (Hs tt b st2 eq_refl Ec eq_refl). destruct (visit_until f (choices k s) st) as (st3, [c|]).
    + destruct Hs as (_ & -> & ->). auto.
    + destruct Hs as (_ & ->). auto.
  - clear Hs.
    pose proof (combine_ok f (S k) [] (firstn k s) [] (skipn k s) 0 st k) as C.
    assert (L1 : length (firstn k s) = k) by (rewrite firstn_length; lia).
    assert (L2 : length (skipn k s) = length s - k) by (rewrite skipn_length; lia).
    rewrite L1, L2 in C. cbn [app length] in C. rewrite firstn_skipn in C.
    replace (k + 0) with k in C by lia. replace (k + (length s - k)) with (length s) in C by lia.
    specialize (C ltac:(lia) ltac:(lia) ltac:(lia) ltac:(lia)). cbn [Nat.eqb] in C.
    rewrite map_id in C. apply holds_ex in C. destruct C as (((s', st'), b) & E & C).
    rewrite E. cbn [bind]. exists s', st'. split; [reflexivity|]. unfold after in C.
    destruct (visit_until f (choices k s) st) as (st2, [c|]).
    + destruct C as (-> & _ & Hp & Hc). auto.
    + destruct C as (-> & _ & ->). auto.
Qed.

Lemma each_ok (f : list T -> St -> St) size s st : N.to_nat size <= length s -> (N.of_nat (length s) < 2 ^ 63)%N ->
  for_each_combination f size s st = Ok (s, visit_all f (choices (N.to_nat size) s) st).
Proof.
  intros H H63.
  destruct (conditional_ok (fun l st => (f l st, true)) size s st H H63) as (s' & st' & E & Hv).
  rewrite visit_until_true in Hv. destruct Hv as (-> & ->).
  unfold for_each_combination_conditional in E. unfold for_each_combination.
  destruct (Z.of_nat (length s) <? as_difference size)%Z eqn:E1.
  { exfalso. unfold as_difference in E1. replace (size <? 2 ^ 63)%N with true in E1 by (symmetry; apply N.ltb_lt; lia). lia. }
  destruct (N.ltb_spec (N.of_nat (length s)) size) as [E2|_]; [lia|].
  change (bound_range_conditional (fun l st => (f l st, true)) (N.to_nat size))
    with (fun (l : list T) (st : St) => (bound_range f (N.to_nat size) l st, true)) in E.
  rewrite combine_sim in E.
  destruct (combine_discontinuous (S (N.to_nat size)) (bound_range f (N.to_nat size)) s 0 (N.to_nat size) (N.to_nat size)
              (N.to_nat size) (length s) (length s - N.to_nat size) 0 st) as [(s1, st1)| |]; cbn [bind] in E; congruence.
Qed.

Lemma too_many (f : list T -> St -> St) size s st : (N.of_nat (length s) < size)%N -> (size < 2 ^ 63)%N ->
  for_each_combination f size s st = Ok (s, st).
Proof.
  intros H1 H2. unfold for_each_combination, as_difference.
  replace (size <? 2 ^ 63)%N with true by (symmetry; apply N.ltb_lt; lia).
  destruct (Z.ltb_spec (Z.of_nat (length s)) (Z.of_N size)); [reflexivity|lia].
Qed.

Lemma too_many_conditional (f : list T -> St -> St * bool) size s st : (N.of_nat (length s) < size)%N -> (size < 2 ^ 63)%N ->
  for_each_combination_conditional f size s st = Ok (s, st).
Proof.
  intros H1 H2. unfold for_each_combination_conditional, as_difference.
  replace (size <? 2 ^ 63)%N with true by (symmetry; apply N.ltb_lt; lia).
  destruct (Z.ltb_spec (Z.of_nat (length s)) (Z.of_N size)); [reflexivity|lia].
Qed.

Lemma huge_size (f : list T -> St -> St) s st : (N.of_nat (length s) < 2 ^ 63)%N ->
  for_each_combination f (2 ^ 64 - 1) s st = UB.
Proof.
  intros H. unfold for_each_combination, as_difference.
  replace (2 ^ 64 - 1 <? 2 ^ 63)%N with false by reflexivity.
  destruct (Z.ltb_spec (Z.of_nat (length s)) (Z.of_N (2 ^ 64 - 1) - 2 ^ 64)) as [E|_]; [lia|].
  destruct (N.ltb_spec (N.of_nat (length s)) (2 ^ 64 - 1)) as [_|E]; [reflexivity|lia].
Qed.

End Whole.
