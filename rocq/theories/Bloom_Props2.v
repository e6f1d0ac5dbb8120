(* C25 (scans over several keys) and C80 (the salts). *)
From Verif Require Import Base Bloom_Model Bloom_Spec Bloom_Proofs Bloom_Props.
Open Scope N_scope.

(* contains_all stops at the first key that is not contained, contains_none at the first that is. *)
Lemma scan_ok : forall f want ks, (forall k, exists b, contains f k = Ok b) -> forall i,
  exists n, contains_scan f want ks i = Ok (i + n)%nat /\ (n <= length ks)%nat /\
    (forall j k, (j < n)%nat -> nth_error ks j = Some k -> contains f k = Ok want) /\
    (forall k, nth_error ks n = Some k -> contains f k = Ok (negb want)).
Proof.
  intros f want ks Ht. induction ks as [|k ks IH]; intros i; cbn [contains_scan].
  - exists O. split; [f_equal; lia|]. split; [cbn; lia|]. split; [intros j k Hj; lia|]. intros k Hk. discriminate.
  - destruct (Ht k) as [b Eb]. rewrite Eb. cbn [bind]. destruct (Bool.eqb b want) eqn:Ew.
    + apply eqb_prop in Ew. subst b. destruct (IH (S i)) as (n & E & Hn & H1 & H2). exists (S n).
      split; [rewrite E; f_equal; lia|]. split; [cbn; lia|]. split.
      * intros [|j] k' Hj Hk; cbn in Hk; [congruence|]. apply (H1 j); [lia|exact Hk].
      * intros k' Hk. cbn in Hk. auto.
    + exists O. split; [f_equal; lia|]. split; [cbn; lia|]. split; [intros j k' Hj; lia|].
      intros k' Hk. cbn in Hk. assert (k' = k) by congruence. subst k'. rewrite Eb. f_equal.
      destruct b, want; cbn in *; congruence.
Qed.

Theorem C25_scans : forall fuel rnd prm f0, new_filter fuel rnd prm = Ok f0 -> good_size (table_size prm) ->
  forall p ks, exists f a n, run f0 p = Ok f /\ contains_all f ks = Ok a /\ contains_none f ks = Ok n /\
    ((a <= length ks)%nat /\
     (forall j k, (j < a)%nat -> nth_error ks j = Some k -> contains f k = Ok true) /\
     (forall k, nth_error ks a = Some k -> contains f k = Ok false)) /\
    ((n <= length ks)%nat /\
     (forall j k, (j < n)%nat -> nth_error ks j = Some k -> contains f k = Ok false) /\
     (forall k, nth_error ks n = Some k -> contains f k = Ok true)).
Proof.
  intros fuel rnd prm f0 E Hg p ks. destruct (C25_exact fuel rnd prm f0 E Hg) as (ps & _ & H).
  destruct (H p) as (f & Er & _ & Hc).
  assert (Ht : forall k, exists b, contains f k = Ok b) by (intros k; rewrite Hc; eauto).
  destruct (scan_ok f true ks Ht 0) as (a & Ea & Ha). destruct (scan_ok f false ks Ht 0) as (n & En & Hn).
  exists f, a, n. split; [exact Er|]. split; [exact Ea|]. split; [exact En|]. split; [exact Ha|exact Hn].
Qed.
Print Assumptions C25_scans.
Example C25_scans_ex :
  (f <- run ex_filter ex_prog ;; contains_all f [str "beta"; str "alpha"; str "gamma"; str "beta"]) = Ok 2%nat /\
  (f <- run ex_filter ex_prog ;; contains_none f [str "gamma"; str "alpha"; str "delta"]) = Ok 1%nat.
Proof. split; vm_compute; reflexivity. Qed.

(* C80: more than 128 hash functions get distinct salts, the further ones not zero; in whatever way
   rand() answers, as long as the search ends. *)
Lemma more_loop : forall fuel rnd count j s r,
  loop fuel (fun st : nat * list N =>
    let '(j, s) := st in
    if (length s <? count)%nat then
      let current := u32 (u32 (rnd (2 * j)%nat) * u32 (rnd (2 * j + 1)%nat)) in
      if current =? 0 then Ok (inl (S j, s))
      else if existsb (N.eqb current) s then Ok (inl (S j, s))
      else Ok (inl (S j, s ++ [current]))
    else Ok (inr s)) (j, s) = Ok r ->
  (length s <= count)%nat -> NoDup s -> ~ In 0 s ->
  (exists t, r = s ++ t) /\ length r = count /\ NoDup r /\ ~ In 0 r.
Proof.
  intros fuel rnd count. induction fuel as [|fuel IH]; intros j s r E Hl Hn Hz.
  - discriminate.
  - cbn [loop] in E. cbv zeta in E. destruct (Nat.ltb_spec (length s) count) as [Hlt|Hge].
    + destruct (N.eqb_spec (u32 (u32 (rnd (2 * j)%nat) * u32 (rnd (2 * j + 1)%nat))) 0) as [E0|E0].
      * apply IH in E; auto.
      * destruct (existsb _ s) eqn:Ex; [apply IH in E; auto|].
        set (c := u32 (u32 (rnd (2 * j)%nat) * u32 (rnd (2 * j + 1)%nat))) in *.
        assert (Hc : ~ In c s).
        { intros Hi. assert (Ht : existsb (N.eqb c) s = true) by (apply existsb_exists; exists c; split; [exact Hi|apply N.eqb_refl]).
          congruence. }
        apply IH in E.
        -- destruct E as ((t & ->) & Hr). split; [|exact Hr]. exists (c :: t). rewrite <- app_assoc. reflexivity.
        -- rewrite app_length. cbn. lia.
        -- apply NoDup_rev in Hn. rewrite <- (rev_involutive (s ++ [c])). apply NoDup_rev. rewrite rev_app_distr. cbn.
           constructor; [|exact Hn]. now rewrite <- in_rev.
        -- rewrite in_app_iff. cbn. intuition congruence.
    + injection E as <-. split; [exists []; symmetry; apply app_nil_r|]. split; [lia|auto].
Qed.

Lemma predef_distinct : NoDup predef_salt /\ ~ In 0 predef_salt.
Proof.
  split.
  - assert (H : (fix nodup (l : list N) := match l with [] => true | x :: r => negb (existsb (N.eqb x) r) && nodup r end)
       predef_salt = true) by (vm_compute; reflexivity).
    revert H. generalize predef_salt. induction l as [|x l IH]; intros H; [constructor|].
    apply andb_prop in H. destruct H as [H1 H2]. constructor; [|auto].
    intros Hi. apply negb_true_iff in H1. assert (Ht : existsb (N.eqb x) l = true); [|congruence].
    apply existsb_exists. exists x. split; [exact Hi|apply N.eqb_refl].
  - intros H. assert (Ht : existsb (N.eqb 0) predef_salt = true).
    { apply existsb_exists. exists 0. split; [exact H|reflexivity]. }
    vm_compute in Ht. discriminate.
Qed.

Theorem C80_distinct : forall fuel rnd prm f0, new_filter fuel rnd prm = Ok f0 ->
  128 < number_of_hashes prm ->
  length (salt f0) = N.to_nat (number_of_hashes prm) /\ NoDup (salt f0) /\ ~ In 0 (salt f0) /\
  firstn 128 (salt f0) = predef_salt.
Proof.
  intros fuel rnd prm f0 E Hk. unfold new_filter, generate_unique_salt in E.
  destruct (N.leb_spec (number_of_hashes prm) 128); [lia|].
  destruct (more_salts _ _ _ _) as [s| |] eqn:Em; try discriminate. cbn [bind] in E. injection E as <-.
  cbn [salt]. destruct predef_distinct as [Hd Hz].
  apply more_loop in Em; auto; [|change (length predef_salt) with 128%nat; lia].
  destruct Em as ((t & ->) & Hl & Hn & H0). repeat split; auto.
Qed.
Print Assumptions C80_distinct.
(* a generator that repeats itself and returns zeros in between *)
Definition some_rand (i : nat) : N := N.of_nat (match (i mod 7)%nat with O => O | r => i / 14 + r end).
Example C80_distinct_ex :
  match new_filter 1000 (fun _ => some_rand) (Params 1 (2 ^ 64 - 1) 1 (2 ^ 32 - 1) 50 42 140 64) with
  | Ok f => skipn 128 (salt f)
  | _ => []
  end = [6; 20; 2; 12; 30; 42; 56; 72; 90; 110; 132; 156].
Proof. vm_compute. reflexivity. Qed.

(* With at most 128 hash functions the user's seed is mixed into the salts and can make them equal:
   two hash functions, one salt. *)
Theorem C80_seed_refuted : exists prm f0, bad_parameters prm = false /\ number_of_hashes prm = 2 /\
  new_filter 0 (fun _ _ => 0) prm = Ok f0 /\ ~ NoDup (salt f0).
Proof.
  exists (Params 1 (2 ^ 64 - 1) 1 (2 ^ 32 - 1) 50 86767019 2 64). eexists.
  split; [vm_compute; reflexivity|]. split; [reflexivity|]. split; [vm_compute; reflexivity|].
  cbn [salt]. intros H. inversion H as [|x l Hx _]. apply Hx. now left.
Qed.
Print Assumptions C80_seed_refuted.
