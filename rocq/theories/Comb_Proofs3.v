(* next_combination and the order of choices. *)
From Verif Require Import Base Comb_Model Comb_Spec Comb_Proofs Comb_Proofs2.
From Coq Require Import Permutation Sorted.

Lemma sub_at {T} (p x q : list T) a b : a = length p -> b = length p + length x -> sub (p ++ x ++ q) (a, b) = x.
Proof.
  intros -> ->. unfold sub. cbn [fst snd]. rewrite skipn_app_len.
  replace (length p + length x - length p) with (length x) by lia. apply firstn_app_len.
Qed.

Lemma rotate_app {T} (p x y q : list T) a b c :
  a = length p -> b = length p + length x -> c = length p + length x + length y ->
  rotate (p ++ x ++ y ++ q) a b c = Ok (p ++ y ++ x ++ q).
Proof.
  intros -> -> ->. unfold rotate.
  replace ((length p <=? length p + length x) && (length p + length x <=? length p + length x + length y) &&
           (length p + length x + length y <=? length (p ++ x ++ y ++ q))) with true.
  2:{ symmetry. rewrite !andb_true_iff, !Nat.leb_le, !app_length. lia. }
  f_equal. rewrite firstn_app_len. rewrite (sub_at p x (y ++ q) (length p) (length p + length x)) by lia.
  replace (p ++ x ++ y ++ q) with ((p ++ x) ++ y ++ q) at 1 by (rewrite <- app_assoc; reflexivity).
  rewrite (sub_at (p ++ x) y q (length p + length x) (length p + length x + length y)) by (rewrite app_length; lia).
  replace (p ++ x ++ y ++ q) with ((p ++ x ++ y) ++ q) by (rewrite <- !app_assoc; reflexivity).
  replace (length p + length x + length y) with (length (p ++ x ++ y)) by (rewrite !app_length; lia).
  rewrite skipn_app_len. reflexivity.
Qed.

Section Next.
Context {T : Type}.
Variable lt : T -> T -> bool.

Lemma rd_last (s r : list T) z : rd (s ++ r ++ [z]) (length (s ++ r ++ [z]) - 1) = Ok z.
Proof.
  rewrite app_assoc. apply rd_pos. rewrite !app_length. simpl. lia.
Qed.

(* the search for itr1 *)
Lemma next_shape A a C R1 b R2 rest z :
  rest = R1 ++ b :: R2 -> (exists r0, rest = r0 ++ [z]) ->
  lt a z = true -> (forall c, In c C -> lt c z = false) ->
  lt a b = true -> (forall x, In x R1 -> lt a x = false) ->
  next_combination lt (length (A ++ a :: C)) ((A ++ a :: C) ++ rest) =
  Ok ((A ++ b :: firstn (length C) (R2 ++ C)) ++ R1 ++ a :: skipn (length C) (R2 ++ C), true).
Proof.
  intros Er (r0 & Ez) Haz HC Hab HR. unfold next_combination.
  set (s := (A ++ a :: C) ++ rest). set (k := length (A ++ a :: C)).
  assert (length s = k + length rest) as Hls by (unfold s; apply app_length).
  assert (length rest = length R1 + S (length R2)) as Hlr by (rewrite Er, app_length; reflexivity).
  assert (k = length A + S (length C)) as Hk by (unfold k; rewrite app_length; reflexivity).
  replace ((length s =? 0) || (0 =? k) || (length s =? k) || (length s =? 1)) with false.
  2:{ symmetry. repeat (apply orb_false_intro); apply Nat.eqb_neq; lia. }
  assert (rd s (length s - 1) = Ok z) as Hlast.
  { unfold s. rewrite Ez. apply rd_last. }
  assert (forall x, rd s (length A) = Ok x -> x = a) as Hra.
  { intros x. unfold s. rewrite <- app_assoc. cbn [app]. rewrite rd_pos by reflexivity. congruence. }
  assert (rd s (length A) = Ok a) as Hrda.
  { unfold s. rewrite <- app_assoc. cbn [app]. apply rd_pos. reflexivity. }
  assert (iter_swap s (length A) (k + length R1) = Ok (A ++ b :: C ++ R1 ++ a :: R2)) as Hswap.
  { assert (s = A ++ a :: (C ++ R1) ++ b :: R2) as Es.
    { unfold s. rewrite Er, <- !app_assoc. cbn [app]. rewrite <- ?app_assoc. reflexivity. }
    unfold iter_swap. rewrite Hrda. cbn [bind].
    assert (s = (A ++ a :: C ++ R1) ++ b :: R2) as Es2.
    { rewrite Es, <- !app_assoc. cbn [app]. rewrite <- ?app_assoc. reflexivity. }
    rewrite Es2 at 1. rewrite rd_pos by (rewrite !app_length; cbn [length]; rewrite app_length; lia). cbn [bind].
    rewrite Es. rewrite wr_pos by reflexivity. cbn [bind].
    replace (A ++ b :: (C ++ R1) ++ b :: R2) with ((A ++ b :: C ++ R1) ++ b :: R2) by (rewrite <- !app_assoc; cbn [app]; rewrite <- ?app_assoc; reflexivity).
    rewrite wr_pos by (rewrite !app_length; cbn [length]; rewrite app_length; lia).
    rewrite <- !app_assoc. cbn [app]. rewrite <- ?app_assoc. reflexivity. }
  apply holds_eq.
  apply holds_bind2 with (P := fun r => r = Some ((A ++ b :: firstn (length C) (R2 ++ C)) ++ R1 ++ a :: skipn (length C) (R2 ++ C))).
  2:{ intros r ->. reflexivity. }
  apply (loop_rule (fun i => length A < i <= k) (fun i => i)); [|lia|lia].
  intros i Hi. replace (i =? 0) with false by (symmetry; apply Nat.eqb_neq; lia). cbn zeta.
  destruct (Nat.eq_dec i (S (length A))) as [->|Hne].
  - replace (S (length A) - 1) with (length A) by lia. rewrite Hrda. cbn [bind]. rewrite Hlast. cbn [bind].
    rewrite Haz.
    apply holds_bind2 with (P := fun j => j = k + length R1).
    { apply (loop_rule (fun j => k <= j <= k + length R1) (fun j => k + length R1 - j)); [|lia|lia].
      intros j Hj. cbn [bind].
      destruct (Nat.eq_dec j (k + length R1)) as [->|Hnj].
      - assert (rd s (k + length R1) = Ok b) as ->.
        { unfold s. rewrite Er, app_assoc. apply rd_pos. rewrite app_length. reflexivity. }
        cbn [bind]. rewrite Hab. reflexivity.
      - destruct (nth_error R1 (j - k)) as [x|] eqn:Ex; [|apply nth_error_None in Ex; lia].
        assert (rd s j = Ok x) as ->.
        { unfold s. fold k. rewrite rd_app_r by (fold k; lia). fold k. rewrite Er, rd_app_l by lia. apply rd_nth. exact Ex. }
        cbn [bind]. rewrite (HR x) by (eapply nth_error_In; eauto). cbn. lia. }
    intros j ->. rewrite Hswap. cbn [bind].
    (* first rotation *)
    assert (rotate (A ++ b :: C ++ R1 ++ a :: R2) (S (length A)) (S (k + length R1)) (length s) =
            Ok (A ++ b :: R2 ++ C ++ R1 ++ [a])) as Hrot1.
    { replace (A ++ b :: C ++ R1 ++ a :: R2) with ((A ++ [b]) ++ (C ++ R1 ++ [a]) ++ R2 ++ [])
        by (rewrite app_nil_r, <- !app_assoc; cbn [app]; reflexivity).
      rewrite rotate_app.
      - rewrite app_nil_r, <- !app_assoc. reflexivity.
      - rewrite app_length. simpl. lia.
      - rewrite !app_length. simpl. lia.
      - rewrite !app_length. simpl. lia. }
    rewrite Hrot1. cbn [bind].
    assert (length (R2 ++ C) = length R2 + length C) as Hrc by apply app_length.
    assert (rotate (A ++ b :: R2 ++ C ++ R1 ++ [a]) k (k + (length s - S (k + length R1))) (length s) =
            Ok ((A ++ b :: firstn (length C) (R2 ++ C)) ++ R1 ++ a :: skipn (length C) (R2 ++ C))) as Hrot2.
    { replace (A ++ b :: R2 ++ C ++ R1 ++ [a]) with
        ((A ++ b :: firstn (length C) (R2 ++ C)) ++ skipn (length C) (R2 ++ C) ++ (R1 ++ [a]) ++ []).
      2:{ rewrite app_nil_r, <- !app_assoc. cbn [app]. rewrite (app_assoc (firstn _ _)), firstn_skipn, <- app_assoc. reflexivity. }
      rewrite rotate_app.
      - rewrite app_nil_r, <- !app_assoc. reflexivity.
      - rewrite app_length. cbn [length]. rewrite firstn_length. lia.
      - rewrite app_length. cbn [length]. rewrite firstn_length, skipn_length. lia.
      - rewrite !app_length. cbn [length]. rewrite firstn_length, skipn_length. lia. }
    rewrite Hrot2. reflexivity.
  - destruct (nth_error C (i - 1 - S (length A))) as [c|] eqn:Ec; [|apply nth_error_None in Ec; lia].
    assert (rd s (i - 1) = Ok c) as ->.
    { unfold s. rewrite rd_app_l by (fold k; lia). rewrite rd_app_r by lia.
      apply rd_nth. replace (i - 1 - length A) with (S (i - 1 - S (length A))) by lia. exact Ec. }
    cbn [bind]. rewrite Hlast. cbn [bind]. rewrite (HC c) by (eapply nth_error_In; eauto). cbn. lia.
Qed.

Lemma next_last c rest z : c <> [] -> (exists r0, rest = r0 ++ [z]) -> (forall x, In x c -> lt x z = false) ->
  next_combination lt (length c) (c ++ rest) = Ok (rest ++ c, false).
Proof.
  intros Hc (r0 & Ez) Hall. unfold next_combination.
  assert (0 < length c) by (destruct c; [contradiction|simpl; lia]).
  assert (length rest = S (length r0)) as Hlr by (rewrite Ez, app_length; simpl; lia).
  replace ((length (c ++ rest) =? 0) || (0 =? length c) || (length (c ++ rest) =? length c) || (length (c ++ rest) =? 1)) with false.
  2:{ symmetry. rewrite app_length. repeat (apply orb_false_intro); apply Nat.eqb_neq; lia. }
  apply holds_eq. apply holds_bind2 with (P := fun r => r = None).
  - apply (loop_rule (fun i => i <= length c) (fun i => i)); [|lia|lia].
    intros i Hi. destruct (i =? 0) eqn:E; [reflexivity|]. apply Nat.eqb_neq in E. cbn zeta.
    destruct (nth_error c (i - 1)) as [x|] eqn:Ex; [|apply nth_error_None in Ex; lia].
    rewrite rd_app_l by lia. rewrite (rd_nth _ _ _ Ex). cbn [bind].
    rewrite Ez. rewrite rd_last. cbn [bind]. rewrite (Hall x) by (eapply nth_error_In; eauto). cbn. lia.
  - intros r ->. replace (c ++ rest) with ([] ++ c ++ rest ++ []) by (rewrite app_nil_r; reflexivity).
    rewrite rotate_app; [|reflexivity|reflexivity|rewrite !app_length; simpl; lia].
    cbn [app bind]. rewrite app_nil_r. reflexivity.
Qed.

Lemma next_trivial c rest : c = [] \/ rest = [] -> next_combination lt (length c) (c ++ rest) = Ok (c ++ rest, false).
Proof.
  intros H. unfold next_combination.
  replace ((length (c ++ rest) =? 0) || (0 =? length c) || (length (c ++ rest) =? length c) || (length (c ++ rest) =? 1)) with true; [reflexivity|].
  symmetry. rewrite app_length. destruct H as [->| ->]; cbn [length].
  - destruct (0 + length rest =? 0); reflexivity.
  - rewrite Nat.add_0_r, Nat.eqb_refl. destruct (length c =? 0); destruct (0 =? length c); reflexivity.
Qed.

(* the rightmost element of c that satisfies p *)
Lemma rightmost (p : T -> bool) (c : list T) :
  (forall x, In x c -> p x = false) \/
  exists A a C, c = A ++ a :: C /\ p a = true /\ forall x, In x C -> p x = false.
Proof.
  induction c as [|x c IH]; [left; intros ? []|].
  destruct IH as [Hall|(A & a & C & -> & Ha & HC)].
  - destruct (p x) eqn:E.
    + right. exists [], x, c. auto.
    + left. intros y [->|Hy]; auto.
  - right. exists (x :: A), a, C. auto.
Qed.

Lemma leftmost (p : T -> bool) (r : list T) : (exists x, In x r /\ p x = true) ->
  exists R1 b R2, r = R1 ++ b :: R2 /\ p b = true /\ forall x, In x R1 -> p x = false.
Proof.
  induction r as [|y r IH]; intros (x & Hin & Hp); [destruct Hin|].
  destruct (p y) eqn:E.
  - exists [], y, r. split; [reflexivity|]. split; [auto|intros ? []].
  - destruct Hin as [->|Hin]; [congruence|]. destruct IH as (R1 & b & R2 & -> & Hb & HR); [eauto|].
    exists (y :: R1), b, R2. split; [reflexivity|]. split; auto. intros z [->|Hz]; auto.
Qed.

(* whatever the contents and the comparison: in bounds, and only a rearrangement *)
Lemma next_permutes k s : k <= length s ->
  exists s' b, next_combination lt k s = Ok (s', b) /\ Permutation s' s.
Proof.
  intros Hk. assert (exists c r, s = c ++ r /\ k = length c) as (c & r & -> & ->).
  { exists (firstn k s), (skipn k s). rewrite firstn_skipn, firstn_length. split; [reflexivity|lia]. }
  clear Hk.
  destruct c as [|c0 c']; [|destruct r as [|r0 r']].
  - exists ([] ++ r), false. split; [apply next_trivial; auto|apply Permutation_refl].
  - exists ((c0 :: c') ++ []), false. split; [apply next_trivial; auto|apply Permutation_refl].
  - destruct (@exists_last _ (r0 :: r') ltac:(discriminate)) as (q & z & Ez).
    destruct (rightmost (fun x => lt x z) (c0 :: c')) as [Hall|(A & a & C & Ec & Ha & HC)].
    + exists ((r0 :: r') ++ (c0 :: c')), false. split; [apply next_last with z; eauto; discriminate|].
      apply Permutation_app_comm.
    + destruct (leftmost (fun x => lt a x) (r0 :: r')) as (R1 & b & R2 & Er2 & Hb & HR).
      { exists z. split; auto. rewrite Ez. apply in_or_app. simpl. auto. }
      rewrite Ec. eexists. exists true. split; [apply next_shape with (rest := r0 :: r') (z := z) (b := b); eauto|].
      rewrite Er2. rewrite <- !app_assoc. apply Permutation_app_head. cbn [app].
      transitivity (b :: a :: firstn (length C) (R2 ++ C) ++ R1 ++ skipn (length C) (R2 ++ C)).
      { apply perm_skip. apply Permutation_sym. rewrite app_assoc. rewrite (app_assoc _ R1 (a :: _)). apply Permutation_middle. }
      transitivity (b :: a :: R1 ++ R2 ++ C).
      { do 2 apply perm_skip. rewrite <- (firstn_skipn (length C) (R2 ++ C)) at 3.
        rewrite !app_assoc. apply Permutation_app_tail. apply Permutation_app_comm. }
      transitivity (a :: b :: R1 ++ R2 ++ C); [apply perm_swap|]. apply perm_skip.
      transitivity (R1 ++ b :: R2 ++ C); [apply Permutation_middle|].
      transitivity ((R1 ++ b :: R2) ++ C); [rewrite <- app_assoc; reflexivity|]. apply Permutation_app_comm.
Qed.

(* ---- selections with their complements ---- *)
Fixpoint sel (k : nat) (l : list T) : list (list T * list T) :=
  match k, l with
  | 0, _ => [([], l)]
  | S _, [] => []
  | S k', x :: l' => map (fun '(c, r) => (x :: c, r)) (sel k' l') ++ map (fun '(c, r) => (c, x :: r)) (sel k l')
  end.

Lemma sel_choices : forall l k, map fst (sel k l) = choices k l.
Proof.
  induction l as [|x l IH]; intros [|k]; try reflexivity.
  cbn [sel choices]. rewrite map_app, !map_map. f_equal.
  - rewrite <- IH, map_map. apply map_ext. intros []; reflexivity.
  - rewrite <- IH. apply map_ext. intros []; reflexivity.
Qed.

Lemma choices_length : forall (l : list T) k, length (choices k l) = binom (length l) k.
Proof.
  induction l as [|x l IH]; intros [|k]; try reflexivity.
  cbn [choices length binom]. rewrite app_length, map_length, !IH. reflexivity.
Qed.

Lemma sel_length l k : length (sel k l) = binom (length l) k.
Proof. rewrite <- choices_length, <- sel_choices, map_length. reflexivity. Qed.

Lemma sel_in : forall l k c r, In (c, r) (sel k l) -> length c = k /\ Permutation (c ++ r) l.
Proof.
  induction l as [|x l IH]; intros [|k] c r; cbn [sel].
  - intros [E|[]]. injection E as <- <-. split; [reflexivity|apply Permutation_refl].
  - intros [].
  - intros [E|[]]. injection E as <- <-. split; [reflexivity|apply Permutation_refl].
  - rewrite in_app_iff, !in_map_iff. intros [([c' r'] & E & Hin)|([c' r'] & E & Hin)]; injection E as <- <-; apply IH in Hin; destruct Hin as [Hl Hp].
    + split; [simpl; lia|]. cbn [app]. apply perm_skip. exact Hp.
    + split; [exact Hl|]. apply Permutation_sym. transitivity (x :: c' ++ r'); [apply perm_skip, Permutation_sym; exact Hp|].
      apply Permutation_middle.
Qed.

Definition chain (R : list T * list T -> list T * list T -> Prop) (xs : list (list T * list T)) : Prop :=
  forall i x y, nth_error xs i = Some x -> nth_error xs (S i) = Some y -> R x y.

Lemma chain_app R xs ys : chain R xs -> chain R ys ->
  (forall x y, nth_error xs (length xs - 1) = Some x -> nth_error ys 0 = Some y -> R x y) -> chain R (xs ++ ys).
Proof.
  intros Hx Hy Hb i x y Ex Ey.
  destruct (Nat.lt_ge_cases (S i) (length xs)) as [H1|H1].
  - rewrite nth_error_app1 in Ex, Ey by lia. eapply Hx; eauto.
  - destruct (Nat.lt_ge_cases i (length xs)) as [H2|H2].
    + rewrite nth_error_app1 in Ex by lia. rewrite nth_error_app2 in Ey by lia.
      replace (S i - length xs) with 0 in Ey by lia. apply Hb; auto. replace (length xs - 1) with i by lia. exact Ex.
    + rewrite nth_error_app2 in Ex, Ey by lia. eapply Hy; [exact Ex|]. replace (S (i - length xs)) with (S i - length xs) by lia. exact Ey.
Qed.

Lemma chain_map (R R' : list T * list T -> list T * list T -> Prop) (f : list T * list T -> list T * list T) xs : chain R xs ->
  (forall x y, In x xs -> R x y -> R' (f x) (f y)) -> chain R' (map f xs).
Proof.
  intros Hc Hf i x y Ex Ey. rewrite nth_error_map in Ex, Ey.
  destruct (nth_error xs i) as [a|] eqn:Ea; [|discriminate]. destruct (nth_error xs (S i)) as [b|] eqn:Eb; [|discriminate].
  injection Ex as <-. injection Ey as <-. apply Hf; [eapply nth_error_In; eauto|]. eapply Hc; eauto.
Qed.

Definition nxt (p q : list T * list T) : Prop :=
  exists A a C R1 b R2 r0 z, fst p = A ++ a :: C /\ snd p = R1 ++ b :: R2 /\ snd p = r0 ++ [z] /\
    lt a z = true /\ (forall c, In c C -> lt c z = false) /\ lt a b = true /\ (forall x, In x R1 -> lt a x = false) /\
    fst q = A ++ b :: firstn (length C) (R2 ++ C) /\ snd q = R1 ++ a :: skipn (length C) (R2 ++ C).

Lemma nxt_next p q : nxt p q -> next_combination lt (length (fst p)) (fst p ++ snd p) = Ok (fst q ++ snd q, true).
Proof.
  intros (A & a & C & R1 & b & R2 & r0 & z & Ec & Er & Ez & Haz & HC & Hab & HR & Ec' & Er').
  rewrite Ec, Ec', Er'. apply next_shape with (rest := snd p) (z := z) (b := b); eauto.
Qed.

Hypothesis lt_asym : forall a b, lt a b = true -> lt b a = false.

Definition sorted (l : list T) : Prop := StronglySorted (fun a b => lt a b = true) l.

Lemma sorted_app a b : sorted (a ++ b) -> forall x y, In x a -> In y b -> lt x y = true.
Proof.
  induction a as [|h a IH]; intros Hs x y Hx Hy; [destruct Hx|].
  cbn [app] in Hs. inversion Hs as [|? ? Hs' Hf]; subst. destruct Hx as [->|Hx].
  - rewrite Forall_forall in Hf. apply Hf. apply in_or_app. auto.
  - apply IH; auto.
Qed.

Lemma sel_first l k : k <= length l -> nth_error (sel k l) 0 = Some (firstn k l, skipn k l).
Proof.
  revert k. induction l as [|x l IH]; intros [|k] Hk; try reflexivity; [simpl in Hk; lia|].
  cbn [sel]. simpl in Hk. rewrite nth_error_app1.
  - rewrite nth_error_map, IH by lia. reflexivity.
  - rewrite map_length. apply nth_error_Some. rewrite IH by lia. discriminate.
Qed.

Lemma binom_pos n k : k <= n -> 0 < binom n k.
Proof.
  intros H. pose proof (binom_fact n k H). pose proof (fact_pos n). destruct (binom n k); lia.
Qed.

(* the last selection takes the last k elements *)
Lemma sel_last : forall l k, k <= length l -> exists r c,
  nth_error (sel k l) (length (sel k l) - 1) = Some (c, r) /\ l = r ++ c.
Proof.
  induction l as [|x l IH]; intros [|k] Hk; cbn [sel].
  - exists [], []. auto.
  - simpl in Hk. lia.
  - exists (x :: l), []. rewrite app_nil_r. auto.
  - simpl in Hk. rewrite app_length, !map_length.
    destruct (Nat.eq_dec k (length l)) as [E|Hne].
    + assert (sel (S k) l = []) as Es.
      { apply length_zero_iff_nil. rewrite sel_length. apply binom_big. lia. }
      rewrite Es. cbn [map length]. rewrite app_nil_r, Nat.add_0_r.
      destruct (IH k ltac:(lia)) as (r & c & En & El). rewrite nth_error_map, En. cbn [option_map].
      exists r, (x :: c). split; [reflexivity|].
      assert (length r = 0).
      { apply nth_error_In in En. apply sel_in in En. destruct En as [Hlc _]. apply (f_equal (@length T)) in El. rewrite app_length in El. lia. }
      destruct r; [cbn [app] in *; congruence|simpl in *; lia].
    + destruct (IH (S k) ltac:(lia)) as (r & c & En & El).
      assert (0 < length (sel (S k) l)) as Hp by (rewrite sel_length; apply binom_pos; lia).
      rewrite nth_error_app2 by (rewrite map_length; lia). rewrite map_length.
      replace (length (sel k l) + length (sel (S k) l) - 1 - length (sel k l)) with (length (sel (S k) l) - 1) by lia.
      rewrite nth_error_map, En. cbn [option_map]. exists (x :: r), c. split; [reflexivity|]. cbn [app]. congruence.
Qed.

Lemma sel_chain : forall l k, sorted l -> chain nxt (sel k l).
Proof.
  induction l as [|x l IH]; intros [|k] Hs.
  - intros [|i] a b Ea Eb; simpl in *; try discriminate; destruct i; discriminate.
  - intros [|i] a b Ea Eb; simpl in *; discriminate.
  - intros [|i] a b Ea Eb; simpl in *; try discriminate; destruct i; discriminate.
  - inversion Hs as [|? ? Hs' Hf]; subst. rewrite Forall_forall in Hf. cbn [sel]. apply chain_app.
    + apply chain_map with nxt; [apply IH; auto|].
      intros [c r] [c' r'] _ (A & a & C & R1 & b & R2 & r0 & z & Ec & Er & Ez & Haz & HC & Hab & HR & Ec' & Er').
      cbn [fst snd] in *. exists (x :: A), a, C, R1, b, R2, r0, z. cbn [fst snd app]. repeat split; auto; congruence.
    + apply chain_map with nxt; [apply IH; auto|].
      intros [c r] [c' r'] Hin (A & a & C & R1 & b & R2 & r0 & z & Ec & Er & Ez & Haz & HC & Hab & HR & Ec' & Er').
      cbn [fst snd] in *. exists A, a, C, (x :: R1), b, R2, (x :: r0), z. cbn [fst snd app].
      apply sel_in in Hin. destruct Hin as [_ Hp].
      repeat split; auto; try congruence.
      intros y [<-|Hy]; auto. apply lt_asym. apply Hf. eapply Permutation_in; [exact Hp|].
      apply in_or_app. left. rewrite Ec. apply in_or_app. right. left. reflexivity.
    + intros p q Ep Eq. rewrite map_length in Ep. rewrite nth_error_map in Ep, Eq.
      destruct (nth_error (sel (S k) l) 0) as [[c1 r1]|] eqn:E1; [|discriminate]. injection Eq as <-.
      assert (S k <= length l) as Hk.
      { destruct (Nat.le_gt_cases (S k) (length l)); auto.
        assert (length (sel (S k) l) = 0) as E0 by (rewrite sel_length; apply binom_big; lia).
        apply length_zero_iff_nil in E0. rewrite E0 in E1. discriminate. }
      rewrite sel_first in E1 by auto. injection E1 as <- <-.
      destruct (sel_last l k ltac:(lia)) as (r & c & En & El). rewrite En in Ep. injection Ep as <-.
      assert (length c = k) as Hlc by (apply nth_error_In in En; apply sel_in in En; tauto).
      destruct r as [|b R2]; [exfalso; apply (f_equal (@length T)) in El; simpl in El; lia|].
      destruct (@exists_last _ (b :: R2) ltac:(discriminate)) as (r0 & z & Ez).
      exists [], x, c, [], b, R2, r0, z. cbn [fst snd app].
      assert (forall y, In y l -> lt x y = true) as Hx by exact Hf.
      split; [reflexivity|]. split; [reflexivity|]. split; [exact Ez|]. split.
      { apply Hx. rewrite El, Ez. apply in_or_app. left. apply in_or_app. simpl. auto. }
      split.
      { intros y Hy. apply lt_asym. apply sorted_app with (a := b :: R2) (b := c); [rewrite <- El; auto| |auto].
        rewrite Ez. apply in_or_app. simpl. auto. }
      split; [apply Hx; rewrite El; left; reflexivity|]. split; [intros ? []|].
      rewrite El, Hlc. cbn [app firstn skipn]. auto.
Qed.

Lemma next_step l k i c r c' r' : sorted l ->
  nth_error (sel k l) i = Some (c, r) -> nth_error (sel k l) (S i) = Some (c', r') ->
  next_combination lt k (c ++ r) = Ok (c' ++ r', true).
Proof.
  intros Hs E1 E2. pose proof (sel_chain l k Hs i _ _ E1 E2) as Hn. apply nxt_next in Hn. cbn [fst snd] in Hn.
  apply nth_error_In in E1. apply sel_in in E1. destruct E1 as [<- _]. exact Hn.
Qed.

Lemma next_end l k i c r : sorted l -> k <= length l ->
  nth_error (sel k l) i = Some (c, r) -> nth_error (sel k l) (S i) = None ->
  next_combination lt k (c ++ r) = Ok (l, false).
Proof.
  intros Hs Hk E1 E2. destruct (sel_last l k Hk) as (r1 & c1 & En & El).
  assert (i < length (sel k l)) by (apply nth_error_Some; congruence). apply nth_error_None in E2.
  replace (length (sel k l) - 1) with i in En by lia. rewrite E1 in En. injection En as <- <-.
  assert (length c = k) as <- by (apply nth_error_In in E1; apply sel_in in E1; tauto).
  destruct c as [|c0 c]; [|destruct r as [|r0 r]].
  - rewrite next_trivial by auto. rewrite El, app_nil_r. reflexivity.
  - rewrite next_trivial by auto. rewrite El, app_nil_r. reflexivity.
  - destruct (@exists_last _ (r0 :: r) ltac:(discriminate)) as (q & z & Ez).
    rewrite next_last with (z := z); [rewrite El; reflexivity|discriminate|eauto|].
    intros x Hx. apply lt_asym. apply sorted_app with (a := r0 :: r) (b := c0 :: c); [rewrite <- El; auto| |auto].
    rewrite Ez. apply in_or_app. simpl. auto.
Qed.

Lemma sub_prefix (c r : list T) k : length c = k -> sub (c ++ r) (0, k) = c.
Proof. intros <-. unfold sub. cbn [fst snd skipn]. rewrite Nat.sub_0_r. apply firstn_app_len. Qed.

Lemma visit_ok l k fuel : sorted l -> k <= length l -> binom (length l) k < fuel ->
  visit_combinations fuel lt k l = Ok (choices k l, l).
Proof.
  intros Hs Hk Hf. unfold visit_combinations. apply holds_eq.
  apply (loop_rule (fun '(s, acc) => exists i c r, nth_error (sel k l) i = Some (c, r) /\ s = c ++ r /\
             acc = firstn i (choices k l)) (fun '(s, acc) => length (choices k l) - length acc)).
  - intros [s acc] (i & c & r & En & -> & ->). cbn zeta.
    assert (i < length (sel k l)) as Hi by (apply nth_error_Some; congruence).
    assert (length c = k) as Hlc by (apply nth_error_In in En; apply sel_in in En; tauto).
    rewrite (sub_prefix c r k Hlc).
    assert (nth_error (choices k l) i = Some c) as Ec by (rewrite <- sel_choices, nth_error_map, En; reflexivity).
    assert (length (choices k l) = length (sel k l)) as Hlen by (rewrite <- sel_choices; apply map_length).
    rewrite <- (firstn_S_nth _ _ _ Ec).
    destruct (nth_error (sel k l) (S i)) as [[c' r']|] eqn:En'.
    + rewrite (next_step l k i c r c' r' Hs En En'). cbn [bind holds]. split.
      * exists (S i), c', r'. auto.
      * assert (S i < length (sel k l)) by (apply nth_error_Some; congruence). rewrite !firstn_length. lia.
    + rewrite (next_end l k i c r Hs Hk En En'). cbn [bind holds]. apply nth_error_None in En'.
      rewrite firstn_all2 by lia. reflexivity.
  - exists 0, (firstn k l), (skipn k l). split; [apply sel_first; auto|]. rewrite firstn_skipn. auto.
  - cbn [length]. rewrite choices_length. lia.
Qed.

Lemma ci_visit_ok l k fuel : sorted l -> l <> [] -> k <= length l -> S (binom (length l) k) < fuel ->
  ci_visit fuel lt k l = Ok (choices k l, l).
Proof.
  intros Hs Hne Hk Hf. unfold ci_visit. apply holds_eq.
  assert (0 < length l) as Hll by (destruct l; [contradiction|simpl; lia]).
  apply (loop_rule (fun '(it, s, acc) => length s = length l /\
       ((exists i c r, it = ci_start k /\ nth_error (sel k l) i = Some (c, r) /\ s = c ++ r /\ acc = firstn i (choices k l)) \/
        (it = ci_end s /\ s = l /\ acc = choices k l)))
      (fun '(it, s, acc) => (if ci_begin it =? length l then 0 else 1) + (length (choices k l) - length acc))).
  - intros [[it s] acc] (Hl & [(i & c & r & -> & En & -> & ->)|(-> & -> & ->)]).
    + unfold ci_equal, ci_start, ci_end. cbn [ci_begin ci_middle].
      replace (0 =? length (c ++ r)) with false by (symmetry; apply Nat.eqb_neq; lia). cbn [andb]. cbn zeta.
      assert (i < length (sel k l)) as Hi by (apply nth_error_Some; congruence).
      assert (length c = k) as Hlc by (apply nth_error_In in En; apply sel_in in En; tauto).
      rewrite (sub_prefix c r k Hlc).
      assert (nth_error (choices k l) i = Some c) as Ec by (rewrite <- sel_choices, nth_error_map, En; reflexivity).
      assert (length (choices k l) = length (sel k l)) as Hlen by (rewrite <- sel_choices; apply map_length).
      rewrite <- (firstn_S_nth _ _ _ Ec). unfold ci_next. cbn [ci_begin ci_middle].
      replace (0 =? length (c ++ r)) with false by (symmetry; apply Nat.eqb_neq; lia). cbn [negb].
      replace (0 =? length l) with false by (symmetry; apply Nat.eqb_neq; lia).
      destruct (nth_error (sel k l) (S i)) as [[c' r']|] eqn:En'.
      * rewrite (next_step l k i c r c' r' Hs En En'). cbn [bind negb holds].
        assert (S i < length (sel k l)) by (apply nth_error_Some; congruence). 
        split; [split|].
        -- apply nth_error_In in En'. apply sel_in in En'. destruct En' as [_ Hp]. apply Permutation_length in Hp. exact Hp.
        -- left. exists (S i), c', r'. auto.
        -- cbn [ci_begin]. rewrite !firstn_length. replace (0 =? length l) with false by (symmetry; apply Nat.eqb_neq; lia). lia.
      * rewrite (next_end l k i c r Hs Hk En En'). cbn [bind negb holds]. apply nth_error_None in En'.
        rewrite firstn_all2 by lia. split; [split; auto|].
        unfold ci_end. cbn [ci_begin]. rewrite Nat.eqb_refl. rewrite firstn_length. lia.
    + unfold ci_equal. rewrite !Nat.eqb_refl. reflexivity.
  - split; [reflexivity|]. left. exists 0, (firstn k l), (skipn k l). split; [reflexivity|].
    split; [apply sel_first; auto|]. rewrite firstn_skipn. auto.
  - cbn [length ci_begin ci_start]. rewrite choices_length. destruct (0 =? length l); lia.
Qed.

End Next.

(* ---- what choices lists ---- *)
Lemma subseq_nil_l {A} (l : list A) : subseq [] l.
Proof. induction l; constructor; auto. Qed.

Lemma choices_in {A} : forall (l : list A) k c, In c (choices k l) <-> length c = k /\ subseq c l.
Proof.
  induction l as [|x l IH]; intros [|k] c; cbn [choices].
  - split.
    + intros [<-|[]]. split; [reflexivity|constructor].
    + intros [Hl _]. left. symmetry. apply length_zero_iff_nil. exact Hl.
  - split; [intros []|]. intros [Hl Hs]. inversion Hs; subst. discriminate.
  - split.
    + intros [<-|[]]. split; [reflexivity|apply subseq_nil_l].
    + intros [Hl _]. left. symmetry. apply length_zero_iff_nil. exact Hl.
  - rewrite in_app_iff, in_map_iff, IH. split.
    + intros [(c' & <- & Hin)|[Hl Hs]].
      * apply IH in Hin. destruct Hin as [<- Hs]. split; [reflexivity|]. constructor. exact Hs.
      * split; [exact Hl|]. constructor. exact Hs.
    + intros [Hl Hs]. inversion Hs; subst.
      * left. eexists. split; [reflexivity|]. apply IH. simpl in Hl. split; [lia|auto].
      * right. auto.
Qed.

Lemma subseq_in {A} (c l : list A) x : subseq c l -> In x c -> In x l.
Proof. induction 1; simpl; intuition. Qed.

Lemma choices_lex {A} (R : A -> A -> Prop) : forall (l : list A) k, StronglySorted R l ->
  forall i j p q, i < j -> nth_error (choices k l) i = Some p -> nth_error (choices k l) j = Some q -> lex R p q.
Proof.
  induction l as [|x l IH]; intros [|k] Hs i j p q Hij Hp Hq; cbn [choices] in *.
  - destruct j as [|[|j]]; simpl in Hq; try discriminate; lia.
  - destruct i; discriminate.
  - destruct j as [|[|j]]; simpl in Hq; try discriminate; lia.
  - inversion Hs as [|? ? Hs' Hf]; subst. rewrite Forall_forall in Hf.
    destruct (Nat.lt_ge_cases i (length (choices k l))) as [Hi|Hi].
    + rewrite nth_error_app1 in Hp by (rewrite map_length; auto). rewrite nth_error_map in Hp.
      destruct (nth_error (choices k l) i) as [p'|] eqn:Ep; [|discriminate]. injection Hp as <-.
      destruct (Nat.lt_ge_cases j (length (choices k l))) as [Hj|Hj].
      * rewrite nth_error_app1 in Hq by (rewrite map_length; auto). rewrite nth_error_map in Hq.
        destruct (nth_error (choices k l) j) as [q'|] eqn:Eq; [|discriminate]. injection Hq as <-.
        apply lex_eq. eapply (IH k Hs' i j); eauto.
      * rewrite nth_error_app2 in Hq by (rewrite map_length; auto).
        apply nth_error_In in Hq. apply choices_in in Hq. destruct Hq as [Hl Hsub].
        destruct q as [|y q]; [discriminate|]. apply lex_lt. apply Hf. eapply subseq_in; [exact Hsub|left; auto].
    + rewrite nth_error_app2 in Hp, Hq by (rewrite map_length; lia). rewrite map_length in Hp, Hq.
      eapply (IH (S k) Hs' (i - length (choices k l)) (j - length (choices k l))); eauto. lia.
Qed.
