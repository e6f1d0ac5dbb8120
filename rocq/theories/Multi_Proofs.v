(* next_combination on a sorted range with repeated elements. *)
From Coq Require Import Permutation Sorted.
From Verif Require Import Base Comb_Model Comb_Spec Comb_Proofs Comb_Proofs2 Comb_Proofs3.
Local Open Scope nat_scope.

Section Multi.
Context {T : Type}.
Variable lt : T -> T -> bool.
Hypothesis lt_irrefl : forall a, lt a a = false.
Hypothesis lt_trans : forall a b c, lt a b = true -> lt b c = true -> lt a c = true.
Hypothesis lt_total : forall a b, lt a b = false -> lt b a = false -> a = b.
Let le a b := lt b a = false.
Let R a b := lt a b = true.

Lemma le_trans a b c : le a b -> le b c -> le a c.
Proof.
  unfold le. intros H G. apply not_true_iff_false. intros E. destruct (lt b a) eqn:F; [discriminate|]. destruct (lt a b) eqn:K.
  - rewrite (lt_trans _ _ _ E K) in G. discriminate.
  - rewrite (lt_total _ _ K F) in E. congruence.
Qed.
Lemma lt_le a b : R a b -> le a b.
Proof. unfold R, le. intros H. apply not_true_iff_false. intros E. pose proof (lt_trans _ _ _ H E). rewrite lt_irrefl in *. discriminate. Qed.
Lemma le_refl a : le a a. Proof. apply lt_irrefl. Qed.
Lemma le_cases a b : le a b -> a = b \/ R a b.
Proof. unfold le, R. intros H. destruct (lt a b) eqn:E; [auto|]. left. now apply lt_total. Qed.
Lemma lt_le_trans a b c : R a b -> le b c -> R a c.
Proof. intros H G. destruct (le_cases _ _ G) as [<-|K]; [exact H|]. eapply lt_trans; eassumption. Qed.
Lemma le_lt_trans a b c : le a b -> R b c -> R a c.
Proof. intros H G. destruct (le_cases _ _ H) as [->|K]; [exact G|]. eapply lt_trans; eassumption. Qed.

Lemma filter_perm (f : T -> bool) l l' : Permutation l l' -> Permutation (filter f l) (filter f l').
Proof.
  induction 1 as [|x l l' H IH|x y l|l l' l'' H IH G IH2]; cbn [filter]; auto.
  - destruct (f x); auto.
  - destruct (f x), (f y); auto. constructor.
  - eapply perm_trans; eauto.
Qed.
Lemma filter_all (f : T -> bool) l : (forall x, In x l -> f x = true) -> filter f l = l.
Proof. induction l as [|x l IH]; intros H; [reflexivity|]. cbn [filter]. rewrite (H x) by now left. f_equal. apply IH. intros y Hy. apply H. now right. Qed.
Lemma filter_none (f : T -> bool) l : (forall x, In x l -> f x = false) -> filter f l = [].
Proof. induction l as [|x l IH]; intros H; [reflexivity|]. cbn [filter]. rewrite (H x) by now left. apply IH. intros y Hy. apply H. now right. Qed.

Lemma sorted_app l l' : StronglySorted le l -> StronglySorted le l' -> (forall x y, In x l -> In y l' -> le x y) -> StronglySorted le (l ++ l').
Proof.
  induction l as [|x l IH]; intros Hl Hl' H; [exact Hl'|]. inversion Hl as [|? ? Hs Hf]; subst. cbn [app]. constructor.
  - apply IH; auto. intros a b Ha Hb. apply H; [now right|exact Hb].
  - apply Forall_app. split; [exact Hf|]. apply Forall_forall. intros y Hy. apply H; [now left|exact Hy].
Qed.
Lemma sorted_parts l l' : StronglySorted le (l ++ l') -> StronglySorted le l /\ StronglySorted le l' /\ (forall x y, In x l -> In y l' -> le x y).
Proof.
  induction l as [|x l IH]; cbn [app]; intros H; [split; [constructor|]; split; [exact H|intros ? ? []]|]. inversion H as [|? ? Hs Hf]; subst.
  destruct (IH Hs) as (A & B & C). apply Forall_app in Hf as [F G]. split; [constructor; auto|]. split; [exact B|].
  intros a b [<-|Ha] Hb; [|auto]. rewrite Forall_forall in G. auto.
Qed.
Lemma sorted_unique l : forall l', StronglySorted le l -> StronglySorted le l' -> Permutation l l' -> l = l'.
Proof.
  induction l as [|x l IH]; intros l' H H' P; [symmetry; now apply Permutation_nil|]. destruct l' as [|y l']; [apply Permutation_sym, Permutation_nil in P; discriminate|].
  inversion H as [|? ? Hs Hf]; subst. inversion H' as [|? ? Hs' Hf']; subst. rewrite Forall_forall in Hf, Hf'.
  assert (x = y) as <-.
  { assert (Hx : In x (y :: l')) by (eapply Permutation_in; [exact P|now left]). assert (Hy : In y (x :: l)) by (eapply Permutation_in; [apply Permutation_sym, P|now left]).
    destruct Hx as [->|Hx]; [reflexivity|]. destruct Hy as [->|Hy]; [reflexivity|]. apply lt_total; [apply (Hf' x Hx)|apply (Hf y Hy)]. }
  f_equal. apply IH; auto. eapply Permutation_cons_inv; eassumption.
Qed.

(* the first elements are the smallest choice *)
Lemma smallest D : forall M rest, StronglySorted le M -> StronglySorted le D -> Permutation (D ++ rest) M -> D = firstn (length D) M \/ lex R (firstn (length D) M) D.
Proof.
  induction D as [|x D IH]; intros M rest HM HD P; [now left|]. destruct M as [|m M]; [apply Permutation_sym, Permutation_nil in P; discriminate|].
  inversion HM as [|? ? HM' Hm]; subst. inversion HD as [|? ? HD' Hx]; subst. cbn [length firstn].
  assert (Hin : In x (m :: M)) by (eapply Permutation_in; [exact P|now left]).
  assert (Hle : le m x). { destruct Hin as [<-|Hin]; [apply le_refl|]. rewrite Forall_forall in Hm. auto. }
  destruct (le_cases _ _ Hle) as [->|Hlt]; [|right; now constructor].
  cbn [app] in P. apply Permutation_cons_inv in P. destruct (IH M rest HM' HD' P) as [E|E]; [left; now f_equal|right; now apply lex_eq].
Qed.
(* the last elements are the greatest choice *)
Lemma greatest C : forall D r rest, StronglySorted le C -> StronglySorted le D -> length D = length C -> (forall x y, In x r -> In y C -> le x y) -> Permutation (D ++ rest) (C ++ r) -> ~ lex R C D.
Proof.
  induction C as [|c C IH]; intros D r rest HC HD Hl Hr P HL; inversion HL as [y l0|c0 x l0 D' Hlt|c0 l0 D' HL']; subst; try discriminate.
  - inversion HD as [|? ? HD' Hx]; subst. apply (filter_perm (lt c)) in P. cbn [app filter] in P. rewrite lt_irrefl in P. rewrite !filter_app in P.
    rewrite Hlt in P. rewrite (filter_none (lt c) r) in P by (intros y Hy; apply (Hr y c Hy); now left). rewrite app_nil_r in P.
    rewrite (filter_all (lt c) D') in P by (intros y Hy; rewrite Forall_forall in Hx; apply (lt_le_trans c x y Hlt), Hx, Hy).
    apply Permutation_length in P. cbn [app length] in P, Hl. rewrite app_length in P.
    assert (Hf : forall l, length (filter (lt c) l) <= length l) by (induction l as [|y l IHl]; cbn [filter length]; [lia|]; destruct (lt c y); cbn [length]; lia).
    specialize (Hf C). lia.
  - inversion HC as [|? ? HC' Hc]; subst. inversion HD as [|? ? HD' Hx]; subst. cbn [app] in P. apply Permutation_cons_inv in P.
    refine (IH D' r rest HC' HD' _ _ P HL'); [cbn [length] in Hl; lia|]. intros x y Hx0 Hy. apply Hr; [exact Hx0|now right].
Qed.

Definition valid (k : nat) (l d : list T) : Prop := length d = k /\ StronglySorted le d /\ exists rest, Permutation (d ++ rest) l.

Lemma lex_prefix A x y : lex R x y -> lex R (A ++ x) (A ++ y).
Proof. intros H. induction A; cbn [app]; [exact H|]. now apply lex_eq. Qed.
(* where d is greater than A ++ a :: C *)
Lemma lex_split A a C : forall d, length d = length (A ++ a :: C) -> lex R (A ++ a :: C) d ->
  (forall t, lex R (A ++ t) d) \/ (exists y D, d = A ++ y :: D /\ R a y) \/ (exists D, d = A ++ a :: D /\ lex R C D).
Proof.
  induction A as [|x A IH]; intros d Hl H; cbn [app] in *; inversion H as [y l0|x0 y l0 D' Hlt|x0 l0 D' HL']; subst.
  - right; left. exists y, D'. auto.
  - right; right. exists D'. auto.
  - left. intros t. now constructor.
  - destruct (IH D') as [K|[(y & D & -> & K)|(D & -> & K)]]; [cbn [length] in Hl; lia|exact HL'|..].
    + left. intros t. now apply lex_eq.
    + right; left. exists y, D. auto.
    + right; right. exists D. auto.
Qed.

Lemma step l c r : StronglySorted le l -> StronglySorted le c -> StronglySorted le r -> Permutation (c ++ r) l ->
  (exists c' r', next_combination lt (length c) (c ++ r) = Ok (c' ++ r', true) /\ length c' = length c /\ StronglySorted le c' /\ StronglySorted le r' /\ Permutation (c' ++ r') l /\
     lex R c c' /\ forall d, valid (length c) l d -> lex R c d -> d = c' \/ lex R c' d) \/
  (next_combination lt (length c) (c ++ r) = Ok (l, false) /\ forall d, valid (length c) l d -> ~ lex R c d).
Proof.
  intros Hl Hc Hr P.
  assert (Hgr : (forall x y, In x r -> In y c -> le x y) -> forall d, valid (length c) l d -> ~ lex R c d).
  { intros H d (Hd & Hs & rest & Hp). apply (greatest c d r rest); auto. eapply perm_trans; [exact Hp|now apply Permutation_sym]. }
  destruct c as [|c0 cs] eqn:Ec.
  { right. rewrite (next_trivial lt [] r) by auto. cbn [app] in *. rewrite (sorted_unique r l Hr Hl P). split; [reflexivity|]. apply Hgr. intros x y _ []. }
  rewrite <- Ec in *. assert (Hcn : c <> []) by congruence. clear Ec c0 cs.
  destruct r as [|z r0 _] eqn:Er using rev_ind.
  { right. rewrite (next_trivial lt c []) by auto. rewrite app_nil_r in *. rewrite (sorted_unique c l Hc Hl P). split; [reflexivity|].
    rewrite (sorted_unique c l Hc Hl P) in *. apply Hgr. intros x y []. }
  rewrite <- Er in *. assert (Hz : forall x, In x r -> le x z).
  { intros x Hx. rewrite Er in Hr, Hx. apply sorted_parts in Hr as (_ & _ & H). apply in_app_or in Hx as [Hx|[<-|[]]]; [apply H; [exact Hx|now left]|apply le_refl]. }
  assert (Hzr : In z r) by (rewrite Er; apply in_or_app; right; now left).
  destruct (rightmost (fun x => lt x z) c) as [Hall|(A & a & C & -> & Haz & HC)].
  { right. assert (H : forall x y, In x r -> In y c -> le x y) by (intros x y Hx Hy; eapply le_trans; [apply Hz, Hx|apply (Hall y Hy)]). split; [|now apply Hgr].
    rewrite (next_last lt c r z Hcn) by (eauto || auto). rewrite (sorted_unique (r ++ c) l); auto; [now apply sorted_app|]. eapply perm_trans; [apply Permutation_app_comm|exact P]. }
  left. destruct (leftmost (fun x => lt a x) r) as (R1 & b & R2 & Eb & Hab & HR1); [exists z; auto|].
  set (n := length C). exists (A ++ b :: firstn n (R2 ++ C)), (R1 ++ a :: skipn n (R2 ++ C)).
  apply sorted_parts in Hc as (HA & HaC & HAC). inversion HaC as [|? ? HCs Hac]; subst a0 l0. rewrite Forall_forall in Hac.
  pose proof Hr as Hr'. rewrite Eb in Hr'. apply sorted_parts in Hr' as (HR1s & HbR & HR1b). inversion HbR as [|? ? HR2s HbR2]; subst a0 l0. rewrite Forall_forall in HbR2.
  assert (HzR2 : forall x, In x R2 -> le x z) by (intros x Hx; apply Hz; rewrite Eb; apply in_or_app; right; now right).
  assert (Hbz : le b z) by (apply Hz; rewrite Eb; apply in_or_app; right; now left).
  assert (HM : StronglySorted le (R2 ++ C)). { apply sorted_app; auto. intros x y Hx Hy. eapply le_trans; [apply HzR2, Hx|apply (HC y Hy)]. }
  assert (HbM : forall x, In x (R2 ++ C) -> le b x). { intros x Hx. apply in_app_or in Hx as [Hx|Hx]; [auto|]. eapply le_trans; [exact Hbz|apply (HC x Hx)]. }
  assert (HaM : forall x, In x (R2 ++ C) -> R a x) by (intros x Hx; eapply lt_le_trans; [exact Hab|auto]).
  assert (HAa : forall x, In x A -> le x a) by (intros x Hx; apply HAC; [exact Hx|now left]).
  pose proof HM as HM'. rewrite <- (firstn_skipn n (R2 ++ C)) in HM'. apply sorted_parts in HM' as (HF & HK & _).
  assert (Hnl : length (firstn n (R2 ++ C)) = n) by (rewrite firstn_length, app_length; unfold n; lia).
  assert (InF : forall x, In x (firstn n (R2 ++ C)) -> In x (R2 ++ C)) by (intros x Hx; rewrite <- (firstn_skipn n (R2 ++ C)); apply in_or_app; now left).
  assert (InK : forall x, In x (skipn n (R2 ++ C)) -> In x (R2 ++ C)) by (intros x Hx; rewrite <- (firstn_skipn n (R2 ++ C)); apply in_or_app; now right).
  split; [apply (next_shape lt A a C R1 b R2 r z Eb); eauto|]. split; [rewrite !app_length; cbn [length]; rewrite Hnl; reflexivity|].
  split; [|split; [|split; [|split]]].
  - apply sorted_app; auto; [constructor; [exact HF|apply Forall_forall; auto]|]. intros x y Hx [<-|Hy]; [apply lt_le; eapply le_lt_trans; eauto|].
    apply lt_le. eapply le_lt_trans; [apply HAa, Hx|auto].
  - apply sorted_app; auto; [constructor; [exact HK|apply Forall_forall; intros y Hy; apply lt_le; auto]|]. intros x y Hx [<-|Hy]; [apply (HR1 x Hx)|].
    eapply le_trans; [apply (HR1 x Hx)|]. apply lt_le. auto.
  - eapply perm_trans; [|exact P]. rewrite Eb.
    transitivity (A ++ (a :: b :: R1) ++ (firstn n (R2 ++ C) ++ skipn n (R2 ++ C))).
    + rewrite <- !app_assoc. apply Permutation_app_head. cbn [app]. rewrite perm_swap. apply perm_skip.
      transitivity (firstn n (R2 ++ C) ++ a :: R1 ++ skipn n (R2 ++ C)); [apply Permutation_app_head, Permutation_sym, Permutation_middle|].
      rewrite <- Permutation_middle. apply perm_skip. rewrite !app_assoc. apply Permutation_app_tail, Permutation_app_comm.
    + rewrite firstn_skipn, <- !app_assoc. apply Permutation_app_head. cbn [app]. apply perm_skip.
      transitivity (b :: C ++ R1 ++ R2); [apply perm_skip; rewrite app_assoc; rewrite (Permutation_app_comm (R1 ++ R2) C); reflexivity|].
      rewrite app_assoc, (app_assoc C R1 (b :: R2)). apply Permutation_middle.
  - apply lex_prefix. now constructor.
  - intros d (Hd & Hds & rest & Hp) HL. assert (Hpc : Permutation (d ++ rest) ((A ++ a :: C) ++ r)) by (eapply perm_trans; [exact Hp|now apply Permutation_sym]).
    destruct (lex_split A a C d Hd HL) as [K|[(y & D & -> & Hay)|(D & -> & K)]]; [right; apply K| |].
    + rewrite <- !app_assoc in Hpc. apply Permutation_app_inv_l in Hpc. cbn [app] in Hpc. apply sorted_parts in Hds as (_ & Hds & _). inversion Hds as [|? ? HDs HyD]; subst a0 l0. rewrite Forall_forall in HyD.
      assert (Hby : le b y).
      { assert (Hin : In y (a :: C ++ r)) by (eapply Permutation_in; [exact Hpc|now left]). destruct Hin as [<-|Hin]; [exfalso; unfold R in Hay; rewrite lt_irrefl in Hay; discriminate|].
        apply in_app_or in Hin as [Hin|Hin]; [apply HbM, in_or_app; now right|]. rewrite Eb in Hin. apply in_app_or in Hin as [Hin|[<-|Hin]].
        - exfalso. specialize (HR1 y Hin). unfold R in Hay. cbn in HR1. congruence.
        - apply le_refl.
        - auto. }
      destruct (le_cases _ _ Hby) as [<-|Hlt]; [|right; apply lex_prefix; now constructor].
      assert (Hpm : Permutation (D ++ filter (fun x => negb (lt x b)) rest) (R2 ++ C)).
      { assert (Hp2 : Permutation (D ++ rest) ((a :: R1) ++ (R2 ++ C))).
        { apply (Permutation_cons_inv (a := b)). eapply perm_trans; [exact Hpc|]. rewrite Eb. cbn [app]. rewrite perm_swap. apply perm_skip.
          transitivity (b :: C ++ R1 ++ R2); [rewrite app_assoc, (app_assoc C R1 R2); apply Permutation_sym, Permutation_middle|]. apply perm_skip.
          rewrite (Permutation_app_comm C (R1 ++ R2)), <- app_assoc. reflexivity. }
        apply (filter_perm (fun x => negb (lt x b))) in Hp2. rewrite !filter_app in Hp2.
        rewrite (filter_all _ D) in Hp2 by (intros x Hx; rewrite (HyD x Hx); reflexivity).
        rewrite (filter_none _ (a :: R1)) in Hp2.
        2:{ intros x [<-|Hx]; [rewrite Hab; reflexivity|]. assert (Hxb : R x b) by (eapply le_lt_trans; [apply (HR1 x Hx)|exact Hab]). rewrite Hxb. reflexivity. }
        rewrite <- filter_app in Hp2. rewrite (filter_all _ (R2 ++ C)) in Hp2 by (intros x Hx; rewrite (HbM x Hx); reflexivity). exact Hp2. }
      assert (HDn : length D = n) by (rewrite !app_length in Hd; cbn [length] in Hd; unfold n; lia).
      destruct (smallest D (R2 ++ C) _ HM HDs Hpm) as [E|E]; rewrite HDn in E; [left; now rewrite <- E|right; apply lex_prefix; now apply lex_eq].
    + exfalso. rewrite <- !app_assoc in Hpc. apply Permutation_app_inv_l in Hpc. cbn [app] in Hpc. apply Permutation_cons_inv in Hpc.
      apply sorted_parts in Hds as (_ & Hds & _). inversion Hds as [|? ? HDs _]; subst a0 l0.
      refine (greatest C D r rest HCs HDs _ _ Hpc K); [rewrite !app_length in Hd; cbn [length] in Hd; lia|].
      intros x y Hx Hy. eapply le_trans; [apply Hz, Hx|apply (HC y Hy)].
Qed.

Lemma lexR_trans : forall a b c, lex R a b -> lex R b c -> lex R a c.
Proof.
  intros a b c H. revert c. induction H as [y l|x y l l' Hlt|x l l' H IH]; intros c G; inversion G; subst; try (constructor; fail).
  - apply lex_lt. eapply lt_trans; eassumption.
  - now apply lex_lt.
  - now apply lex_lt.
  - apply lex_eq. auto.
Qed.
Lemma lexR_irrefl a : ~ lex R a a.
Proof. apply lex_irrefl. intros x H. unfold R in H. rewrite lt_irrefl in H. discriminate. Qed.

Lemma valid_choices : forall l k d, StronglySorted le l -> valid k l d -> In d (choices k l).
Proof.
  induction l as [|x l IH]; intros k d Hl (Hk & Hd & rest & P).
  - apply Permutation_sym, Permutation_nil, app_eq_nil in P as [-> _]. subst k. now left.
  - destruct d as [|y d]; [subst k; now left|]. cbn [length] in Hk. subst k. cbn [choices]. apply in_or_app.
    inversion Hl as [|? ? Hl' Hx]; subst. inversion Hd as [|? ? Hd' Hy]; subst. rewrite Forall_forall in Hx, Hy.
    assert (Hin : In y (x :: l)) by (eapply Permutation_in; [exact P|now left]).
    assert (Hle : le x y) by (destruct Hin as [<-|Hin]; [apply le_refl|auto]).
    destruct (le_cases _ _ Hle) as [<-|Hlt].
    + left. apply in_map. apply IH; [exact Hl'|]. split; [reflexivity|]. split; [exact Hd'|]. exists rest. eapply Permutation_cons_inv. exact P.
    + right. apply IH; [exact Hl'|]. split; [reflexivity|]. split; [exact Hd|].
      assert (Hxr : In x rest).
      { assert (G : In x ((y :: d) ++ rest)) by (eapply Permutation_in; [apply Permutation_sym, P|now left]). apply in_app_or in G as [G|G]; [|exact G]. exfalso.
        assert (K : R x x) by (destruct G as [<-|G]; [exact Hlt|eapply lt_le_trans; [exact Hlt|auto]]). unfold R in K. rewrite lt_irrefl in K. discriminate. }
      apply in_split in Hxr as (r1 & r2 & ->). exists (r1 ++ r2). apply (Permutation_cons_inv (a := x)). eapply perm_trans; [|exact P].
      rewrite !app_assoc. apply Permutation_middle.
Qed.

Lemma sorted_snoc acc c : StronglySorted (lex R) acc -> Forall (fun d => lex R d c) acc -> StronglySorted (lex R) (acc ++ [c]).
Proof.
  induction acc as [|x acc IH]; intros H F; cbn [app]; [repeat constructor|]. inversion H as [|? ? Hs Hf]; subst. inversion F; subst. constructor; [auto|].
  apply Forall_app. split; [exact Hf|]. repeat constructor. assumption.
Qed.
Lemma sorted_nodup acc : StronglySorted (lex R) acc -> NoDup acc.
Proof.
  induction 1 as [|x acc H IH F]; constructor; [|exact IH]. intros Hin. rewrite Forall_forall in F. exact (lexR_irrefl x (F x Hin)).
Qed.

Lemma visit_multi l k fuel : StronglySorted le l -> k <= length l -> length (choices k l) < fuel ->
  exists cs, visit_combinations fuel lt k l = Ok (cs, l) /\ StronglySorted (lex R) cs /\ forall d, In d cs <-> valid k l d.
Proof.
  intros Hl Hk Hf. set (Q := fun '((acc, s) : list (list T) * list T) => s = l /\ StronglySorted (lex R) acc /\ forall d, In d acc <-> valid k l d).
  assert (H : holds (visit_combinations fuel lt k l) Q).
  2:{ destruct (visit_combinations fuel lt k l) as [[cs s]| |]; try destruct H. subst s. exists cs. auto. }
  unfold visit_combinations.
  apply (loop_rule (fun '(s, acc) => exists c r, s = c ++ r /\ length c = k /\ StronglySorted le c /\ StronglySorted le r /\ Permutation (c ++ r) l /\
     StronglySorted (lex R) acc /\ Forall (fun d => lex R d c) acc /\ (forall d, In d acc -> valid k l d) /\ (forall d, valid k l d -> In d acc \/ d = c \/ lex R c d))
     (fun '(s, acc) => length (choices k l) - length acc)).
  - intros [s acc] (c & r & -> & Hc & Hcs & Hrs & P & Ha & Hb & Hv & Hall). cbn zeta. rewrite (sub_prefix c r k Hc).
    assert (Hvc : valid k l c) by (split; [exact Hc|]; split; [exact Hcs|]; exists r; exact P).
    assert (Ha' : StronglySorted (lex R) (acc ++ [c])) by now apply sorted_snoc.
    assert (Hlen : length (acc ++ [c]) <= length (choices k l)).
    { apply NoDup_incl_length; [now apply sorted_nodup|]. intros d Hd. apply valid_choices; [exact Hl|]. apply in_app_or in Hd as [Hd|[<-|[]]]; auto. }
    rewrite app_length in Hlen. cbn [length] in Hlen.
    destruct (step l c r Hl Hcs Hrs P) as [(c' & r' & E & L & S1 & S2 & P' & Lx & Nx)|(E & Mx)]; rewrite Hc in *; rewrite E; cbn [bind holds].
    + split.
      * exists c', r'. do 5 (split; [auto|]). split; [exact Ha'|]. split; [|split].
        -- apply Forall_app. split; [|repeat constructor; exact Lx]. eapply Forall_impl; [|exact Hb]. intros d Hd. exact (lexR_trans _ _ _ Hd Lx).
        -- intros d Hd. apply in_app_or in Hd as [Hd|[<-|[]]]; auto.
        -- intros d Hd. rewrite in_app_iff. destruct (Hall d Hd) as [K|[->|K]]; [auto|left; right; now left|]. destruct (Nx d Hd K); auto.
      * rewrite app_length. cbn [length]. lia.
    + split; [reflexivity|]. split; [exact Ha'|]. intros d. rewrite in_app_iff. split; [intros [K|[<-|[]]]; auto|].
      intros Hd. destruct (Hall d Hd) as [K|[->|K]]; [auto|right; now left|]. exfalso. exact (Mx d Hd K).
  - exists (firstn k l), (skipn k l). rewrite firstn_skipn. split; [reflexivity|]. split; [rewrite firstn_length; lia|].
    pose proof Hl as Hl2. rewrite <- (firstn_skipn k l) in Hl2. apply sorted_parts in Hl2 as (A & B & _). split; [exact A|]. split; [exact B|].
    split; [reflexivity|]. split; [constructor|]. split; [constructor|]. split; [intros d []|]. intros d (Hd & Hs & rest & P). right.
    destruct (smallest d l rest Hl Hs P) as [E|E]; rewrite Hd in E; auto.
  - cbn [length]. lia.
Qed.
End Multi.
