(* Advancing a combination_iterator. *)
From Coq Require Import Permutation Sorted.
From Verif Require Import Base Comb_Model Comb_Spec Comb_Proofs Comb_Proofs2 Comb_Proofs3 Enum_Spec Multi_Model Multi_Spec Multi_Proofs Multi_Proofs2 Multi_Model2.
Local Open Scope nat_scope.

Section Advance.
Context {T : Type}.
Variable lt : T -> T -> bool.
Hypothesis order : total_order lt.
Variables (l : list T) (k : nat) (cs : list (list T)).
Hypothesis Hl : ascending lt l.
Hypothesis Hn : l <> [].
Hypothesis Hk : k <= length l.
Hypothesis Hcs : multiset_choices lt k l cs.

Let irrefl := proj1 order.
Let trans := proj1 (proj2 order).
Let total := proj2 (proj2 order).

Lemma sorted_cut a c b : StronglySorted (lex (less lt)) (a ++ c :: b) -> (forall d, In d a -> lex (less lt) d c) /\ (forall d, In d b -> lex (less lt) c d) /\ StronglySorted (lex (less lt)) b.
Proof.
  induction a as [|x a IH]; cbn [app]; intros H; inversion H as [|? ? Hs Hf]; subst; rewrite Forall_forall in Hf.
  - split; [intros ? []|]. auto.
  - destruct (IH Hs) as (A & B & C). split; [|auto]. intros d [<-|Hd]; [apply Hf, in_or_app; right; now left|auto].
Qed.
Lemma cut_at : forall (xs : list (list T)) i c, nth_error xs i = Some c -> exists a b, xs = a ++ c :: b /\ length a = i.
Proof. intros xs i c H. apply nth_error_split in H as (a & b & -> & E). eauto. Qed.

Definition at_choice (i : nat) (x : comb_iter * list T) : Prop :=
  if i <? length cs then fst x = ci_start k /\ exists c r, snd x = c ++ r /\ nth_error cs i = Some c /\ ascending lt r /\ Permutation (c ++ r) l
  else fst x = ci_end l /\ snd x = l.

Lemma at_start : at_choice 0 (ci_start k, l).
Proof.
  unfold at_choice. destruct Hcs as (Hs & Hi). pose proof Hl as Hl2. unfold ascending in Hl2. rewrite <- (firstn_skipn k l) in Hl2. apply sorted_parts in Hl2 as (A & B & _).
  assert (Hv : In (firstn k l) cs).
  { apply Hi. split; [rewrite firstn_length; lia|]. split; [exact A|]. exists (skipn k l). now rewrite firstn_skipn. }
  destruct cs as [|c0 cs'] eqn:Ec; [destruct Hv|]. cbn [length Nat.ltb Nat.leb fst snd]. split; [reflexivity|]. exists (firstn k l), (skipn k l).
  split; [now rewrite firstn_skipn|]. split; [|split; [exact B|now rewrite firstn_skipn]]. cbn [nth_error]. f_equal.
  destruct (proj1 (Hi c0) (or_introl eq_refl)) as (L0 & S0 & rest & P0).
  destruct (smallest lt irrefl total c0 l rest Hl S0 P0) as [E|E]; [rewrite L0 in E; exact E|]. exfalso. rewrite L0 in E.
  destruct Hv as [E1|Hv]; [rewrite <- E1 in E; exact (lexR_irrefl lt irrefl _ E)|].
  apply StronglySorted_inv in Hs as (_ & F). rewrite Forall_forall in F. exact (lexR_irrefl lt irrefl _ (lexR_trans lt trans _ _ _ E (F _ Hv))).
Qed.

Lemma at_next i x : at_choice i x -> holds (let '(it, s) := x in ci_next lt it s) (at_choice (S i)).
Proof.
  destruct x as [it s]. unfold at_choice at 1. cbn [fst snd]. destruct (Nat.ltb_spec i (length cs)) as [Li|Li].
  2:{ intros (-> & ->). unfold ci_next, ci_end. cbn [ci_begin]. rewrite Nat.eqb_refl. cbn [negb holds]. unfold at_choice. destruct (Nat.ltb_spec (S i) (length cs)); [lia|]. auto. }
  intros (-> & c & r & -> & En & Hr & P). destruct Hcs as (Hs & Hi). destruct (proj1 (Hi c) (nth_error_In _ _ En)) as (Lc & Sc & _).
  unfold ci_next, ci_start. cbn [ci_begin ci_middle].
  replace (0 =? length (c ++ r)) with false by (symmetry; apply Nat.eqb_neq; rewrite (Permutation_length P); destruct l; [congruence|discriminate]). cbn [negb].
  destruct (cut_at _ _ _ En) as (a & b & Ecs & La). rewrite Ecs in Hs. destruct (sorted_cut _ _ _ Hs) as (HA & HB & Sb).
  assert (Hlex : forall d, In d cs -> lex (less lt) c d -> In d b).
  { intros d Hd Hcd. rewrite Ecs in Hd. apply in_app_or in Hd as [Hd|[<-|Hd]]; [|destruct (lexR_irrefl lt irrefl _ Hcd)|exact Hd].
    destruct (lexR_irrefl lt irrefl _ (lexR_trans lt trans _ _ _ Hcd (HA _ Hd))). }
  destruct (step lt irrefl trans total l c r Hl Sc Hr P) as [(c' & r' & E & L & S1 & S2 & P' & Lx & Nx)|(E & Mx)]; rewrite Lc in *; rewrite E; cbn [bind negb holds].
  - assert (Hin : In c' b). { apply Hlex; [|exact Lx]. apply Hi. split; [lia|]. split; [exact S1|]. eauto. }
    destruct b as [|x b]; [destruct Hin|]. assert (x = c') as ->.
    { assert (Hx : In x cs) by (rewrite Ecs; apply in_or_app; right; right; now left). destruct (Nx x (proj1 (Hi x) Hx) (HB x (or_introl eq_refl))) as [->|K]; [reflexivity|].
      destruct Hin as [->|Hin]; [reflexivity|]. apply StronglySorted_inv in Sb as (_ & F). rewrite Forall_forall in F.
      destruct (lexR_irrefl lt irrefl _ (lexR_trans lt trans _ _ _ K (F _ Hin))). }
    unfold at_choice. assert (Hlt : S i <? length cs = true) by (apply Nat.ltb_lt; rewrite Ecs, app_length; cbn [length]; lia). rewrite Hlt. cbn [fst snd]. split; [reflexivity|].
    exists c', r'. split; [reflexivity|]. split; [|auto]. rewrite Ecs. rewrite nth_error_app2 by lia. replace (S i - length a) with 1 by lia. reflexivity.
  - assert (b = []) as ->.
    { destruct b as [|x b]; [reflexivity|]. exfalso. apply (Mx x); [|apply HB; now left]. apply (proj1 (Hi x)). rewrite Ecs. apply in_or_app. right; right; now left. }
    unfold at_choice. assert (Hlt : S i <? length cs = false) by (apply Nat.ltb_ge; rewrite Ecs, app_length; cbn [length]; lia). rewrite Hlt. cbn [fst snd]. auto.
Qed.

Lemma advance n : holds (for_up 0 n (fun _ '(it, s) => ci_next lt it s) (ci_start k, l)) (at_choice n).
Proof.
  change n with (0 + n) at 2. apply (for_up_rule at_choice); [|exact at_start]. intros i x _ H. exact (at_next i x H).
Qed.
End Advance.
