(* Cleaning a text in several passes. *)
From Verif Require Import Base Split_Model Edit_Model Edit_Spec Edit_Proofs Edit_Proofs2 Edit_Props.
Local Open Scope nat_scope.

(* ---- runs and duplicates as recursive functions ---- *)
Fixpoint squeeze (o : option ascii) (l : list ascii) : list ascii :=
  match l with
  | [] => []
  | x :: l => match o with
              | Some y => if Ascii.eqb y x then squeeze o l else x :: squeeze (Some x) l
              | None => x :: squeeze (Some x) l
              end
  end.
Lemma squeeze_from y l : map snd (filter (fun q => match fst q with None => true | Some y => negb (Ascii.eqb y (snd q)) end) (combine (Some y :: map Some l) l)) = squeeze (Some y) l.
Proof.
  revert y. induction l as [|x l IH]; intros y; [reflexivity|].
  change (combine (Some y :: map Some (x :: l)) (x :: l)) with ((Some y, x) :: combine (Some x :: map Some l) l). cbn [filter fst snd squeeze].
  destruct (Ascii.eqb_spec y x) as [->|H]; cbn [negb map snd]; now rewrite IH.
Qed.
Lemma drop_squeeze l : drop_after Ascii.eqb l = squeeze None l.
Proof. destruct l as [|x l]; [reflexivity|]. unfold drop_after, with_prev.
  change (combine (None :: map Some (x :: l)) (x :: l)) with ((None, x) :: combine (Some x :: map Some l) l). cbn [filter fst snd squeeze map]. now rewrite squeeze_from. Qed.

Lemma squeeze_filter q : forall l o o', (forall y, o = Some y -> q y = true -> o' = Some y) -> squeeze o' (filter q (squeeze o l)) = squeeze o' (filter q l).
Proof.
  assert (Hk : forall o' x F G, squeeze (Some x) F = squeeze (Some x) G -> squeeze o' (x :: F) = squeeze o' (x :: G)).
  { intros o' x F G H. cbn [squeeze]. destruct o' as [y|]; [|now rewrite H]. destruct (Ascii.eqb_spec y x) as [->|]; [exact H|now rewrite H]. }
  induction l as [|x l IH]; intros o o' H; [reflexivity|]. cbn [filter].
  assert (Hn : squeeze o' (filter q (x :: squeeze (Some x) l)) = squeeze o' (if q x then x :: filter q l else filter q l)).
  { cbn [filter]. destruct (q x) eqn:Eq.
    - apply Hk. apply IH. auto.
    - apply IH. intros y E. injection E as <-. congruence. }
  destruct o as [y|]; cbn [squeeze]; [|exact Hn]. destruct (Ascii.eqb_spec y x) as [->|Hne]; [|exact Hn].
  rewrite IH by auto. destruct (q x) eqn:Eq; [|reflexivity]. rewrite (H x eq_refl Eq). cbn [squeeze]. now rewrite Ascii.eqb_refl.
Qed.

Fixpoint firsts (seen l : list ascii) : list ascii :=
  match l with
  | [] => []
  | x :: l => if in_dec ascii_dec x seen then firsts seen l else x :: firsts (x :: seen) l
  end.
Lemma firsts_snoc x : forall l seen, firsts seen (l ++ [x]) = firsts seen l ++ (if in_dec ascii_dec x (l ++ seen) then [] else [x]).
Proof.
  induction l as [|y l IH]; intros seen; cbn [app firsts]; [destruct (in_dec ascii_dec x seen); reflexivity|].
  destruct (in_dec ascii_dec y seen) as [Hy|Hy].
  - rewrite IH. f_equal. destruct (in_dec ascii_dec x (l ++ seen)) as [H|H], (in_dec ascii_dec x (y :: l ++ seen)) as [G|G]; auto; exfalso.
    + apply G. now right.
    + destruct G as [<-|G]; apply H; [apply in_or_app; now right|exact G].
  - rewrite IH. cbn [app]. do 2 f_equal. destruct (in_dec ascii_dec x (l ++ y :: seen)) as [H|H], (in_dec ascii_dec x (y :: l ++ seen)) as [G|G]; auto; exfalso.
    + apply G. rewrite in_app_iff in H. cbn [In] in *. rewrite in_app_iff. tauto.
    + apply H. rewrite in_app_iff. cbn [In] in *. rewrite in_app_iff in G. tauto.
Qed.
Lemma occurrences_firsts l : first_occurrences Ascii.eqb l = firsts [] l.
Proof.
  induction l as [|x l IH] using rev_ind; [reflexivity|]. rewrite first_occ_snoc, firsts_snoc, IH, app_nil_r. f_equal.
  destruct (existsb (Ascii.eqb x) l) eqn:E, (in_dec ascii_dec x l) as [H|H]; auto; exfalso.
  - apply existsb_exists in E as (y & Hy & E). apply Ascii.eqb_eq in E as <-. auto.
  - assert (existsb (Ascii.eqb x) l = true); [|congruence]. apply existsb_exists. exists x. split; [exact H|apply Ascii.eqb_refl].
Qed.
Lemma firsts_filter q : forall l seen seen', (forall x, q x = true -> (In x seen <-> In x seen')) -> firsts seen (filter q l) = filter q (firsts seen' l).
Proof.
  induction l as [|x l IH]; intros seen seen' H; [reflexivity|]. cbn [filter firsts]. destruct (q x) eqn:Eq.
  - cbn [firsts]. destruct (in_dec ascii_dec x seen) as [G|G], (in_dec ascii_dec x seen') as [G'|G']; try (exfalso; specialize (H x Eq); tauto).
    + now apply IH.
    + cbn [filter]. rewrite Eq. f_equal. apply IH. intros y Hy. cbn [In]. specialize (H y Hy). tauto.
  - destruct (in_dec ascii_dec x seen') as [G'|G']; [now apply IH|]. cbn [filter]. rewrite Eq. apply IH. intros y Hy. cbn [In].
    specialize (H y Hy). split; [tauto|]. intros [<-|]; [congruence|tauto].
Qed.
Lemma firsts_squeeze : forall l o seen, (forall y, o = Some y -> In y seen) -> firsts seen (squeeze o l) = firsts seen l.
Proof.
  induction l as [|x l IH]; intros o seen H; [reflexivity|].
  assert (Hn : firsts seen (x :: squeeze (Some x) l) = firsts seen (x :: l)).
  { cbn [firsts]. destruct (in_dec ascii_dec x seen) as [G|G]; [|f_equal]; apply IH; intros y E; injection E as <-; [exact G|now left]. }
  cbn [squeeze]. destruct o as [y|]; [|exact Hn]. destruct (Ascii.eqb_spec y x) as [->|]; [|exact Hn].
  rewrite IH by auto. cbn [firsts]. destruct (in_dec ascii_dec x seen) as [G|G]; [reflexivity|]. exfalso. auto.
Qed.
Lemma squeeze_firsts : forall l o seen, (forall y, o = Some y -> In y seen) -> squeeze o (firsts seen l) = firsts seen l.
Proof.
  induction l as [|x l IH]; intros o seen H; [reflexivity|]. cbn [firsts]. destruct (in_dec ascii_dec x seen) as [G|G]; [auto|].
  cbn [squeeze]. assert (E : squeeze (Some x) (firsts (x :: seen) l) = firsts (x :: seen) l) by (apply IH; intros y E; injection E as <-; now left).
  destruct o as [y|]; [|now rewrite E]. destruct (Ascii.eqb_spec y x) as [->|]; [exfalso; auto|now rewrite E].
Qed.
Lemma firsts_twice : forall l seen seen', incl seen seen' -> firsts seen (firsts seen' l) = firsts seen' l.
Proof.
  induction l as [|x l IH]; intros seen seen' H; [reflexivity|]. cbn [firsts]. destruct (in_dec ascii_dec x seen') as [G|G]; [auto|].
  cbn [firsts]. destruct (in_dec ascii_dec x seen) as [F|F]; [exfalso; auto|]. f_equal. apply IH. intros y [<-|Hy]; [now left|right; auto].
Qed.

(* ---- the ends ---- *)
Section Ends.
Context {A : Type}.
Variable p : A -> bool.
Lemma left_none s : Forall (fun x => p x = true) s -> trimmed_left p s [].
Proof. intros H. exists s. rewrite app_nil_r. repeat split; auto. discriminate. Qed.
Lemma trim_orders s : exists t, remove_leading_trailing p s = Ok t /\
  (x <- remove_leading_str p s ;; remove_trailing_str p x) = Ok t /\ (x <- remove_trailing_str p s ;; remove_leading_str p x) = Ok t /\
  remove_leading_str p t = Ok t /\ remove_trailing_str p t = Ok t.
Proof.
  assert (Hlf : forall s t, trimmed_left p s t -> remove_leading_str p s = Ok t).
  { intros u v H. destruct (C10_remove_leading A p u) as (w & E & Hw). rewrite E. f_equal. eapply trimmed_left_unique; eassumption. }
  assert (Hrf : forall s t, (s = [] \/ exists x, In x s /\ p x = false) -> trimmed_right p s t -> remove_trailing_str p s = Ok t).
  { intros u v Hu H. destruct (C10_remove_trailing A p u Hu) as (w & E & Hw). rewrite E. f_equal. eapply trimmed_right_unique; eassumption. }
  destruct (Forall_Exists_dec (fun x => p x = true) (fun x => bool_dec (p x) true) s) as [Hall|Hsome].
  - exists []. assert (E1 : remove_leading_str p s = Ok []) by (apply Hlf, left_none, Hall).
    assert (E2 : remove_trailing_str p [] = Ok (@nil A)) by reflexivity. assert (E3 : remove_leading_str p [] = Ok (@nil A)) by reflexivity.
    unfold remove_leading_trailing. rewrite E1. cbn [bind]. repeat split; auto.
    destruct s as [|x s]; [reflexivity|]. rewrite (proj1 (C10_remove_trailing_refuted A p x s Hall)). cbn [bind]. apply Hlf, left_none.
    inversion Hall; subst. repeat constructor; auto.
  - apply Exists_exists in Hsome as (x & Hx & Hp). apply not_true_is_false in Hp.
    destruct (C10_remove_leading A p s) as (m & E1 & pre & -> & Hpre & Hm).
    assert (Hxm : In x m). { apply in_app_or in Hx as [Hx|Hx]; [|exact Hx]. rewrite Forall_forall in Hpre. specialize (Hpre x Hx). cbn in Hpre. congruence. }
    destruct (C10_remove_trailing A p m) as (t & E2 & suf & -> & Hsuf & Ht); [right; eauto|].
    assert (Hxt : In x t). { apply in_app_or in Hxm as [H|H]; [exact H|]. rewrite Forall_forall in Hsuf. specialize (Hsuf x H). cbn in Hsuf. congruence. }
    assert (Htl : forall y t', t = y :: t' -> p y = false). { intros y t' ->. apply (Hm y (t' ++ suf)). reflexivity. }
    exists t. unfold remove_leading_trailing. rewrite E1. cbn [bind]. split; [exact E2|]. split; [exact E2|]. split; [|split].
    + rewrite (Hrf _ (pre ++ t)).
      * cbn [bind]. apply Hlf. exists pre. auto.
      * right. exists x. split; [|exact Hp]. apply in_or_app. now right.
      * exists suf. rewrite <- app_assoc. split; [reflexivity|]. split; [exact Hsuf|]. intros t' y E.
        destruct t as [|z t] using rev_ind; [destruct Hxt|]. rewrite app_assoc in E. apply app_inj_tail in E as [_ <-]. now apply (Ht t).
    + apply Hlf. exists []. repeat split; auto.
    + apply Hrf; [right; eauto|]. exists []. rewrite app_nil_r. repeat split; auto.
Qed.
End Ends.
