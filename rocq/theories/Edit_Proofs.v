From Verif Require Import Base Split_Model Split_Proofs Edit_Model Edit_Spec.

Lemma app_cons_assoc {A} (a : list A) x b : a ++ x :: b = (a ++ [x]) ++ b.
Proof. now rewrite <- app_assoc. Qed.

(* ---------- remove_inplace ---------- *)
Lemma filter_snoc {A} (f : A -> bool) l x :
  filter f (l ++ [x]) = filter f l ++ (if f x then [x] else []).
Proof. rewrite filter_app. simpl. destruct (f x); reflexivity. Qed.

(* moving x from the unread part down over the gap *)
Lemma move_down {A} (kept mid : list A) x rest itr1 itr2 :
  length kept = itr2 -> itr1 = itr2 + length mid ->
  exists mid', length mid' = length mid /\
    (if negb (itr1 =? itr2)
     then y <- rd (kept ++ mid ++ x :: rest) itr1 ;; wr (kept ++ mid ++ x :: rest) itr2 y
     else Ok (kept ++ mid ++ x :: rest))
    = Ok ((kept ++ [x]) ++ mid' ++ rest) /\
    rd ((kept ++ [x]) ++ mid' ++ rest) itr1 = Ok x.
Proof.
  intros H1 H2. destruct mid as [|m mid].
  - exists []. split; auto. simpl in *. rewrite Nat.add_0_r in H2. subst itr1.
    rewrite Nat.eqb_refl. simpl. rewrite <- app_assoc. simpl. split; auto.
    subst itr2. apply rd_here.
  - exists (mid ++ [x]). split; [rewrite app_length; simpl; lia|].
    destruct (Nat.eqb_spec itr1 itr2) as [E|E]; [simpl in H2; lia|]. cbn [negb].
    rewrite (app_assoc kept).
    replace itr1 with (length (kept ++ m :: mid)) by (rewrite app_length; lia).
    rewrite rd_here. cbn [bind]. rewrite <- app_assoc.
    replace itr2 with (length kept) by lia. cbn [app].
    rewrite wr_here. split.
    + f_equal. rewrite <- !app_assoc. reflexivity.
    + replace (length (kept ++ m :: mid)) with (length ((kept ++ [x]) ++ mid))
        by (rewrite !app_length; simpl; lia).
      rewrite <- (app_assoc mid), (app_assoc (kept ++ [x])). apply rd_here.
Qed.

Lemma remove_inplace_ok {A} (p : A -> bool) (s : list A) :
  exists junk, remove_inplace p s =
    Ok (filter (fun x => negb (p x)) s ++ junk, length (filter p s)) /\
    length junk = length (filter p s).
Proof.
  assert (H : holds (remove_inplace p s) (fun r => exists junk,
    fst r = filter (fun x => negb (p x)) s ++ junk /\
    length junk = length (filter p s) /\ snd r = length (filter p s))).
  { unfold remove_inplace.
    apply loop_rule with
      (I := fun st => let '(t, itr1, itr2, cnt) := st in
         exists dn mid rest, s = dn ++ rest /\
           t = filter (fun x => negb (p x)) dn ++ mid ++ rest /\
           length (filter (fun x => negb (p x)) dn) = itr2 /\
           length dn = itr1 /\ length mid = cnt /\ cnt = length (filter p dn) /\ itr1 = itr2 + cnt)
      (mu := fun st => let '(t, itr1, itr2, cnt) := st in length s - itr1).
    - intros [[[t itr1] itr2] cnt] (dn & mid & rest & H1 & H2 & H3 & H4 & H5 & H6 & H7).
      assert (Hlt : length t = length s).
      { rewrite H1, H2, !app_length. lia. }
      destruct (Nat.eqb_spec (length t) itr1) as [E|E].
      + cbn [holds]. exists mid. cbn [fst snd].
        assert (rest = []) as ->.
        { apply length_zero_iff_nil. rewrite H1, app_length in Hlt. lia. }
        rewrite app_nil_r in *. subst. auto.
      + destruct rest as [|x rest].
        { exfalso. rewrite app_nil_r in H1. subst. lia. }
        assert (Er : rd t itr1 = Ok x).
        { rewrite H2. rewrite app_assoc.
          replace itr1 with (length (filter (fun x => negb (p x)) dn ++ mid)) by (rewrite app_length; lia).
          apply rd_here. }
        rewrite Er. cbn [bind].
        assert (Hls : length s = itr1 + S (length rest)).
        { rewrite H1, app_length. simpl. lia. }
        destruct (p x) eqn:Ep.
        * cbn [holds]. split; [|lia].
          exists (dn ++ [x]), (mid ++ [x]), rest.
          rewrite !filter_snoc, Ep. cbn [negb]. rewrite app_nil_r.
          repeat split; auto; try (rewrite ?app_length; simpl; lia).
          -- now rewrite <- app_assoc.
          -- rewrite H2. now rewrite <- !app_assoc.
        * destruct (move_down (filter (fun x => negb (p x)) dn) mid x rest itr1 itr2 H3 ltac:(lia))
            as (mid' & Hm & Hw & _).
          rewrite <- H2 in Hw. rewrite Er in Hw. cbn [bind] in Hw. rewrite Hw. cbn [bind holds].
          split; [|lia].
          exists (dn ++ [x]), mid', rest. rewrite !filter_snoc, Ep. cbn [negb]. rewrite ?app_nil_r.
          repeat split; auto; try (rewrite ?app_length; simpl; lia).
          now rewrite <- app_assoc.
    - exists [], [], s. simpl. auto 10.
    - lia. }
  apply holds_ex in H. destruct H as ([r c] & E & junk & H1 & H2 & H3). cbn [fst snd] in *.
  exists junk. subst. auto.
Qed.

Lemma remove_inplace_seq_ok {A} (p : A -> bool) (s : list A) :
  remove_inplace_seq p s = Ok (filter (fun x => negb (p x)) s, length (filter p s)).
Proof.
  unfold remove_inplace_seq. destruct (remove_inplace_ok p s) as (junk & E & Hj).
  rewrite E. cbn [bind]. unfold resize_down.
  rewrite app_length, Hj, Nat.add_sub. now rewrite firstn_app_len.
Qed.

(* ---------- remove_consecutives ---------- *)
Lemma with_prev_snoc {A} (l : list A) x :
  l <> [] -> exists y, (exists l', l = l' ++ [y]) /\ with_prev (l ++ [x]) = with_prev l ++ [(Some y, x)].
Proof.
  intros H. destruct (exists_last H) as (l' & y & ->). exists y. split; [eauto|].
  unfold with_prev. rewrite !map_app. cbn [map].
  set (m := map Some l').
  assert (E : forall (o : option A) (a : list (option A)) (b : list A) u v w, length a = length b ->
     combine (o :: (a ++ [u]) ++ [v]) ((b ++ [w]) ++ [x])
     = combine (o :: a ++ [u]) (b ++ [w]) ++ [(u, x)]).
  { intros o a. revert o. induction a as [|h a IH]; intros o b u v w Hl; destruct b as [|b0 b]; simpl in *; try lia; auto.
    f_equal. apply (IH h b u v w). lia. }
  apply E. unfold m. now rewrite map_length.
Qed.

Lemma drop_after_snoc {A} (d : A -> A -> bool) l' y x :
  drop_after d ((l' ++ [y]) ++ [x]) =
  drop_after d (l' ++ [y]) ++ (if d y x then [] else [x]).
Proof.
  unfold drop_after.
  destruct (with_prev_snoc (l' ++ [y]) x) as (y' & (l'' & E) & Hw).
  { destruct l'; discriminate. }
  apply app_inj_tail in E. destruct E as [_ <-].
  rewrite Hw, filter_app, map_app. f_equal. cbn [filter fst snd].
  destruct (d y x); reflexivity.
Qed.

Lemma filter_length_le {A} (f : A -> bool) l : length (filter f l) <= length l.
Proof. induction l as [|x l IH]; simpl; auto. destruct (f x); simpl; lia. Qed.

Lemma drop_after_length {A} (d : A -> A -> bool) l : length (drop_after d l) <= length l.
Proof.
  unfold drop_after. rewrite map_length. unfold with_prev.
  eapply Nat.le_trans; [apply filter_length_le|]. rewrite combine_length. lia.
Qed.

Section Consec.
  Context {A : Type}.
  Variables go1 go2 d : A -> A -> bool.
  (* d y x: x is to be dropped when its predecessor is y *)
  Hypothesis go1_d : forall y x, go1 y x = negb (d y x).
  Definition stands (prev y : A) : Prop := forall x, d prev x = d y x.
  Hypothesis stands_drop : forall prev x, d prev x = true -> stands prev x.
  Hypothesis go2_d : forall prev x z, d prev z = true -> go2 prev x = d prev x.

  Variable s : list A.
  Definition CI (st : list A * nat * nat * A * nat) : Prop :=
    let '(t, itr1, itr2, prev, cnt) := st in
    exists dn y mid rest, s = (dn ++ [y]) ++ rest /\
      t = drop_after d (dn ++ [y]) ++ mid ++ rest /\
      length (drop_after d (dn ++ [y])) = itr2 /\ length (dn ++ [y]) = itr1 /\
      length mid = cnt /\ itr1 = itr2 + cnt /\ stands prev y.

  Lemma CI_length t itr1 itr2 prev cnt : CI (t, itr1, itr2, prev, cnt) ->
    length t = length s /\ itr1 <= length s.
  Proof.
    intros (dn & y & mid & rest & H1 & H2 & H3 & H4 & H5 & H6 & H7).
    rewrite H1, H2, !app_length. rewrite app_length in H4. simpl in *. lia.
  Qed.

  Lemma CI_read t itr1 itr2 prev cnt : CI (t, itr1, itr2, prev, cnt) -> itr1 <> length s ->
    exists x, rd t itr1 = Ok x /\
      (d prev x = false -> exists t',
         (if negb (itr1 =? itr2) then y <- rd t itr1 ;; wr t itr2 y else Ok t) = Ok t' /\
         rd t' itr1 = Ok x /\
         CI (t', S itr1, S itr2, x, cnt)) /\
      (d prev x = true -> CI (t, S itr1, itr2, prev, S cnt)).
  Proof.
    intros (dn & y & mid & rest & H1 & H2 & H3 & H4 & H5 & H6 & H7) Hne.
    destruct rest as [|x rest].
    { exfalso. rewrite app_nil_r in H1. subst. lia. }
    assert (Er : rd t itr1 = Ok x).
    { rewrite H2. rewrite app_assoc.
      replace itr1 with (length (drop_after d (dn ++ [y]) ++ mid)) by (rewrite app_length; lia).
      apply rd_here. }
    exists x. split; [exact Er|]. split.
    - intros Hd.
      destruct (move_down (drop_after d (dn ++ [y])) mid x rest itr1 itr2 H3 ltac:(lia))
            as (mid' & Hm & Hw & Hr).
      rewrite <- H2 in Hw. exists ((drop_after d (dn ++ [y]) ++ [x]) ++ mid' ++ rest).
      split; [exact Hw|]. split; [exact Hr|].
      assert (Hdx : drop_after d ((dn ++ [y]) ++ [x]) = drop_after d (dn ++ [y]) ++ [x]).
      { rewrite drop_after_snoc. rewrite <- H7, Hd. reflexivity. }
      exists (dn ++ [y]), x, mid', rest. rewrite Hdx.
      split; [etransitivity; [exact H1|apply app_cons_assoc]|]. split; [reflexivity|].
      rewrite !app_length in *; simpl in *. repeat split; try lia.
    - intros Hd. exists (dn ++ [y]), x, (mid ++ [x]), rest.
      rewrite drop_after_snoc, <- H7, Hd, app_nil_r.
      split; [etransitivity; [exact H1|apply app_cons_assoc]|].
      split; [rewrite H2; now rewrite <- !app_assoc|].
      rewrite !app_length in *; simpl in *. repeat split; try lia.
      now apply stands_drop.
  Qed.

  Lemma rc_keep_ok t itr1 itr2 prev cnt : CI (t, itr1, itr2, prev, cnt) ->
    holds (rc_keep go1 t itr1 itr2 prev)
      (fun '(t', i1, i2, pv) => CI (t', i1, i2, pv, cnt) /\ itr1 <= i1 /\
         (i1 = length s \/ exists x, rd t' i1 = Ok x /\ d pv x = true)).
  Proof.
    intros HC. unfold rc_keep.
    apply loop_rule with
      (I := fun '(t', i1, i2, pv) => CI (t', i1, i2, pv, cnt) /\ itr1 <= i1)
      (mu := fun '(t', i1, i2, pv) => length s - i1).
    - intros [[[t' i1] i2] pv] [HI Hle]. destruct (CI_length _ _ _ _ _ HI) as [Hl Hi1].
      rewrite Hl. destruct (Nat.eqb_spec (length s) i1) as [E|E].
      + cbn [holds]. auto.
      + destruct (CI_read _ _ _ _ _ HI ltac:(lia)) as (x & Er & Hf & Ht).
        rewrite Er. cbn [bind]. rewrite go1_d.
        destruct (d pv x) eqn:Ed; cbn [negb].
        * cbn [holds]. split; auto. split; auto. right. eauto.
        * destruct (Hf eq_refl) as (t2 & Hw & Hr2 & HI2).
          rewrite Er in Hw. cbn [bind] in Hw. rewrite Hw. cbn [bind]. rewrite Hr2. cbn [bind holds].
          split; [split; [exact HI2|lia]|lia].
    - auto.
    - destruct (CI_length _ _ _ _ _ HC). lia.
  Qed.

  Lemma rc_drop_ok t itr1 itr2 prev cnt : CI (t, itr1, itr2, prev, cnt) ->
    (itr1 = length s \/ exists x, rd t itr1 = Ok x /\ d prev x = true) ->
    holds (rc_drop go2 t itr1 prev cnt)
      (fun '(i1, c) => CI (t, i1, itr2, prev, c) /\ itr1 <= i1 /\ (itr1 < i1 \/ itr1 = length s)).
  Proof.
    intros HC Hx. unfold rc_drop.
    apply loop_rule with
      (I := fun '(i1, c) => CI (t, i1, itr2, prev, c) /\ (itr1 < i1 \/ itr1 = i1))
      (mu := fun '(i1, c) => length s - i1).
    - intros [i1 c] [HI Hle]. destruct (CI_length _ _ _ _ _ HI) as [Hl Hi1].
      rewrite Hl. destruct (Nat.eqb_spec (length s) i1) as [E|E].
      + cbn [holds]. split; [exact HI|lia].
      + destruct (CI_read _ _ _ _ _ HI ltac:(lia)) as (x & Er & Hf & Ht).
        rewrite Er. cbn [bind].
        assert (Hz : exists z, d prev z = true).
        { destruct Hx as [Hx|(z & _ & Hz)]; [lia|eauto]. }
        destruct Hz as (z & Hz). rewrite (go2_d prev x z Hz).
        destruct (d prev x) eqn:Ed.
        * cbn [holds]. split; [split; [auto|lia]|lia].
        * cbn [holds]. split; [exact HI|]. split; [lia|].
          destruct Hle as [Hle|Hle]; [auto|]. subst i1.
          destruct Hx as [Hx|(z' & Hz1 & Hz2)]; [auto|]. congruence.
    - auto.
    - destruct (CI_length _ _ _ _ _ HC). lia.
  Qed.

  Lemma remove_consecutives_gen_ok :
    exists junk, remove_consecutives_gen go1 go2 s =
      Ok (drop_after d s ++ junk, length s - length (drop_after d s)) /\
      length junk = length s - length (drop_after d s).
  Proof.
    assert (H : holds (remove_consecutives_gen go1 go2 s) (fun r => exists junk,
      fst r = drop_after d s ++ junk /\
      length junk = length s - length (drop_after d s) /\ snd r = length s - length (drop_after d s))).
    { unfold remove_consecutives_gen. destruct (Nat.eqb_spec (length s) 0) as [E0|E0].
      { assert (s = []) as -> by (destruct s; [auto|discriminate]). exists []. auto. }
      destruct s as [|x0 s'] eqn:Es; [simpl in E0; lia|]. rewrite <- Es in *.
      assert (Er0 : rd s 0 = Ok x0) by (rewrite Es; reflexivity).
      rewrite Er0. cbn [bind].
      apply loop_rule with (I := CI) (mu := fun '(t, i1, i2, pv, c) => length s - i1).
      - intros [[[[t i1] i2] pv] c] HI. destruct (CI_length _ _ _ _ _ HI) as [Hl Hi1].
        rewrite Hl. destruct (Nat.eqb_spec (length s) i1) as [E|E].
        + cbn [holds]. destruct HI as (dn & y & mid & rest & H1 & H2 & H3 & H4 & H5 & H6 & H7).
          assert (rest = []) as ->.
          { apply length_zero_iff_nil. apply (f_equal (@length A)) in H1. rewrite app_length in H1. lia. }
          rewrite app_nil_r in *. rewrite <- H1 in *.
          exists mid. cbn [fst snd]. repeat split; auto; lia.
        + eapply holds_bind2; [apply (rc_keep_ok _ _ _ _ _ HI)|].
          intros [[[t' j1] j2] pv'] (HI' & Hle & Hx).
          eapply holds_bind2; [apply (rc_drop_ok _ _ _ _ _ HI' Hx)|].
          intros [k1 c'] (HI2 & Hk0 & Hk). cbn [holds]. split; [exact HI2|].
          destruct (CI_length _ _ _ _ _ HI') as [_ Hj].
          destruct (CI_length _ _ _ _ _ HI2) as [_ Hk1].
          destruct Hk as [Hk|Hk]; lia.
      - exists [], x0, [], s'. rewrite Es. cbn. repeat split; auto.
      - lia. }
    apply holds_ex in H. destruct H as ([r c] & E & junk & H1 & H2 & H3). cbn [fst snd] in *.
    exists junk. subst. auto.
  Qed.
End Consec.

Lemma remove_consecutives_pred_ok {A} (p : A -> bool) (s : list A) :
  let kept := drop_after (fun y x => p x && p y) s in
  exists junk, remove_consecutives_inplace_pred p s = Ok (kept ++ junk, length s - length kept) /\
    length junk = length s - length kept.
Proof.
  apply remove_consecutives_gen_ok.
  - intros y x. now rewrite negb_andb.
  - intros prev x H z. apply andb_prop in H. destruct H as [-> ->]. reflexivity.
  - intros prev x z H. apply andb_prop in H. destruct H as [_ ->]. now rewrite andb_true_r.
Qed.

Lemma remove_consecutives_eq_ok {A} (eqb : A -> A -> bool) (s : list A) :
  (forall x y, eqb x y = true <-> x = y) ->
  let kept := drop_after (fun y x => eqb y x) s in
  exists junk, remove_consecutives_inplace_eq eqb s = Ok (kept ++ junk, length s - length kept) /\
    length junk = length s - length kept.
Proof.
  intros He. apply remove_consecutives_gen_ok.
  - reflexivity.
  - intros prev x H z. apply He in H. now subst.
  - reflexivity.
Qed.

Lemma resized_ok {A} (kept junk s : list A) r :
  r = Ok (kept ++ junk, length s - length kept) -> length junk = length s - length kept ->
  resized r = Ok kept.
Proof.
  intros -> H. unfold resized. cbn [bind]. unfold resize_down.
  rewrite app_length. replace (length kept + length junk - (length s - length kept)) with (length kept) by lia.
  now rewrite firstn_app_len.
Qed.

(* properties of the specification: no two neighbours that should have been merged *)
Lemma drop_after_adjacent {A} (d : A -> A -> bool) :
  (forall y x, d y x = true -> forall z, d y z = d x z) ->
  forall s i y x, nth_error (drop_after d s) i = Some y -> nth_error (drop_after d s) (S i) = Some x ->
  d y x = false.
Proof.
  intros Hd s.
  (* generalise: the last kept element stands for the last element *)
  assert (G : forall l, l <> [] ->
     (exists dn y k z, l = dn ++ [y] /\ drop_after d l = k ++ [z] /\ (forall x, d z x = d y x)) /\
     forall i y x, nth_error (drop_after d l) i = Some y -> nth_error (drop_after d l) (S i) = Some x -> d y x = false).
  { intros l. induction l as [|x l IH] using rev_ind; intros Hl; [congruence|].
    destruct l as [|a l0] eqn:El.
    - split.
      + exists [], x, [], x. auto.
      + intros [|i] y z H1 H2; simpl in *; try discriminate.
    - rewrite <- El in *. assert (Hn : l <> []) by (rewrite El; discriminate).
      destruct (IH Hn) as ((dn & y & k & z & E1 & E2 & E3) & IH2).
      assert (Es : drop_after d (l ++ [x]) = drop_after d l ++ (if d y x then [] else [x])).
      { rewrite E1. apply drop_after_snoc. }
      split.
      + destruct (d y x) eqn:Edx.
        * exists l, x, k, z. rewrite Es, app_nil_r. repeat split; auto.
          intros w. rewrite E3. now apply Hd.
        * exists l, x, (drop_after d l), x. rewrite Es. auto.
      + intros i u v H1 H2. rewrite Es in H1, H2. destruct (d y x) eqn:Edx.
        * rewrite app_nil_r in *. eauto.
        * destruct (lt_dec (S i) (length (drop_after d l))) as [L|L].
          -- rewrite nth_error_app1 in H1, H2 by lia. eauto.
          -- pose proof (nth_error_some_lt _ _ _ H2) as L2. rewrite app_length in L2. simpl in L2.
             rewrite nth_error_app2 in H2 by lia.
             replace (S i - length (drop_after d l)) with 0 in H2 by lia. simpl in H2. inversion H2; subst v.
             rewrite nth_error_app1 in H1 by lia.
             rewrite E2 in H1, L. rewrite app_length in L. simpl in L.
             rewrite E2, app_length in L2. simpl in L2.
             rewrite nth_error_app2 in H1 by lia.
             replace (i - length k) with 0 in H1 by lia. simpl in H1. inversion H1; subst u.
             now rewrite E3. }
  intros i y x H1 H2. destruct s as [|a s'].
  - destruct i; discriminate.
  - eapply G; eauto. discriminate.
Qed.

Lemma drop_after_fix {A} (d : A -> A -> bool) (s : list A) :
  (forall i y x, nth_error s i = Some y -> nth_error s (S i) = Some x -> d y x = false) ->
  drop_after d s = s.
Proof.
  induction s as [|x s IH] using rev_ind; intros H; [reflexivity|].
  destruct s as [|y s _] using rev_ind; [reflexivity|].
  rewrite drop_after_snoc, IH.
  - rewrite (H (length s) y x); auto.
    + rewrite <- app_assoc. rewrite nth_error_app2 by lia. now rewrite Nat.sub_diag.
    + rewrite nth_error_app2 by (rewrite app_length; simpl; lia).
      rewrite app_length, Nat.add_comm. cbn [length Nat.add]. now rewrite Nat.sub_diag.
  - intros i a b H1 H2. apply (H i).
    + rewrite nth_error_app1; auto. eapply nth_error_some_lt; eauto.
    + rewrite nth_error_app1; auto. eapply nth_error_some_lt; eauto.
Qed.

Lemma drop_after_idem {A} (d : A -> A -> bool) (s : list A) :
  (forall y x, d y x = true -> forall z, d y z = d x z) ->
  drop_after d (drop_after d s) = drop_after d s.
Proof. intros H. apply drop_after_fix. intros i y x. now apply drop_after_adjacent. Qed.

(* ---------- remove_duplicates ---------- *)
Lemma first_occ_snoc {A} (eqb : A -> A -> bool) l x :
  first_occurrences eqb (l ++ [x]) =
  first_occurrences eqb l ++ (if existsb (eqb x) l then [] else [x]).
Proof.
  unfold first_occurrences. rewrite app_length. cbn [length].
  rewrite seq_app. cbn [seq].
  assert (E : combine (seq 0 (length l) ++ [0 + length l]) (l ++ [x])
              = combine (seq 0 (length l)) l ++ [(length l, x)]).
  { clear. change [(length l, x)] with [(0 + length l, x)]. generalize 0 as a. induction l as [|y l IH]; intros a; simpl.
      reflexivity.
    - f_equal. specialize (IH (S a)). replace (a + S (length l)) with (S a + length l) by lia. exact IH. }
  rewrite E, filter_app, map_app. f_equal.
  - f_equal. apply filter_ext_in. intros [i y] Hin. cbn [fst snd].
    apply in_combine_l in Hin. apply in_seq in Hin.
    rewrite firstn_app. replace (i - length l) with 0 by lia. simpl. now rewrite app_nil_r.
  - cbn [filter fst snd]. rewrite firstn_app_len. destruct (existsb (eqb x) l); reflexivity.
Qed.

Lemma remove_duplicates_ok (s : list ascii) :
  Forall (fun c => nat_of_ascii c < 128) s ->
  remove_duplicates s = Ok (first_occurrences Ascii.eqb s).
Proof.
  intros Hs. apply holds_eq. unfold remove_duplicates.
  eapply holds_bind2 with (P := fun st => snd st = first_occurrences Ascii.eqb s).
  - pose proof (for_up_rule (S := (list bool * list ascii)%type)
      (fun i st => length (fst st) = 255 /\ snd st = first_occurrences Ascii.eqb (firstn i s) /\
         forall c, nat_of_ascii c < 128 ->
           nth_error (fst st) (nat_of_ascii c) = Some (existsb (Ascii.eqb c) (firstn i s)))) as R.
    eapply holds_weaken.
    + apply R.
      * intros k [t res] Hk (H1 & H2 & H3). cbn [fst snd] in *.
        apply holds_bind, holds_rd; [lia|]. intros c Hc.
        rewrite Forall_forall in Hs. pose proof (Hs c (nth_error_In _ _ Hc)) as Hlt.
        unfold char_as_index. destruct (Nat.ltb_spec (nat_of_ascii c) 128); [|lia].
        rewrite (rd_nth _ _ _ (H3 c Hlt)). cbn [bind].
        rewrite (firstn_S_nth _ _ _ Hc).
        destruct (existsb (Ascii.eqb c) (firstn k s)) eqn:Ee.
        -- cbn [holds fst snd]. repeat split; auto.
           ++ rewrite first_occ_snoc, Ee, app_nil_r. auto.
           ++ intros c' Hc'. rewrite (H3 c' Hc'). rewrite existsb_app. simpl.
              rewrite orb_false_r. destruct (Ascii.eqb_spec c' c); [subst; now rewrite Ee|].
              now rewrite orb_false_r.
        -- rewrite wr_ok by lia. cbn [bind holds fst snd]. repeat split.
           ++ now rewrite upd_length.
           ++ rewrite first_occ_snoc, Ee. now rewrite H2.
           ++ intros c' Hc'. rewrite nth_error_upd. rewrite eqb_nat_of_ascii, H1.
              rewrite existsb_app. simpl. rewrite orb_false_r.
              destruct (Ascii.eqb_spec c c') as [->|Hne].
              ** destruct (Nat.ltb_spec (nat_of_ascii c') 255); [|lia].
                 now rewrite Ascii.eqb_refl, orb_true_r.
              ** rewrite (H3 c' Hc'). destruct (Ascii.eqb_spec c' c); [congruence|].
                 now rewrite orb_false_r.
      * cbn [fst snd]. repeat split; auto. intros c Hc. simpl existsb.
        assert (E : forall n k, k < n -> nth_error (repeat false n) k = Some false).
        { clear. induction n as [|n IH]; intros [|k] Hk; simpl; auto; try lia. apply IH; lia. }
        apply E. lia.
    + intros [t res] (_ & H & _). cbn [fst snd] in *. rewrite H. f_equal. cbn [plus]; now rewrite firstn_all.
  - intros [t res] H. cbn [snd] in H. now subst.
Qed.

(* ---------- trimming ---------- *)
Section TrimP.
  Context {A : Type}.
  Variable p : A -> bool.

  (* exact behaviour: the removed suffix never includes the first element *)
  Lemma remove_trailing_ok (x0 : A) (s : list A) :
    exists t suf, x0 :: s = (x0 :: t) ++ suf /\ Forall (fun x => p x = true) suf /\
      (forall t' x, t = t' ++ [x] -> p x = false) /\
      remove_trailing p (x0 :: s) = Ok (length suf).
  Proof.
    set (l := x0 :: s).
    assert (H : holds (remove_trailing p l) (fun c =>
       exists t suf, x0 :: s = (x0 :: t) ++ suf /\ Forall (fun x => p x = true) suf /\
         (forall t' x, t = t' ++ [x] -> p x = false) /\ c = length suf)).
    { unfold remove_trailing. destruct (Nat.eqb_spec (length l) 0) as [E|_]; [discriminate|].
      apply loop_rule with
        (I := fun '(itr, c) => exists t suf, s = t ++ suf /\ length t = itr /\ c = length suf /\
                 Forall (fun x => p x = true) suf)
        (mu := fun '(itr, c) => itr).
      - intros [itr c] (t & suf & H1 & H2 & H3 & H4).
        destruct (Nat.eqb_spec itr 0) as [E|E].
        + cbn [holds]. exists t, suf. repeat split; auto.
          * cbn [app]. now rewrite H1.
          * intros t' x ->. rewrite app_length in H2. simpl in H2. lia.
        + destruct t as [|y t _] using rev_ind; [simpl in H2; lia|].
          rewrite app_length in H2. simpl in H2.
          assert (Er : rd l itr = Ok y).
          { unfold l. rewrite H1. rewrite <- app_assoc. cbn [app].
            change (x0 :: t ++ y :: suf) with ((x0 :: t) ++ y :: suf).
            replace itr with (length (x0 :: t)) by (simpl; lia). apply rd_here. }
          rewrite Er. cbn [bind]. destruct (p y) eqn:Ep; cbn [holds].
          * split; [|lia]. exists t, (y :: suf). repeat split; auto; try (simpl; lia).
            now rewrite H1, <- app_assoc.
          * exists (t ++ [y]), suf. repeat split; auto.
            -- cbn [app]. now rewrite H1.
            -- intros t' x Ht. apply app_inj_tail in Ht. destruct Ht as [_ <-]. exact Ep.
      - exists s, []. unfold l. simpl. rewrite app_nil_r, Nat.sub_0_r. auto.
      - unfold l. simpl. lia. }
    apply holds_ex in H. destruct H as (c & E & t & suf & H1 & H2 & H3 & H4). subst c.
    exists t, suf. auto.
  Qed.

  (* if some element must stay, trimming is exact *)
  Lemma remove_trailing_str_trimmed (s : list A) :
    (s = [] \/ exists x, In x s /\ p x = false) ->
    exists t, remove_trailing_str p s = Ok t /\ trimmed_right p s t.
  Proof.
    intros [->|Hx].
    { exists []. split; [reflexivity|]. exists []. repeat split; auto.
      intros t' x E. destruct t'; discriminate. }
    destruct s as [|x0 s]; [destruct Hx as (x & [] & _)|].
    destruct (remove_trailing_ok x0 s) as (t & suf & H1 & H2 & H3 & H4).
    exists (x0 :: t). unfold remove_trailing_str. rewrite H4. cbn [bind].
    change (length (x0 :: s) =? 0) with false. cbn iota. split.
    - f_equal. unfold resize_down. rewrite H1, app_length.
      rewrite Nat.add_sub. now rewrite firstn_app_len.
    - exists suf. repeat split; auto.
      intros t' x E. destruct t' as [|y t'].
      + simpl in E. inversion E; subst x t. destruct Hx as (z & Hin & Hz).
        rewrite H1 in Hin. apply in_app_or in Hin. destruct Hin as [[->|[]]|Hin]; auto.
        rewrite Forall_forall in H2. specialize (H2 z Hin). congruence.
      + simpl in E. inversion E; subst. now apply (H3 t').
  Qed.

  Lemma remove_trailing_str_all (x0 : A) (s : list A) :
    Forall (fun x => p x = true) (x0 :: s) -> remove_trailing_str p (x0 :: s) = Ok [x0].
  Proof.
    intros Hall. destruct (remove_trailing_ok x0 s) as (t & suf & H1 & H2 & H3 & H4).
    assert (t = []) as ->.
    { destruct t as [|y t _] using rev_ind; auto. exfalso.
      specialize (H3 t y eq_refl). rewrite Forall_forall in Hall.
      assert (p y = true); [|congruence]. apply Hall. rewrite H1.
      cbn [app]. right. rewrite <- app_assoc. apply in_or_app. right. left. reflexivity. }
    unfold remove_trailing_str. rewrite H4. cbn [bind].
    change (length (x0 :: s) =? 0) with false. cbn iota. f_equal. unfold resize_down.
    rewrite H1, app_length, Nat.add_sub. now rewrite firstn_app_len.
  Qed.

  Lemma copy_down_ok (pre t : list A) :
    exists junk, copy_down (pre ++ t) (length pre) = Ok (t ++ junk) /\ length junk = length pre.
  Proof.
    assert (H : holds (copy_down (pre ++ t) (length pre))
              (fun r => exists junk, r = t ++ junk /\ length junk = length pre)).
    { unfold copy_down. rewrite app_length.
      replace (length pre + length t - length pre) with (length t) by lia.
      pose proof (for_up_rule (S := list A)
        (fun k l => exists gap, l = firstn k t ++ gap ++ skipn k t /\ length gap = length pre)) as R.
      eapply holds_weaken.
      - apply R.
        + intros k l Hk (gap & Hl & Hg).
          destruct (nth_error t k) as [x|] eqn:Ex; [|apply nth_error_None in Ex; lia].
          rewrite (skipn_nth_cons _ _ _ Ex) in Hl.
          assert (Er : rd l (length pre + k) = Ok x).
          { rewrite Hl, app_assoc. replace (length pre + k) with (length (firstn k t ++ gap)).
            - apply rd_here.
            - rewrite app_length, firstn_length. lia. }
          rewrite Er. cbn [bind].
          destruct gap as [|g gap].
          * (* empty prefix: copy onto itself *)
            simpl in Hl. replace k with (length (firstn k t)) at 1 by (rewrite firstn_length; lia).
            rewrite Hl, wr_here. cbn [holds]. exists [].
            rewrite (firstn_S_nth _ _ _ Ex). split; auto. cbn [app]. now rewrite <- app_assoc.
          * replace k with (length (firstn k t)) at 1 by (rewrite firstn_length; lia).
            rewrite Hl. cbn [app]. rewrite wr_here. cbn [holds].
            exists (gap ++ [x]). rewrite (firstn_S_nth _ _ _ Ex). split.
            -- rewrite <- !app_assoc. cbn [app]. reflexivity.
            -- rewrite app_length. simpl in *. lia.
        + exists pre. simpl. auto.
      - intros r (gap & -> & Hg). exists gap. cbn [plus].
        rewrite firstn_all, skipn_all, app_nil_r. auto. }
    apply holds_ex in H. destruct H as (r & E & junk & -> & Hj). eauto.
  Qed.

  Lemma remove_leading_str_trimmed (s : list A) :
    exists t, remove_leading_str p s = Ok t /\ trimmed_left p s t.
  Proof.
    destruct s as [|x0 s0] eqn:Es.
    { exists []. split; [reflexivity|]. exists []. repeat split; auto. discriminate. }
    rewrite <- Es. assert (Hn : length s <> 0) by (rewrite Es; discriminate).
    assert (H : holds (remove_leading_str p s) (trimmed_left p s)).
    { unfold remove_leading_str, remove_leading.
      destruct (Nat.eqb_spec (length s) 0) as [E|_]; [lia|].
      apply holds_bind. eapply holds_bind2 with
        (P := fun itr => exists pre t, s = pre ++ t /\ length pre = itr /\
             Forall (fun x => p x = true) pre /\ (forall x t', t = x :: t' -> p x = false)).
      - apply loop_rule with
          (I := fun itr => exists pre t, s = pre ++ t /\ length pre = itr /\ Forall (fun x => p x = true) pre)
          (mu := fun itr => length s - itr).
        + intros itr (pre & t & H1 & H2 & H3).
          destruct (Nat.eqb_spec (length s) itr) as [E|E].
          * cbn [holds]. exists pre, t. repeat split; auto.
            intros x t' ->. rewrite H1, app_length in E. simpl in E. lia.
          * destruct t as [|x t]; [rewrite app_nil_r in H1; subst; lia|].
            assert (Er : rd s itr = Ok x) by (rewrite H1, <- H2; apply rd_here).
            rewrite Er. cbn [bind]. destruct (p x) eqn:Ep; cbn [holds].
            -- split.
               ++ exists (pre ++ [x]), t. rewrite <- app_assoc. repeat split; auto.
                  ** rewrite app_length; simpl; lia.
                  ** apply Forall_app; auto.
               ++ rewrite H1, app_length. simpl. lia.
            -- exists pre, (x :: t). repeat split; auto. intros y t' Ey. inversion Ey; subst; auto.
        + exists [], s. auto.
        + lia.
      - intros itr (pre & t & H1 & H2 & H3 & H4).
        destruct (copy_down_ok pre t) as (junk & Ec & Hj).
        rewrite H1, <- H2, Ec. cbn [bind holds].
        unfold resize_down. rewrite app_length, Hj, Nat.add_sub, firstn_app_len.
        exists pre. auto. }
    apply holds_ex in H. destruct H as (t & E & Ht). rewrite Es in *. eauto.
  Qed.

  Lemma remove_leading_trailing_ok (s : list A) :
    exists mid t, remove_leading_trailing p s = Ok t /\ trimmed_left p s mid /\ trimmed_right p mid t.
  Proof.
    destruct (remove_leading_str_trimmed s) as (m & Em & Hm).
    destruct (remove_trailing_str_trimmed m) as (t & Et & Ht).
    { destruct m as [|x m']; [auto|]. right. exists x. split; [left; auto|].
      destruct Hm as (pre & _ & _ & H). now apply (H x m'). }
    exists m, t. unfold remove_leading_trailing. rewrite Em. cbn [bind]. auto.
  Qed.
End TrimP.

Lemma trimmed_left_unique {A} (p : A -> bool) s t t' :
  trimmed_left p s t -> trimmed_left p s t' -> t = t'.
Proof.
  revert t t'. induction s as [|x s IH]; intros t t' (pre & E & Hp & Hn) (pre' & E' & Hp' & Hn').
  - destruct pre, pre'; simpl in *; try discriminate. congruence.
  - destruct pre as [|y pre], pre' as [|y' pre']; simpl in *.
    + congruence.
    + inversion E'; subst. inversion Hp'; subst. specialize (Hn y' s eq_refl) || idtac.
      rewrite (Hn y' (pre' ++ t')) in H1; [discriminate|auto].
    + inversion E; subst. inversion Hp; subst.
      rewrite (Hn' y (pre ++ t)) in H1; [discriminate|auto].
    + inversion E; subst. inversion E'; subst. inversion Hp; subst. inversion Hp'; subst.
      apply IH; [exists pre|exists pre']; auto.
Qed.

Lemma trimmed_right_unique {A} (p : A -> bool) s t t' :
  trimmed_right p s t -> trimmed_right p s t' -> t = t'.
Proof.
  assert (R : forall s t, trimmed_right p s t -> trimmed_left p (rev s) (rev t)).
  { clear. intros s t (suf & -> & H & Hn). exists (rev suf). rewrite rev_app_distr.
    split; auto. split; [now apply Forall_rev|].
    intros x t' E. apply (Hn (rev t')). rewrite <- (rev_involutive t), E. reflexivity. }
  intros H1 H2. apply R in H1, H2. pose proof (trimmed_left_unique p _ _ _ H1 H2) as E.
  rewrite <- (rev_involutive t), E, rev_involutive. reflexivity.
Qed.

Lemma remove_consecutives_pred_full {A} (p : A -> bool) (s : list A) :
  let kept := drop_after (fun y x => p x && p y) s in
  (exists junk, remove_consecutives_inplace_pred p s = Ok (kept ++ junk, length s - length kept) /\
     length junk = length s - length kept) /\
  resized (remove_consecutives_inplace_pred p s) = Ok kept /\
  (forall i y x, nth_error kept i = Some y -> nth_error kept (S i) = Some x -> p x && p y = false) /\
  resized (remove_consecutives_inplace_pred p kept) = Ok kept.
Proof.
  intros kept.
  assert (Hd : forall y x, p x && p y = true -> forall z, p z && p y = p z && p x).
  { intros y x H z. apply andb_prop in H. destruct H as [-> ->]. reflexivity. }
  destruct (remove_consecutives_pred_ok p s) as (junk & E & Hj). fold kept in E, Hj.
  split; [eauto|]. split; [eapply resized_ok; eauto|]. split.
  - exact (drop_after_adjacent (fun y x => p x && p y) Hd s).
  - destruct (remove_consecutives_pred_ok p kept) as (junk' & E' & Hj').
    unfold kept in E', Hj' at 1. cbv zeta in E'.
    pose proof (resized_ok _ _ _ _ E' Hj') as R. unfold kept at 1.
    rewrite R. f_equal. apply (drop_after_idem (fun y x => p x && p y)). exact Hd.
Qed.

Lemma remove_consecutives_eq_full {A} (eqb : A -> A -> bool) (s : list A) :
  (forall x y, eqb x y = true <-> x = y) ->
  let kept := drop_after eqb s in
  (exists junk, remove_consecutives_inplace_eq eqb s = Ok (kept ++ junk, length s - length kept) /\
     length junk = length s - length kept) /\
  resized (remove_consecutives_inplace_eq eqb s) = Ok kept /\
  (forall i y x, nth_error kept i = Some y -> nth_error kept (S i) = Some x -> y <> x) /\
  resized (remove_consecutives_inplace_eq eqb kept) = Ok kept.
Proof.
  intros He kept.
  assert (Hd : forall y x, eqb y x = true -> forall z, eqb y z = eqb x z).
  { intros y x H z. apply He in H. now subst. }
  destruct (remove_consecutives_eq_ok eqb s He) as (junk & E & Hj).
  change (fun y x => eqb y x) with eqb in E, Hj. fold kept in E, Hj.
  split; [eauto|]. split; [eapply resized_ok; eauto|]. split.
  - intros i y x H1 H2 ->. pose proof (drop_after_adjacent eqb Hd s i x x H1 H2) as H.
    rewrite (proj2 (He x x) eq_refl) in H. discriminate.
  - destruct (remove_consecutives_eq_ok eqb kept He) as (junk' & E' & Hj').
    change (fun y x => eqb y x) with eqb in E', Hj'.
    pose proof (resized_ok _ _ _ _ E' Hj') as R.
    rewrite R. f_equal. apply (drop_after_idem eqb). exact Hd.
Qed.

Lemma for_up_app {S} (body : nat -> S -> outcome S) n : forall m i st,
  for_up i (n + m) body st = (st' <- for_up i n body st ;; for_up (i + n) m body st').
Proof.
  induction n as [|n IH]; intros m i st; cbn [plus for_up].
  - cbn [bind]. now rewrite Nat.add_0_r.
  - destruct (body i st) as [st'| |]; cbn [bind]; auto.
    rewrite IH. now rewrite Nat.add_succ_r.
Qed.

Lemma for_up_ext {S} (b1 b2 : nat -> S -> outcome S) n : forall i st,
  (forall k s, i <= k < i + n -> b1 k s = b2 k s) -> for_up i n b1 st = for_up i n b2 st.
Proof.
  induction n as [|n IH]; intros i st H; cbn [for_up]; auto.
  rewrite H by lia. destruct (b2 i st); cbn [bind]; auto. apply IH. intros; apply H; lia.
Qed.

Lemma remove_duplicates_ub (a b : list ascii) (c : ascii) : 128 <= nat_of_ascii c ->
  Forall (fun c => nat_of_ascii c < 128) a ->
  remove_duplicates (a ++ c :: b) = UB.
Proof.
  intros Hc Ha. pose proof (remove_duplicates_ok a Ha) as Hok.
  unfold remove_duplicates in *. rewrite app_length, for_up_app.
  erewrite for_up_ext.
  2: { intros k st Hk. destruct st as [table result].
       rewrite (rd_app_l a) by lia.
       exact (eq_refl ((fun i '(table, result) => c <- rd a i ;;
         match char_as_index c with
         | None => UB
         | Some k =>
             seen <- rd table k ;;
             if (seen : bool) then Ok (table, result)
             else t' <- wr table k true ;; Ok (t', result ++ [c])
         end) k (table, result))). }
  destruct (for_up 0 (length a) _ _) as [[t res]| |]; try discriminate.
  cbn [bind length for_up plus]. rewrite rd_here. cbn [bind].
  unfold char_as_index. destruct (Nat.ltb_spec (nat_of_ascii c) 128); [lia|]. reflexivity.
Qed.
