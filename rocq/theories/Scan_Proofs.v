(* Proofs about offset splitting and the range scans. *)
From Coq Require FinFun.
From Verif Require Import Base Num_Model Scan_Model Scan_Spec.
Local Open Scope nat_scope.

(* ---------------- offsets ---------------- *)
Definition cut_end (cuts : list (nat * nat)) (k : nat) : nat :=
  match k with 0 => 0 | S k => snd (nth k cuts (0, 0)) end.

(* the predicate object after k positive requests *)
Definition offsets_at (l : list Z) (r : bool) (k : nat) (o : offset_predicate) : Prop :=
  offset_list o = l /\ rotate o = r /\
  (if r then (l = [] -> k = 0 /\ current_index o = 0) /\ (l <> [] -> current_index o = k mod length l)
   else current_index o = k /\ k <= length l).

Lemma next_offset_ok l r k o : offsets_at l r k o ->
  exists o', next_offset o = Ok (offset_at l r k, o') /\
    offset_list o' = l /\ rotate o' = r /\
    ((0 < offset_at l r k)%Z -> offsets_at l r (S k) o') /\
    (r = false -> current_index o' = S k).
Proof.
  intros (Hl & Hr & Hi). unfold next_offset. rewrite Hl, Hr. unfold offset_at.
  destruct r.
  - destruct l as [|z l].
    + destruct Hi as (Hi & _). destruct (Hi eq_refl) as (-> & ->). cbn.
      eexists. split; [reflexivity|]. cbn. repeat split; auto; try discriminate; lia.
    + destruct Hi as (_ & Hi). rewrite Hi by discriminate. set (n := length (z :: l)).
      assert (Hn : n <> 0) by (unfold n; cbn; lia).
      pose proof (Nat.mod_upper_bound k n Hn) as Hb.
      rewrite rd_app_l by exact Hb.
      rewrite (rd_nth (z :: l) (k mod n) (nth (k mod n) (z :: l) 0%Z)) by (apply nth_error_nth'; exact Hb).
      cbn [bind]. eexists. split; [reflexivity|]. cbn [offset_list rotate]. split; auto. split; auto.
      split; [|discriminate]. intros _. unfold offsets_at. cbn [offset_list rotate current_index].
      split; auto. split; auto. split; [discriminate|]. intros _. cbn [andb]. fold n.
      destruct (Nat.leb_spec n (S (k mod n))).
      * apply Nat.mod_unique with (q := S (k / n)); [lia|]. pose proof (Nat.div_mod k n Hn). nia.
      * apply Nat.mod_unique with (q := k / n); [lia|]. pose proof (Nat.div_mod k n Hn). lia.
  - destruct Hi as (-> & Hk).
    assert (E : rd (l ++ [0%Z]) k = Ok (nth k l 0%Z)).
    { destruct (Nat.eq_dec k (length l)) as [->|Hne].
      - rewrite rd_here. now rewrite nth_overflow.
      - rewrite rd_app_l by lia. apply rd_nth, nth_error_nth'. lia. }
    rewrite E. cbn [bind andb]. eexists. split; [reflexivity|]. cbn [offset_list rotate current_index].
    split; auto. split; auto. split; auto. intros Hp.
    unfold offsets_at. cbn [offset_list rotate current_index]. split; auto. split; auto. split; auto.
    destruct (Nat.eq_dec k (length l)) as [->|]; [|lia]. rewrite nth_overflow in Hp by lia. lia.
Qed.

Lemma cut_end_app cuts q k : k <= length cuts -> cut_end (cuts ++ [q]) k = cut_end cuts k.
Proof. destruct k; cbn; auto. intros H. now rewrite app_nth1. Qed.

Lemma offset_splitter_ok l r n : exists cuts o',
  offset_splitter n (make_offsets l r) = Ok (cuts, length cuts, o') /\
  sliced (offset_at l r) n cuts /\ reset_offsets o' = make_offsets l r /\
  (r = false -> cut_end cuts (length cuts) < n -> current_index o' = S (length cuts)).
Proof.
  unfold offset_splitter. destruct (Nat.eqb_spec n 0) as [->|Hn].
  { exists [], (make_offsets l r). split; auto. split; [|split; auto; cbn; lia].
    split; [intros k a b; destruct k; discriminate|now left]. }
  set (P := fun '(cuts, c, o') => c = length cuts /\ sliced (offset_at l r) n cuts /\
              reset_offsets o' = make_offsets l r /\
              (r = false -> cut_end cuts (length cuts) < n -> current_index o' = S (length cuts))).
  match goal with |- exists cuts o', ?m = _ /\ _ => assert (H : holds m P) end.
  2:{ apply holds_ex in H. destruct H as ([[cuts c] o'] & -> & -> & H). exists cuts, o'. auto. }
  apply loop_rule with
    (I := fun '(second, len, out, mc, o) => second + len = n /\ mc = length out /\
            offsets_at l r (length out) o /\ second = cut_end out (length out) /\
            forall k a b, nth_error out k = Some (a, b) ->
              a = cut_end out k /\ a < n /\ (0 < offset_at l r k)%Z /\
              Z.of_nat b = Z.min (Z.of_nat n) (Z.of_nat a + offset_at l r k))
    (mu := fun '(second, _, _, _, _) => n - second).
  - intros [[[[second len] out] mc] o] (Hlen & -> & Ho & Hs & Hc).
    destruct (Nat.eqb_spec n second) as [Heq|Hne].
    + cbn [holds]. unfold P. split; auto. destruct Ho as (Ho1 & Ho2 & Ho3). split; [|split].
      * split; auto. left. fold (cut_end out (length out)). congruence.
      * unfold reset_offsets, make_offsets. now rewrite Ho1, Ho2.
      * intros _ Hlt. lia.
    + destruct (next_offset_ok l r (length out) o Ho) as (o' & E & E1 & E2 & E3 & E4).
      rewrite E. cbn [bind]. destruct (Z.ltb_spec 0 (offset_at l r (length out))) as [Hp|Hp]; cbn [negb].
      * cbv zeta. set (inc := Z.to_nat (Z.min (Z.of_nat len) (offset_at l r (length out)))).
        assert (Hinc : Z.of_nat inc = Z.min (Z.of_nat len) (offset_at l r (length out))) by (unfold inc; lia).
        cbn [holds]. split; [|lia]. split; [lia|]. rewrite app_length. cbn [length]. rewrite Nat.add_1_r.
        split; [lia|]. split; [now apply E3|]. split.
        { cbn [cut_end]. rewrite app_nth2 by lia. now rewrite Nat.sub_diag. }
        intros k a b Hk. destruct (Nat.lt_ge_cases k (length out)) as [Hlt|Hge].
        -- rewrite nth_error_app1 in Hk by lia. rewrite cut_end_app by lia. now apply Hc.
        -- pose proof (nth_error_some_lt _ _ _ Hk) as Hk2. rewrite app_length in Hk2. cbn [length] in Hk2.
           assert (k = length out) by lia. subst k.
           rewrite nth_error_app2, Nat.sub_diag in Hk by lia. cbn in Hk. injection Hk as <- <-.
           rewrite cut_end_app by lia. repeat split; auto; lia.
      * cbn [holds]. unfold P. split; auto. split; [|split].
        -- split; auto.
        -- unfold reset_offsets, make_offsets. now rewrite E1, E2.
        -- intros Hr _. auto.
  - split; [lia|]. split; auto. split.
    + unfold offsets_at, make_offsets. cbn [offset_list rotate current_index]. split; auto. split; auto.
      destruct r; [|cbn; split; [auto|lia]]. split; [auto|]. intros Hl. symmetry. apply Nat.mod_0_l. destruct l; cbn; congruence.
    + split; [reflexivity|]. intros k a b; destruct k; discriminate.
  - lia.
Qed.

Lemma sliced_text {A} (s : list A) req cuts : sliced req (length s) cuts ->
  forall k, k <= length cuts -> cut_end cuts k <= length s /\
    concat (map (sub s) (firstn k cuts)) = firstn (cut_end cuts k) s.
Proof.
  intros (H & _). fold (cut_end cuts) in H. induction k as [|k IH]; intros Hk; [cbn; split; [lia|auto]|].
  destruct IH as (IH1 & IH2); [lia|].
  destruct (nth_error cuts k) as [[a b]|] eqn:E; [|apply nth_error_None in E; lia].
  destruct (H k a b E) as (Ha & Hlt & Hp & Hb).
  change (match k with 0 => 0 | S k0 => snd (nth k0 cuts (0, 0)) end) with (cut_end cuts k) in Ha.
  assert (Hend : cut_end cuts (S k) = b).
  { cbn [cut_end]. now rewrite (nth_error_nth _ _ (0, 0) E). }
  rewrite Hend. split; [lia|].
  rewrite (firstn_S_nth _ _ _ E), map_app, concat_app, IH2. cbn [map concat]. rewrite app_nil_r, <- Ha.
  assert (X : forall c, firstn c s = sub s (0, c)).
  { intros c. unfold sub. cbn [fst snd skipn]. now rewrite Nat.sub_0_r. }
  rewrite !X. apply sub_app; lia.
Qed.

Lemma sliced_unique req n c c' : sliced req n c -> sliced req n c' -> c = c'.
Proof.
  intros (H & He) (H' & He').
  assert (E : forall k, k <= length c -> k <= length c' -> firstn k c = firstn k c' /\ cut_end c k = cut_end c' k).
  { induction k as [|k IH]; intros Hk Hk'; [split; auto|].
    destruct IH as (IH & IHe); try lia.
    destruct (nth_error c k) as [[a b]|] eqn:Ec; [|apply nth_error_None in Ec; lia].
    destruct (nth_error c' k) as [[a' b']|] eqn:Ec'; [|apply nth_error_None in Ec'; lia].
    destruct (H k a b Ec) as (Ha & _ & _ & Hb). destruct (H' k a' b' Ec') as (Ha' & _ & _ & Hb').
    fold (cut_end c k) in Ha. fold (cut_end c' k) in Ha'.
    assert (a = a') by congruence. subst a'. assert (b = b') by lia. subst b'.
    split.
    - rewrite (firstn_S_nth _ _ _ Ec), (firstn_S_nth _ _ _ Ec'), IH. congruence.
    - cbn [cut_end]. now rewrite (nth_error_nth _ _ (0, 0) Ec), (nth_error_nth _ _ (0, 0) Ec'). }
  assert (L : forall c c', (forall k a b, nth_error c' k = Some (a, b) -> a = cut_end c' k /\ a < n /\ (0 < req k)%Z /\
               Z.of_nat b = Z.min (Z.of_nat n) (Z.of_nat a + req k)) ->
             (cut_end c (length c) = n \/ (req (length c) <= 0)%Z) ->
             cut_end c (length c) = cut_end c' (length c) -> length c < length c' -> False).
  { clear. intros c c' H He Ee Hl.
    destruct (nth_error c' (length c)) as [[a b]|] eqn:Ec; [|apply nth_error_None in Ec; lia].
    destruct (H _ _ _ Ec) as (Ha & Hlt & Hp & _). destruct He; lia. }
  destruct (Nat.lt_trichotomy (length c) (length c')) as [Hl|[Hl|Hl]].
  - exfalso. apply (L c c' H' He); auto. now apply E; lia.
  - destruct (E (length c)) as (X & _); try lia. rewrite firstn_all in X. rewrite Hl, firstn_all in X. exact X.
  - exfalso. apply (L c' c H He'); auto. symmetry. now apply E; lia.
Qed.

(* ---------------- counting and extremes ---------------- *)
Section Ordered.
  Context {A : Type}.
  Variables eqb ltb : A -> A -> bool.
  Hypothesis eqb_eq : forall x y, eqb x y = true <-> x = y.
  Hypothesis lt_order : strict_order ltb.

  Lemma adjacent_equal_snoc (s : list A) x y : adjacent_equal eqb ((s ++ [x]) ++ [y]) =
    adjacent_equal eqb (s ++ [x]) + (if eqb x y then 1 else 0).
  Proof using.
    clear eqb_eq lt_order ltb. induction s as [|a s IH]; [cbn; lia|].
    destruct s as [|b s]; [cbn; lia|].
    change (((a :: b :: s) ++ [x]) ++ [y]) with (a :: b :: ((s ++ [x]) ++ [y])).
    change ((a :: b :: s) ++ [x]) with (a :: b :: (s ++ [x])).
    change (((b :: s) ++ [x]) ++ [y]) with (b :: ((s ++ [x]) ++ [y])) in IH.
    change ((b :: s) ++ [x]) with (b :: (s ++ [x])) in IH.
    change (adjacent_equal eqb (a :: b :: (s ++ [x]) ++ [y])) with
      ((if eqb a b then 1 else 0) + adjacent_equal eqb (b :: (s ++ [x]) ++ [y])).
    change (adjacent_equal eqb (a :: b :: s ++ [x])) with
      ((if eqb a b then 1 else 0) + adjacent_equal eqb (b :: s ++ [x])).
    rewrite IH. lia.
  Qed.

  Lemma count_duplicates_ok s : count_consecutive_duplicates eqb s = Ok (adjacent_equal eqb s).
  Proof using eqb_eq.
    clear lt_order ltb.
    unfold count_consecutive_duplicates.
    destruct (Nat.ltb_spec (length s) 2) as [H|H].
    { destruct s as [|x [|y s]]; cbn in *; auto; lia. }
    apply holds_eq.
    apply loop_rule with
      (I := fun '(prev, itr, count) => prev <= itr < length s /\ nth_error s prev = nth_error s itr /\
              count = adjacent_equal eqb (firstn (S itr) s))
      (mu := fun '(_, itr, _) => length s - itr).
    - intros [[prev itr] count] (Hp & He & ->). cbv zeta.
      destruct (Nat.eqb_spec (S itr) (length s)) as [E|Hne].
      + cbn [holds]. rewrite E. now rewrite firstn_all.
      + destruct (rd_ok s prev ltac:(lia)) as (a & Ea & Na). destruct (rd_ok s (S itr) ltac:(lia)) as (b & Eb & Nb).
        rewrite Ea, Eb. cbn [bind]. rewrite Na in He. symmetry in He.
        assert (F : firstn (S (S itr)) s = (firstn itr s ++ [a]) ++ [b]).
        { rewrite (firstn_S_nth _ _ _ Nb). now rewrite (firstn_S_nth _ _ _ He). }
        assert (G : adjacent_equal eqb (firstn (S (S itr)) s) =
                    adjacent_equal eqb (firstn (S itr) s) + (if eqb a b then 1 else 0)).
        { rewrite F, (firstn_S_nth _ _ _ He). apply adjacent_equal_snoc. }
        destruct (eqb a b) eqn:Eab; cbn [holds].
        * split; [|lia]. split; [lia|]. apply eqb_eq in Eab. subst b. split; [congruence|]. lia.
        * split; [|lia]. split; [lia|]. split; auto. lia.
    - split; [lia|]. split; auto. destruct s; cbn in *; [lia|reflexivity].
    - lia.
  Qed.

  Lemma lt_le_trans x y z : ltb y x = false -> ltb z y = false -> ltb z x = false.
  Proof using lt_order.
    clear eqb_eq eqb.
    destruct lt_order as (Hi & Ht & Hc). intros H1 H2.
    destruct (ltb z x) eqn:E; auto. exfalso.
    destruct (ltb x y) eqn:Exy.
    - rewrite (Ht z x y E Exy) in H2. discriminate.
    - assert (x = y) by (apply Hc; auto). subst. congruence.
  Qed.
  Lemma lt_asym x y : ltb x y = true -> ltb y x = false.
  Proof using lt_order.
    clear eqb_eq eqb.
    destruct lt_order as (Hi & Ht & Hc). intros H. destruct (ltb y x) eqn:E; auto.
    rewrite <- (Hi x). symmetry. eauto.
  Qed.

  Lemma smallest_snoc s m y : smallest ltb s m -> smallest ltb (s ++ [y]) (if ltb y m then y else m).
  Proof using lt_order.
    clear eqb_eq eqb.
    intros (Hin & Hle). destruct (ltb y m) eqn:E.
    - split; [apply in_or_app; right; now left|]. intros x Hx. apply in_app_or in Hx.
      destruct Hx as [Hx|[<-|[]]]; [|apply (proj1 lt_order)].
      eapply lt_le_trans; [|apply Hle; exact Hx]. now apply lt_asym.
    - split; [apply in_or_app; now left|]. intros x Hx. apply in_app_or in Hx.
      destruct Hx as [Hx|[<-|[]]]; auto.
  Qed.
  Lemma largest_snoc s m y : largest ltb s m -> largest ltb (s ++ [y]) (if ltb m y then y else m).
  Proof using lt_order.
    clear eqb_eq eqb.
    intros (Hin & Hle). destruct (ltb m y) eqn:E.
    - split; [apply in_or_app; right; now left|]. intros x Hx. apply in_app_or in Hx.
      destruct Hx as [Hx|[<-|[]]]; [|apply (proj1 lt_order)].
      eapply lt_le_trans; [apply Hle; exact Hx|]. now apply lt_asym.
    - split; [apply in_or_app; now left|]. intros x Hx. apply in_app_or in Hx.
      destruct Hx as [Hx|[<-|[]]]; auto.
  Qed.
  Lemma smallest_one x : smallest ltb [x] x /\ largest ltb [x] x.
  Proof using lt_order.
    clear eqb_eq eqb.
    split; (split; [now left|intros y [<-|[]]; apply (proj1 lt_order)]).
  Qed.
  (* a smallest element is not above a largest one, so the else-if loses nothing *)
  Lemma below_smallest s mn mx y : smallest ltb s mn -> largest ltb s mx -> ltb y mn = true -> ltb mx y = false.
  Proof using lt_order.
    clear eqb_eq eqb.
    intros (_ & H1) (H2 & _) Hy. eapply lt_le_trans; [exact (lt_asym _ _ Hy)|].
    now apply H1.
  Qed.

  Lemma min_max_ok s : s <> [] -> holds (min_max_of_range ltb s) (fun '(mn, mx) => smallest ltb s mn /\ largest ltb s mx).
  Proof using lt_order.
    clear eqb_eq eqb.
    intros Hs. unfold min_max_of_range. destruct s as [|x t]; [congruence|]. set (s := x :: t).
    change (rd s 0) with (Ok x). cbn [bind].
    apply loop_rule with
      (I := fun '(itr, mn, mx) => itr < length s /\ smallest ltb (firstn (S itr) s) mn /\ largest ltb (firstn (S itr) s) mx)
      (mu := fun '(itr, _, _) => length s - itr).
    - intros [[itr mn] mx] (Hi & H1 & H2). cbv zeta. destruct (Nat.eqb_spec (S itr) (length s)) as [E|Hne].
      + cbn [holds]. rewrite E, firstn_all in H1, H2. auto.
      + destruct (rd_ok s (S itr) ltac:(lia)) as (y & E & N). rewrite E. cbn [bind].
        pose proof (firstn_S_nth _ _ _ N) as F.
        pose proof (smallest_snoc _ _ y H1) as S1. pose proof (largest_snoc _ _ y H2) as S2.
        rewrite <- F in S1, S2.
        destruct (ltb y mn) eqn:E1; [|destruct (ltb mx y) eqn:E2].
        * rewrite (below_smallest _ _ _ _ H1 H2 E1) in S2. cbn [holds]. repeat split; try lia; apply S1 || apply S2.
        * cbn [holds]. repeat split; try lia; apply S1 || apply S2.
        * cbn [holds]. repeat split; try lia; apply S1 || apply S2.
    - split; [cbn; lia|]. change (firstn 1 s) with [x]. apply smallest_one.
    - cbn. lia.
  Qed.

  Lemma min_element_ok s : s <> [] -> holds (min_element ltb s) (smallest ltb s).
  Proof using lt_order.
    clear eqb_eq eqb.
    intros Hs. destruct s as [|x t]; [congruence|]. set (s := x :: t). unfold min_element.
    change (rd s 0) with (Ok x). cbn [bind].
    eapply holds_weaken.
    - apply for_up_rule with (I := fun i m => smallest ltb (firstn i s) m).
      + intros k m Hk Hm. destruct (rd_ok s k) as (y & E & N); [cbn in *; lia|]. rewrite E. cbn [bind holds].
        rewrite (firstn_S_nth _ _ _ N). now apply smallest_snoc.
      + change (firstn 1 s) with [x]. apply smallest_one.
    - cbv beta. intros m Hm. replace (1 + (length s - 1)) with (length s) in Hm by (cbn; lia).
      now rewrite firstn_all in Hm.
  Qed.
  Lemma max_element_ok s : s <> [] -> holds (max_element ltb s) (largest ltb s).
  Proof using lt_order.
    clear eqb_eq eqb.
    intros Hs. destruct s as [|x t]; [congruence|]. set (s := x :: t). unfold max_element.
    change (rd s 0) with (Ok x). cbn [bind].
    eapply holds_weaken.
    - apply for_up_rule with (I := fun i m => largest ltb (firstn i s) m).
      + intros k m Hk Hm. destruct (rd_ok s k) as (y & E & N); [cbn in *; lia|]. rewrite E. cbn [bind holds].
        rewrite (firstn_S_nth _ _ _ N). now apply largest_snoc.
      + change (firstn 1 s) with [x]. apply smallest_one.
    - cbv beta. intros m Hm. replace (1 + (length s - 1)) with (length s) in Hm by (cbn; lia).
      now rewrite firstn_all in Hm.
  Qed.

  (* ---------------- canonicalisation ---------------- *)
  Section Canon.
    Variable s : list A.

    Lemma smallest_of_ok l : Forall (fun q => fst q < length s) l -> forall x,
      holds (smallest_of ltb s l x) (fun m =>
        (m = x \/ exists q, In q l /\ nth_error s (fst q) = Some m) /\ ltb x m = false /\
        forall q y, In q l -> nth_error s (fst q) = Some y -> ltb y m = false).
    Proof using lt_order.
    clear eqb_eq eqb.
      induction l as [|[f p] l IH]; intros Hl x; cbn [smallest_of].
      - cbn. split; auto. split; [apply (proj1 lt_order)|]. intros q y [].
      - inversion Hl as [|? ? Hf Hl']; subst. cbn [fst] in Hf.
        destruct (rd_ok s f Hf) as (y & E & N). rewrite E. cbn [bind].
        eapply holds_weaken; [apply IH; auto|]. cbv beta. intros m (Hm & H1 & H2).
        assert (Hxm : ltb x m = false /\ ltb y m = false).
        { destruct (ltb y x) eqn:Eyx.
          - split; auto. eapply lt_le_trans; [exact H1|]. now apply lt_asym.
          - split; auto. eapply lt_le_trans; [exact H1|exact Eyx]. }
        split; [|split; [tauto|]].
        + destruct Hm as [Hm|(q & Hq & Hn)].
          * destruct (ltb y x); [right|now left]. exists (f, p). split; [now left|]. cbn. congruence.
          * right. exists q. split; auto. now right.
        + intros q z [<-|Hq] Hz; [cbn in Hz|eauto]. replace z with y by congruence. tauto.
    Qed.

    Lemma keep_equal_ok l : Forall (fun q => fst q < length s) l -> forall m,
      holds (keep_equal eqb s l m) (fun r => forall q, In q r <-> In q l /\ nth_error s (fst q) = Some m).
    Proof using eqb_eq.
    clear lt_order ltb.
      induction l as [|[f p] l IH]; intros Hl m; cbn [keep_equal].
      - cbn. tauto.
      - inversion Hl as [|? ? Hf Hl']; subst. cbn [fst] in Hf.
        destruct (rd_ok s f Hf) as (y & E & N). rewrite E. cbn [bind].
        apply holds_bind2 with (1 := IH Hl' m). cbv beta. intros r Hr. cbn [holds].
        intros q. destruct (eqb y m) eqn:Ey; cbn [negb].
        + apply eqb_eq in Ey. subst m. cbn [In]. rewrite Hr. split.
          * intros [<-|(Hq & Hn)]; auto.
          * intros ([<-|Hq] & Hn); auto.
        + rewrite Hr. cbn [In]. split; [tauto|]. intros ([<-|Hq] & Hn); auto.
          exfalso. cbn in Hn. assert (y = m) by congruence. apply eqb_eq in H. congruence.
    Qed.

    (* the candidates after k rounds: they agree on k+1 elements and beat all others *)
    Definition candidates (k : nat) (l : list (nat * nat)) : Prop :=
      l <> [] /\ NoDup l /\
      (forall f p, In (f, p) l -> f = p + k /\ f < length s) /\
      (forall f p f' p', In (f, p) l -> In (f', p') l -> forall i, i <= k -> nth_error s (p + i) = nth_error s (p' + i)) /\
      (forall f p j, In (f, p) l -> j < length s -> ~ In (j + k, j) l -> precedes ltb s p j).

    Lemma NoDup_keep l m r : keep_equal eqb s l m = Ok r -> NoDup l -> NoDup r.
    Proof using.
      revert r; induction l as [|[f p] l IH]; intros r; cbn [keep_equal].
      - intros H _. injection H as <-. constructor.
      - destruct (rd s f) as [y| |]; cbn [bind]; try discriminate.
        destruct (keep_equal eqb s l m) as [r0| |] eqn:E; cbn [bind]; try discriminate.
        intros H Hnd. injection H as <-. inversion Hnd; subst.
        specialize (IH r0 eq_refl ltac:(assumption)).
        destruct (negb (eqb y m)); auto. constructor; auto. intros Hin.
        assert (X : forall l r, keep_equal eqb s l m = Ok r -> forall q, In q r -> In q l).
        { clear. induction l as [|[f p] l IH]; intros r; cbn [keep_equal].
          - intros H; injection H as <-. auto.
          - destruct (rd s f) as [y| |]; cbn [bind]; try discriminate.
            destruct (keep_equal eqb s l m) as [r0| |] eqn:E; cbn [bind]; try discriminate.
            intros H; injection H as <-. intros q. destruct (negb (eqb y m)); cbn [In].
            + intros Hq. right. eapply IH; eauto.
            + intros [<-|Hq]; [now left|right; eapply IH; eauto]. }
        apply X with (1 := E) in Hin. tauto.
    Qed.

    Lemma start_ok : s <> [] ->
      holds (smallest <- min_element ltb s ;;
             keep_equal eqb s (map (fun i => (i, i)) (seq 0 (length s))) smallest) (candidates 0).
    Proof using eqb_eq lt_order.
      intros Hs. apply holds_bind2 with (1 := min_element_ok s Hs). intros m (Hin & Hle).
      assert (Hl : Forall (fun q : nat * nat => fst q < length s) (map (fun i => (i, i)) (seq 0 (length s)))).
      { apply Forall_forall. intros q Hq. apply in_map_iff in Hq. destruct Hq as (i & <- & Hi).
        apply in_seq in Hi. cbn. lia. }
      pose proof (keep_equal_ok _ Hl m) as H. apply holds_ex in H. destruct H as (r & E & Hr). rewrite E. cbn [holds].
      assert (Hr2 : forall f p, In (f, p) r <-> f = p /\ nth_error s p = Some m).
      { intros f p. rewrite Hr. rewrite in_map_iff. cbn [fst]. split.
        - intros ((i & Ei & _) & Hn). injection Ei as <- <-. auto.
        - intros (<- & Hn). split; auto. exists f. split; auto. apply in_seq. apply nth_error_some_lt in Hn. lia. }
      split; [|split; [|split; [|split]]].
      - apply In_nth_error in Hin. destruct Hin as (i & Hi). intros ->.
        apply (proj2 (Hr2 i i) (conj eq_refl Hi)).
      - eapply NoDup_keep; [exact E|]. apply FinFun.Injective_map_NoDup; [|apply seq_NoDup].
        intros i j H. congruence.
      - intros f p Hq. apply Hr2 in Hq. destruct Hq as (-> & Hn). apply nth_error_some_lt in Hn. lia.
      - intros f p f' p' Hq Hq' i Hi. apply Hr2 in Hq. apply Hr2 in Hq'. assert (i = 0) by lia. subst i.
        rewrite !Nat.add_0_r. destruct Hq as (_ & ->). now destruct Hq' as (_ & ->).
      - intros f p j Hq Hj Hnj. apply Hr2 in Hq. rewrite Nat.add_0_r, Hr2 in Hnj.
        destruct (nth_error s j) as [y|] eqn:Ej; [|apply nth_error_None in Ej; lia].
        exists 0, m. rewrite !Nat.add_0_r. split; [tauto|]. split; [intros; lia|]. right. exists y. split; auto.
        destruct (ltb m y) eqn:El; auto. exfalso. apply Hnj. split; auto. f_equal. symmetry.
        apply (proj2 (proj2 lt_order)); auto. apply Hle. eapply nth_error_In; eauto.
    Qed.

    Lemma round_ok k l : candidates k l -> 2 <= length l -> k < length s /\
      holds (canon_round eqb ltb s l) (candidates (S k)).
    Proof using eqb_eq lt_order.
      intros (Hne & Hnd & Hpos & Hsame & Hbeat) Hlen.
      assert (Hk : k < length s).
      { destruct l as [|[f p] l]; [congruence|]. destruct (Hpos f p (or_introl eq_refl)). lia. }
      split; auto. unfold canon_round. cbv zeta.
      set (l1 := not_at_end s (map (fun q => (S (fst q), snd q)) l)).
      assert (Hl1 : forall f p, In (f, p) l1 <-> f = p + S k /\ f < length s /\ In (p + k, p) l).
      { intros f p. unfold l1, not_at_end. rewrite filter_In, in_map_iff. cbn [fst snd]. split.
        - intros (([f0 p0] & E & Hq) & Hf). cbn [fst snd] in E. injection E as <- <-.
          destruct (Hpos _ _ Hq) as (-> & Hlt). destruct (Nat.eqb_spec (S (p0 + k)) (length s)); [discriminate|].
          repeat split; auto; lia.
        - intros (-> & Hlt & Hq). split.
          + exists (p + k, p). cbn [fst snd]. split; [f_equal; lia|auto].
          + destruct (Nat.eqb_spec (p + S k) (length s)); [lia|auto]. }
      assert (Hl1f : Forall (fun q : nat * nat => fst q < length s) l1).
      { apply Forall_forall. intros [f p] Hq. apply Hl1 in Hq. cbn. lia. }
      assert (Hnd1 : NoDup l1).
      { unfold l1, not_at_end. apply NoDup_filter. apply FinFun.Injective_map_NoDup; auto.
        intros [a b] [c d] H. cbn in H. congruence. }
      (* at most one candidate runs off the end *)
      assert (Hne1 : l1 <> []).
      { destruct l as [|[f p] [|[f' p'] l]]; cbn [length] in Hlen; try lia. intros E.
        assert (p <> p').
        { intros ->. destruct (Hpos f p' (or_introl eq_refl)) as (-> & _).
          destruct (Hpos f' p' (or_intror (or_introl eq_refl))) as (-> & _). inversion Hnd; subst.
          apply H1. now left. }
        assert (X : forall q, In (q + k, q) ((f, p) :: (f', p') :: l) -> S (q + k) < length s -> False).
        { intros q Hq Hlt. assert (Hin : In (q + S k, q) l1) by (apply Hl1; repeat split; auto; lia).
          rewrite E in Hin. destruct Hin. }
        destruct (Hpos f p (or_introl eq_refl)) as (-> & Hlt1).
        destruct (Hpos f' p' (or_intror (or_introl eq_refl))) as (-> & Hlt2).
        destruct (Nat.lt_ge_cases (S (p + k)) (length s)) as [H1|H1]; [apply (X p); auto; now left|].
        destruct (Nat.lt_ge_cases (S (p' + k)) (length s)) as [H2|H2]; [apply (X p'); auto; right; now left|].
        lia. }
      destruct l1 as [|[f1 p1] l1'] eqn:El1; [congruence|].
      assert (Hf1 : f1 < length s) by (inversion Hl1f; auto).
      destruct (rd_ok s f1 Hf1) as (x1 & Ex & Nx). rewrite Ex. cbn [bind].
      assert (Hl1f' : Forall (fun q : nat * nat => fst q < length s) l1') by (inversion Hl1f; auto).
      apply holds_bind2 with (1 := smallest_of_ok l1' Hl1f' x1). cbv beta. intros m (Hm & Hm1 & Hm2).
      assert (Hmin : (exists q, In q ((f1, p1) :: l1') /\ nth_error s (fst q) = Some m) /\
                     forall q y, In q ((f1, p1) :: l1') -> nth_error s (fst q) = Some y -> ltb y m = false).
      { split.
        - destruct Hm as [->|(q & Hq & Hn)]; [exists (f1, p1); split; auto; now left|exists q; split; auto; now right].
        - intros q y [<-|Hq] Hy; [cbn in Hy; congruence|eauto]. }
      clear Hm Hm1 Hm2. destruct Hmin as ((q0 & Hq0 & Hn0) & Hmin).
      destruct (holds_ex (keep_equal eqb s ((f1, p1) :: l1') m)
        (fun r => forall q, In q r <-> In q ((f1, p1) :: l1') /\ nth_error s (fst q) = Some m)) as (Hke & _).
      destruct (Hke (keep_equal_ok _ Hl1f m)) as (r & E & Hr). rewrite E. cbn [bind holds].
      assert (Hr2 : forall f p, In (f, p) (not_at_end s r) <->
                f = p + S k /\ In (p + k, p) l /\ nth_error s f = Some m).
      { intros f p. unfold not_at_end. rewrite filter_In, Hr, Hl1. cbn [fst]. split.
        - tauto.
        - intros (-> & Hq & Hn). pose proof (nth_error_some_lt _ _ _ Hn).
          repeat split; auto. destruct (Nat.eqb_spec (p + S k) (length s)); [lia|auto]. }
      split; [|split; [|split; [|split]]].
      - destruct q0 as [f0 p0]. cbn [fst] in Hn0. intros Hnil.
        assert (Hin : In (f0, p0) (not_at_end s r)).
        { apply Hr2. apply Hl1 in Hq0. tauto. }
        rewrite Hnil in Hin. destruct Hin.
      - unfold not_at_end. apply NoDup_filter. eapply NoDup_keep; [exact E|]. rewrite <- El1. rewrite <- El1 in Hnd1. exact Hnd1.
      - intros f p Hq. apply Hr2 in Hq. destruct Hq as (-> & _ & Hn). apply nth_error_some_lt in Hn. auto.
      - intros f p f' p' Hq Hq' i Hi. apply Hr2 in Hq. apply Hr2 in Hq'.
        destruct Hq as (-> & Hq & Hn). destruct Hq' as (-> & Hq' & Hn').
        destruct (Nat.eq_dec i (S k)) as [->|]; [congruence|]. eapply Hsame; eauto. lia.
      - intros f p j Hq Hj Hnj. apply Hr2 in Hq. destruct Hq as (-> & Hq & Hn).
        destruct (In_dec (fun a b : nat * nat => ltac:(repeat decide equality)) (j + k, j) l) as [Hjl|Hjl].
        2:{ eapply Hbeat; eauto. }
        exists (S k), m. split; auto. split.
        { intros i Hi. eapply Hsame; eauto. lia. }
        destruct (Hpos _ _ Hjl) as (_ & Hjlt).
        destruct (nth_error s (j + S k)) as [y|] eqn:Ej.
        + right. exists y. split; auto. destruct (ltb m y) eqn:El; auto. exfalso. apply Hnj. apply Hr2.
          split; auto. split; auto. rewrite Ej. f_equal. symmetry.
          apply (proj2 (proj2 lt_order)); auto.
          apply (Hmin (j + S k, j)); auto. apply Hl1. split; auto. split; auto.
          apply nth_error_some_lt in Ej. lia.
        + left. apply nth_error_None in Ej. lia.
    Qed.

    Lemma canon_ok : s <> [] -> holds (lexicographically_canonicalize eqb ltb s) (fun t =>
      exists p, p < length s /\ t = rotation s p /\ forall j, j < length s -> j <> p -> precedes ltb s p j).
    Proof using eqb_eq lt_order.
      intros Hs. unfold lexicographically_canonicalize.
      pose proof (start_ok Hs) as H0. apply holds_ex in H0. destruct H0 as (l0 & E0 & H0).
      destruct (min_element ltb s) as [m0| |] eqn:Em; cbn [bind] in E0 |- *; try discriminate.
      rewrite E0. cbn [bind].
      apply loop_rule with (I := fun l => exists k, candidates k l)
        (mu := fun l => match l with [] => 0 | (f, p) :: _ => length s - (f - p) end).
      - intros l (k & Hc). destruct (Nat.ltb_spec 1 (length l)) as [Hl|Hl].
        + destruct (round_ok k l Hc ltac:(lia)) as (Hk & H). apply holds_bind2 with (1 := H).
          intros l' Hc'. cbn [holds]. split; [eauto|].
          destruct Hc as (Hne & _ & Hpos & _). destruct Hc' as (Hne' & _ & Hpos' & _).
          destruct l as [|[f p] l]; [congruence|]. destruct l' as [|[f' p'] l']; [congruence|].
          destruct (Hpos f p (or_introl eq_refl)). destruct (Hpos' f' p' (or_introl eq_refl)). lia.
        + destruct Hc as (Hne & _ & Hpos & _ & Hb). destruct l as [|[f p] [|q l]]; cbn [length] in Hl; try congruence; try lia.
          cbn [holds]. destruct (Hpos f p (or_introl eq_refl)) as (-> & Hlt). exists p. split; [lia|]. split; auto.
          intros j Hj Hjp. eapply Hb; eauto; [now left|]. intros [X|[]]. congruence.
      - exists 0. exact H0.
      - destruct H0 as (Hne & _ & Hpos & _). destruct l0 as [|[f p] l0]; [congruence|]. lia.
    Qed.
  End Canon.
End Ordered.

(* ---------------- first_non_repeated_char ---------------- *)
Lemma schar_index c : nat_of_ascii c < 128 -> Z.to_N (schar c mod 2 ^ 32) = N.of_nat (nat_of_ascii c).
Proof.
  intros H. unfold schar, nat_of_ascii in *.
  destruct (Z.ltb_spec (Z.of_N (N_of_ascii c)) 128); [|lia].
  rewrite Z.mod_small by lia. lia.
Qed.
Lemma schar_index_high c : 128 <= nat_of_ascii c -> (256 <= Z.to_N (schar c mod 2 ^ 32))%N.
Proof.
  intros H. pose proof (nat_ascii_bounded c). unfold schar, nat_of_ascii in *.
  destruct (Z.ltb_spec (Z.of_N (N_of_ascii c)) 128); [lia|].
  replace ((Z.of_N (N_of_ascii c) - 256) mod 2 ^ 32)%Z with (Z.of_N (N_of_ascii c) - 256 + 2 ^ 32)%Z; [lia|].
  apply Z.mod_unique with (q := (-1)%Z); lia.
Qed.

Definition lut_entry (s : list ascii) (i : nat) (c : ascii) (e : N) : Prop :=
  (e = not_yet_encountered /\ forall j, j < i -> nth_error s j <> Some c) \/
  (exists j, e = N.of_nat j /\ j < i /\ nth_error s j = Some c /\ forall j', j' < i -> nth_error s j' = Some c -> j' = j) \/
  (e = repeated /\ exists j1 j2, j1 < j2 < i /\ nth_error s j1 = Some c /\ nth_error s j2 = Some c).

Lemma first_non_repeated_ok s : (N.of_nat (length s) < 18446744073709551614)%N ->
  Forall (fun c => nat_of_ascii c < 128) s ->
  exists o, first_non_repeated_char s = Ok o /\
    match o with
    | Some i => occurs_once s i /\ forall j, j < i -> ~ occurs_once s j
    | None => forall j, ~ occurs_once s j
    end.
Proof.
  intros Hlen H7. unfold first_non_repeated_char. destruct (Nat.eqb_spec (length s) 0) as [H0|H0].
  { exists None. split; auto. intros j (c & Hc & _). apply nth_error_some_lt in Hc. lia. }
  unfold first_non_repeated_pos.
  set (body := fun i '(lut, position) => _).
  assert (H1 : holds (for_up 0 (length s) body (repeat not_yet_encountered 256, 0%N))
    (fun '(lut, position) => length lut = 256 /\ forall c, exists e, nth_error lut (nat_of_ascii c) = Some e /\
       lut_entry s (length s) c e)).
  { eapply holds_weaken.
    - apply for_up_rule with (I := fun i '(lut, position) => length lut = 256 /\ position = N.of_nat i /\
        forall c, exists e, nth_error lut (nat_of_ascii c) = Some e /\ lut_entry s i c e).
      + intros i [lut position] Hi (Hl & -> & He). unfold body.
        destruct (rd_ok s i ltac:(lia)) as (c & E & N). rewrite E. cbn [bind].
        assert (Hc : nat_of_ascii c < 128).
        { rewrite Forall_forall in H7. apply H7. eapply nth_error_In; eauto. }
        rewrite (schar_index c Hc). cbv zeta. rewrite Nat2N.id.
        destruct (N.leb_spec 256 (N.of_nat (nat_of_ascii c))); [lia|].
        destruct (He c) as (e & Ee & Hent). rewrite (rd_nth _ _ _ Ee). cbn [bind].
        assert (Hother : forall c' e', c' <> c -> lut_entry s i c' e' -> lut_entry s (S i) c' e').
        { intros c' e' Hne [(-> & Hno)|[(j & -> & Hj & Hn & Hu)|(-> & j1 & j2 & Hj & Hn)]].
          - left. split; auto. intros j Hj. destruct (Nat.eq_dec j i) as [->|]; [congruence|apply Hno; lia].
          - right; left. exists j. repeat split; auto. intros j' Hj' Hn'.
            destruct (Nat.eq_dec j' i) as [->|]; [congruence|apply Hu; auto; lia].
          - right; right. split; auto. exists j1, j2. split; [lia|auto]. }
        assert (Hdone : forall e', nth_error (upd lut (nat_of_ascii c) e') (nat_of_ascii c) = Some e').
        { intros e'. apply nth_error_upd_same. lia. }
        assert (Hrest : forall e' c', c' <> c -> exists e0, nth_error (upd lut (nat_of_ascii c) e') (nat_of_ascii c') = Some e0 /\
                          lut_entry s (S i) c' e0).
        { intros e' c' Hne. destruct (He c') as (e0 & E0 & H0').  exists e0. split; [|now apply Hother].
          rewrite nth_error_upd_other; auto. intros X. apply Hne.
          rewrite <- (ascii_nat_embedding c), <- (ascii_nat_embedding c'). now rewrite X. }
        destruct Hent as [(-> & Hno)|[(j & -> & Hj & Hn & Hu)|(-> & j1 & j2 & Hj & Hn)]].
        * rewrite N.eqb_refl. rewrite wr_ok by lia. cbn [bind holds]. rewrite upd_length. split; auto. split; [lia|].
          intros c'. destruct (ascii_dec c' c) as [->|Hne]; [|now apply Hrest].
          eexists. split; [apply Hdone|]. right; left. exists i. repeat split; auto.
          intros j' Hj' Hn'. destruct (Nat.eq_dec j' i); auto. exfalso. apply (Hno j'); auto. lia.
        * destruct (N.eqb_spec (N.of_nat j) not_yet_encountered); [unfold not_yet_encountered in *; lia|].
          destruct (N.ltb_spec (N.of_nat j) repeated); [|unfold repeated in *; lia].
          rewrite wr_ok by lia. cbn [bind holds]. rewrite upd_length. split; auto. split; [lia|].
          intros c'. destruct (ascii_dec c' c) as [->|Hne]; [|now apply Hrest].
          eexists. split; [apply Hdone|]. right; right. split; auto. exists j, i. repeat split; auto; lia.
        * change (repeated =? not_yet_encountered)%N with false. change (repeated <? repeated)%N with false.
          cbn [bind holds]. split; auto. split; [lia|].
          intros c'. destruct (ascii_dec c' c) as [->|Hne].
          -- exists repeated. split; auto. right; right. split; auto. exists j1, j2. split; [lia|auto].
          -- destruct (He c') as (e0 & E0 & H0'). exists e0. auto.
      + split; [apply repeat_length|]. split; auto. intros c. exists not_yet_encountered. split.
        * rewrite (nth_error_nth' _ not_yet_encountered) by (rewrite repeat_length; apply nat_ascii_bounded).
          f_equal. apply nth_repeat.
        * left. split; auto. intros; lia.
    - cbv beta. intros [lut position] (Ha & _ & Hb). rewrite Nat.add_0_l in Hb. auto. }
  apply holds_ex in H1. destruct H1 as ([lut position] & E1 & Hl & He). rewrite E1. cbn [bind].
  assert (H2 : holds (for_up 0 256 (fun i position => e <- rd lut i ;; Ok (if (e <? position)%N then e else position)) repeated)
    (fun m => (m = repeated \/ exists i, i < 256 /\ nth_error lut i = Some m /\ (m < repeated)%N) /\
              (m <= repeated)%N /\ forall i e, i < 256 -> nth_error lut i = Some e -> (m <= e)%N)).
  { eapply holds_weaken.
    - apply for_up_rule with (I := fun k m => (m = repeated \/ exists i, i < 256 /\ nth_error lut i = Some m /\ (m < repeated)%N) /\
              (m <= repeated)%N /\ forall i e, i < k -> nth_error lut i = Some e -> (m <= e)%N).
      + intros k m Hk (Ha & Hb & Hc). destruct (rd_ok lut k ltac:(lia)) as (e & E & N). rewrite E. cbn [bind holds].
        destruct (N.ltb_spec e m).
        * split; [right; exists k; repeat split; auto; lia|]. split; [lia|].
          intros i e' Hi Hn. destruct (Nat.eq_dec i k) as [->|]; [replace e' with e by congruence; lia|].
          assert (m <= e')%N by (eapply Hc; eauto; lia). lia.
        * split; auto. split; auto. intros i e' Hi Hn. destruct (Nat.eq_dec i k) as [->|]; [replace e' with e by congruence; lia|].
          eapply Hc; eauto. lia.
      + split; auto. split; [lia|]. intros; lia.
    - cbv beta. intros m (Ha & Hb & Hc). split; auto. }
  apply holds_ex in H2. destruct H2 as (m & E2 & Hm & Hmr & Hmin). rewrite E2. cbn [bind].
  assert (Honce : forall j, occurs_once s j -> exists c e, nth_error s j = Some c /\
                    nth_error lut (nat_of_ascii c) = Some e /\ e = N.of_nat j).
  { intros j (c & Hc & Hu). destruct (He c) as (e & Ee & Hent). exists c, e. split; auto. split; auto.
    pose proof (nth_error_some_lt _ _ _ Hc).
    destruct Hent as [(_ & Hno)|[(j' & -> & Hj & Hn & _)|(_ & j1 & j2 & Hj & Hn1 & Hn2)]].
    - exfalso. apply (Hno j); auto.
    - f_equal. auto.
    - apply Hu in Hn1. apply Hu in Hn2. lia. }
  destruct (N.eqb_spec m repeated) as [->|Hmne]; cbn [negb].
  - rewrite Nat.eqb_refl. cbn [negb]. exists None. split; auto. intros j Hj.
    destruct (Honce j Hj) as (c & e & Hc & Ee & ->).
    pose proof (Hmin _ _ (nat_ascii_bounded c) Ee). pose proof (nth_error_some_lt _ _ _ Hc). unfold repeated in *. lia.
  - destruct Hm as [->|(i & Hi & En & Hlt)]; [congruence|].
    destruct (He (ascii_of_nat i)) as (e & Ee & Hent). rewrite nat_ascii_embedding in Ee by exact Hi.
    assert (e = m) by congruence. subst e.
    destruct Hent as [(-> & _)|[(j & -> & Hj & Hn & Hu)|(-> & _)]]; [unfold not_yet_encountered, repeated in *; lia| |congruence].
    rewrite Nat2N.id. destruct (Nat.eqb_spec j (length s)); [lia|]. cbn [negb]. exists (Some j). split; auto. split.
    + exists (ascii_of_nat i). split; auto. intros j' Hn'. apply Hu; auto. eapply nth_error_some_lt; eauto.
    + intros j' Hj' Ho. destruct (Honce j' Ho) as (c & e & Hc & Ee' & ->).
      pose proof (Hmin _ _ (nat_ascii_bounded c) Ee'). lia.
Qed.

Lemma first_non_repeated_ub s : (exists c, In c s /\ 128 <= nat_of_ascii c) -> first_non_repeated_char s = UB.
Proof.
  intros (c & Hin & Hc). unfold first_non_repeated_char. destruct (Nat.eqb_spec (length s) 0) as [H0|H0].
  { destruct s; [destruct Hin|discriminate]. }
  unfold first_non_repeated_pos.
  set (body := fun i '(lut, position) => _).
  assert (H : forall n i st, i + n = length s -> length (fst st) = 256 -> (exists j, i <= j /\ nth_error s j = Some c) ->
    for_up i n body st = UB).
  { induction n as [|n IH]; intros i [lut position] Hi Hl (j & Hj & Hn).
    - apply nth_error_some_lt in Hn. lia.
    - cbn [for_up]. unfold body at 1. destruct (rd_ok s i ltac:(lia)) as (d & E & N). rewrite E. cbn [bind]. cbv zeta.
      destruct (N.leb_spec 256 (Z.to_N (schar d mod 2 ^ 32))) as [Hge|Hlt]; [reflexivity|].
      cbn [fst] in Hl.
      assert (Hij : S i <= j).
      { destruct (Nat.eq_dec j i) as [->|]; [|lia]. replace d with c in Hlt by congruence.
        pose proof (schar_index_high c Hc). lia. }
      destruct (rd_ok lut (N.to_nat (Z.to_N (schar d mod 2 ^ 32)))) as (e & Ee & _); [lia|]. rewrite Ee. cbn [bind].
      destruct (e =? not_yet_encountered)%N; [|destruct (e <? repeated)%N];
        rewrite ?wr_ok by lia; cbn [bind]; (apply IH; [lia|cbn [fst]; rewrite ?upd_length; auto|exists j; split; auto]). }
  rewrite H; [reflexivity|lia|cbn [fst]; apply repeat_length|].
  apply In_nth_error in Hin. destruct Hin as (j & Hj). exists j. split; auto. lia.
Qed.
