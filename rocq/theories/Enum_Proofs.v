(* for_each_combination. *)
From Verif Require Import Base Comb_Model Comb_Spec Comb_Proofs2 Comb_Proofs3 Enum_Model Enum_Spec.
From Coq Require Import Permutation Sorted.

Ltac asc := do 4 (rewrite <- ?app_assoc; cbn [app]); reflexivity.

Lemma iter_swap_at {T} (p m q : list T) x y i j : i = length p -> j = length p + 1 + length m ->
  iter_swap (p ++ x :: m ++ y :: q) i j = Ok (p ++ y :: m ++ x :: q).
Proof.
  intros -> ->. unfold iter_swap. rewrite rd_here. cbn [bind].
  replace (p ++ x :: m ++ y :: q) with ((p ++ x :: m) ++ y :: q) at 1 by (rewrite <- app_assoc; reflexivity).
  rewrite (rd_pos (p ++ x :: m) y q) by (rewrite app_length; simpl; lia). cbn [bind].
  rewrite wr_here. cbn [bind].
  replace (p ++ y :: m ++ y :: q) with ((p ++ y :: m) ++ y :: q) by (rewrite <- app_assoc; reflexivity).
  rewrite (wr_pos (p ++ y :: m) y q) by (rewrite app_length; simpl; lia).
  rewrite <- app_assoc. reflexivity.
Qed.

Lemma swap_ranges_at {T} (p a m b q : list T) : length a = length b ->
  swap_ranges (p ++ a ++ m ++ b ++ q) (length p) (length p + length a) (length p + length a + length m)
  = Ok (p ++ b ++ m ++ a ++ q, length p + length a + length m + length a).
Proof.
  intros H. unfold swap_ranges.
  replace (length p + length a - length p) with (length a) by lia.
  assert (E : holds (for_up 0 (length a)
      (fun i s => iter_swap s (length p + i) (length p + length a + length m + i)) (p ++ a ++ m ++ b ++ q))
      (fun s => s = p ++ b ++ m ++ a ++ q)).
  { eapply holds_weaken.
    - apply for_up_rule with (I := fun i s =>
        s = p ++ (firstn i b ++ skipn i a) ++ m ++ (firstn i a ++ skipn i b) ++ q).
      + intros k s Hk ->.
        destruct (nth_error a k) as [x|] eqn:Ex; [|apply nth_error_None in Ex; lia].
        destruct (nth_error b k) as [y|] eqn:Ey; [|apply nth_error_None in Ey; lia].
        rewrite (skipn_nth_cons _ _ _ Ex), (skipn_nth_cons _ _ _ Ey).
        assert (La : length (firstn k a) = k) by (rewrite firstn_length; lia).
        assert (Lb : length (firstn k b) = k) by (rewrite firstn_length; lia).
        assert (Ls : length (skipn (S k) a) = length a - S k) by (rewrite skipn_length; lia).
        replace (p ++ (firstn k b ++ x :: skipn (S k) a) ++ m ++ (firstn k a ++ y :: skipn (S k) b) ++ q)
          with ((p ++ firstn k b) ++ x :: (skipn (S k) a ++ m ++ firstn k a) ++ y :: (skipn (S k) b ++ q))
          by (asc).
        rewrite iter_swap_at; [|rewrite app_length; lia|rewrite !app_length; lia].
        cbn [holds]. rewrite (firstn_S_nth _ _ _ Ex), (firstn_S_nth _ _ _ Ey).
        asc.
      + reflexivity.
    - cbv beta. intros s ->. rewrite Nat.add_0_l, firstn_all, skipn_all, H, firstn_all, <- H.
      rewrite H, skipn_all, !app_nil_r. reflexivity. }
  apply holds_eq in E. rewrite E. cbn [bind]. reflexivity.
Qed.

Lemma firstn_app_ge {T} n (a b : list T) : length a <= n -> firstn n (a ++ b) = a ++ firstn (n - length a) b.
Proof. intros H. rewrite firstn_app, firstn_all2 by exact H. reflexivity. Qed.
Lemma skipn_app_ge {T} n (a b : list T) : length a <= n -> skipn n (a ++ b) = skipn (n - length a) b.
Proof. intros H. rewrite skipn_app, skipn_all2 by exact H. reflexivity. Qed.
Lemma firstn_app_le {T} n (a b : list T) : n <= length a -> firstn n (a ++ b) = firstn n a.
Proof. intros H. rewrite firstn_app. replace (n - length a) with 0 by lia. cbn [firstn]. apply app_nil_r. Qed.
Lemma skipn_app_le {T} n (a b : list T) : n <= length a -> skipn n (a ++ b) = skipn n a ++ b.
Proof. intros H. rewrite skipn_app. replace (n - length a) with 0 by lia. reflexivity. Qed.

(* q in the first range and p in the second become p ++ q cut after length q *)
Lemma rotate_discontinuous_at {T} (P q M p : list T) first1 last1 d1 first2 last2 d2 :
  first1 = length P -> last1 = length P + length q -> d1 = length q ->
  first2 = length P + length q + length M -> last2 = first2 + length p -> d2 = length p ->
  rotate_discontinuous (P ++ q ++ M ++ p) first1 last1 d1 first2 last2 d2 =
  Ok (P ++ firstn (length q) (p ++ q) ++ M ++ skipn (length q) (p ++ q)).
Proof.
  intros -> -> -> -> -> ->. unfold rotate_discontinuous.
  destruct (Nat.leb_spec (length q) (length p)) as [H|H].
  - rewrite firstn_app_le, skipn_app_le by exact H.
    rewrite <- (firstn_skipn (length q) p) at 1.
    pose proof (swap_ranges_at P q M (firstn (length q) p) (skipn (length q) p)) as E.
    rewrite firstn_length_le in E by exact H. rewrite E by reflexivity. cbn [bind]. clear E.
    replace (P ++ firstn (length q) p ++ M ++ q ++ skipn (length q) p)
      with ((P ++ firstn (length q) p ++ M) ++ q ++ skipn (length q) p ++ []) by (rewrite app_nil_r, <- !app_assoc; reflexivity).
    rewrite rotate_app.
    + rewrite app_nil_r, <- !app_assoc. reflexivity.
    + rewrite !app_length, firstn_length_le by exact H. lia.
    + rewrite !app_length, firstn_length_le by exact H. lia.
    + rewrite !app_length, firstn_length_le, skipn_length by exact H. lia.
  - rewrite firstn_app_ge, skipn_app_ge by lia.
    remember (length q - length p) as c eqn:Ec.
    assert (Lc : length (firstn c q) = c) by (rewrite firstn_length; lia).
    assert (Ls : length (skipn c q) = length p) by (rewrite skipn_length; lia).
    assert (E : holds (loop (S (length P + length q + length M + length p - (length P + length q + length M)))
      (fun '(s, i1, last2) =>
         if length P + length q + length M =? last2 then Ok (inr (s, i1))
         else
           if (i1 =? 0) || (last2 =? 0) then UB
           else
             s <- iter_swap s (i1 - 1) (last2 - 1) ;;
             Ok (inl (s, i1 - 1, last2 - 1)))
      (P ++ q ++ M ++ p, length P + length q, length P + length q + length M + length p))
      (fun r => r = (P ++ firstn c q ++ p ++ M ++ skipn c q, length P + c))).
    { pose (a := skipn c q).
      apply loop_rule with
        (I := fun '(s, i1, last2) => exists j, j <= length p /\
           s = P ++ firstn c q ++ (firstn j a ++ skipn j p) ++ M ++ firstn j p ++ skipn j a /\
           i1 = length P + c + j /\ last2 = length P + length q + length M + j)
        (mu := fun '(s, i1, last2) => last2 - (length P + length q + length M)).
      - intros ((s, i1), last2) (j & Hj & -> & -> & ->).
        destruct (Nat.eqb_spec (length P + length q + length M) (length P + length q + length M + j)) as [E0|E0].
        + assert (j = 0) by lia. subst j. cbn [holds]. rewrite Nat.add_0_r. cbn [firstn skipn app]. reflexivity.
        + destruct (Nat.eqb_spec (length P + c + j) 0) as [E1|E1]; [lia|].
          destruct (Nat.eqb_spec (length P + length q + length M + j) 0) as [E2|E2]; [lia|]. cbn [orb].
          destruct j as [|k]; [lia|].
          destruct (nth_error a k) as [x|] eqn:Ex; [|apply nth_error_None in Ex; unfold a in Ex; lia].
          destruct (nth_error p k) as [y|] eqn:Ey; [|apply nth_error_None in Ey; lia].
          rewrite (firstn_S_nth _ _ _ Ex), (firstn_S_nth _ _ _ Ey).
          assert (La : length (firstn k a) = k) by (rewrite firstn_length; unfold a; lia).
          assert (Lb : length (firstn k p) = k) by (rewrite firstn_length; lia).
          assert (Lr : length (skipn (S k) p) = length p - S k) by (rewrite skipn_length; lia).
          replace (P ++ firstn c q ++ ((firstn k a ++ [x]) ++ skipn (S k) p) ++ M ++ (firstn k p ++ [y]) ++ skipn (S k) a)
            with ((P ++ firstn c q ++ firstn k a) ++ x :: (skipn (S k) p ++ M ++ firstn k p) ++ y :: skipn (S k) a)
            by (asc).
          rewrite iter_swap_at; [|rewrite !app_length; lia|rewrite !app_length; lia].
          cbn [bind holds]. split; [|lia].
          exists k. split; [lia|]. split; [|split; lia].
          rewrite (skipn_nth_cons _ _ _ Ex), (skipn_nth_cons _ _ _ Ey).
          asc.
      - exists (length p). split; [lia|]. split; [|split; lia].
        rewrite firstn_all, skipn_all, app_nil_r. unfold a.
        rewrite (firstn_all2 (n := length p)) by lia. rewrite (skipn_all2 (n := length p)) by lia.
        rewrite app_nil_r, (app_assoc (firstn c q)), firstn_skipn. reflexivity.
      - lia. }
    apply holds_eq in E. rewrite E. cbn [bind].
    replace (P ++ firstn c q ++ p ++ M ++ skipn c q)
      with (P ++ firstn c q ++ p ++ (M ++ skipn c q)) by reflexivity.
    rewrite rotate_app; [|reflexivity|lia|lia].
    rewrite <- !app_assoc. reflexivity.
Qed.

Lemma choices_all {T} (l : list T) : choices (length l) l = [l].
Proof.
  induction l as [|x l IH]; [reflexivity|]. cbn [length choices]. rewrite IH. cbn [map app].
  f_equal. assert (E : forall (l : list T) k, length l < k -> choices k l = []).
  { clear. induction l as [|x l IH]; intros [|k] H; simpl in *; try lia; auto.
    rewrite !IH by lia. reflexivity. }
  apply E. lia.
Qed.

Section Combine.
Context {T St : Type}.
Variable f : list T -> St -> St * bool.

Lemma visit_until_app {X} (g : X -> St -> St * bool) xs ys st :
  visit_until g (xs ++ ys) st =
  match visit_until g xs st with (st', None) => visit_until g ys st' | r => r end.
Proof.
  revert st; induction xs as [|x xs IH]; intros st; cbn [visit_until app]; [reflexivity|].
  destruct (g x st) as (st', b). destruct b; [apply IH|reflexivity].
Qed.

Lemma visit_until_map {X Y} (g : Y -> St -> St * bool) (h : X -> Y) xs st :
  visit_until g (map h xs) st =
  match visit_until (fun x => g (h x)) xs st with (st', o) => (st', option_map h o) end.
Proof.
  revert st; induction xs as [|x xs IH]; intros st; cbn [visit_until map]; [reflexivity|].
  destruct (g (h x) st) as (st', b). destruct b; [apply IH|reflexivity].
Qed.

(* what the enumeration leaves behind *)
Definition after (k : nat) (s0 final : list T) (r : St * option (list T)) (x : list T * St * bool) : Prop :=
  let '(s, st, b) := x in
  match r with
  | (st', None) => st = st' /\ b = true /\ s = final
  | (st', Some c) => st = st' /\ b = false /\ Permutation s s0 /\ firstn k s = c
  end.

Lemma bound_at k P V M rest st : length P + length V = k ->
  bound_range_conditional f k (P ++ V ++ M ++ rest) st = f (P ++ V) st.
Proof.
  intros H. unfold bound_range_conditional. f_equal.
  rewrite app_assoc. apply (sub_at [] (P ++ V) (M ++ rest)); [reflexivity|rewrite app_length; simpl; lia].
Qed.

Lemma combine_ok : forall fuel P A M B d st k,
  length A < fuel -> 0 < length A -> 0 < length B -> k = length P + length A ->
  holds (combine_discontinuous_conditional fuel (bound_range_conditional f k) (P ++ A ++ M ++ B)
           (length P) k (length A) (k + length M) (k + length M + length B) (length B) d st)
    (after k (P ++ A ++ M ++ B)
       (if d =? 0 then P ++ A ++ M ++ B
        else P ++ firstn (length A) (tl (A ++ B)) ++ M ++ firstn 1 (A ++ B) ++ skipn (length A) (tl (A ++ B)))
       (visit_until f (map (app P) (choices (length A) (A ++ B))) st)).
Proof.
  induction fuel as [|fuel IH]; intros P A M B d st k Hf HA HB Hk; [lia|].
  cbn [combine_discontinuous_conditional].
  destruct (Nat.eqb_spec (length A) 0) as [E0|_]; [lia|].
  destruct (Nat.eqb_spec (length B) 0) as [E0|_]; [lia|]. cbn [orb].
  set (W := A ++ B) in *. set (d1 := length A) in *.
  assert (LW : length W = d1 + length B) by (unfold W, d1; now rewrite app_length).
  set (s0 := P ++ A ++ M ++ B). set (target := visit_until f (map (app P) (choices d1 W)) st).
  (* the loop *)
  assert (Loop : holds
    (if d1 =? 1
     then
      loop (S (k + length M + length B - (k + length M)))
        (fun '(s, st, i2) =>
         if i2 =? k + length M + length B
         then Ok (inr (s, st, true))
         else
          let '(st, b) := bound_range_conditional f k s st in
          if negb b
          then Ok (inr (s, st, false))
          else s <- iter_swap s (length P) i2;; Ok (inl (s, st, S i2)))
        (s0, st, k + length M)
     else
      loop (S (k + length M + length B - (k + length M)))
        (fun '(s, st, i2, d22) =>
         if i2 =? k + length M + length B
         then Ok (inr (s, st, true))
         else
          ' (s, st, b) <-
          combine_discontinuous_conditional fuel (bound_range_conditional f k) s
            (S (length P)) k (d1 - 1) i2 (k + length M + length B) d22 (d + 1) st;;
          (if negb b
           then Ok (inr (s, st, false))
           else s <- iter_swap s (length P) i2;; Ok (inl (s, st, S i2, d22 - 1))))
        (s0, st, k + length M, length B))
    (fun '(s, st', b) =>
       if b then exists U V, W = U ++ V /\ length V = d1 /\ s = P ++ V ++ M ++ U /\
                 target = visit_until f [P ++ V] st'
       else after k s0 [] target (s, st', b))).
  { destruct (Nat.eqb_spec d1 1) as [E1|E1].
    - apply loop_rule with
        (I := fun '(s, st', i2) => exists U V, W = U ++ V /\ d1 <= length V /\
           s = P ++ firstn d1 V ++ M ++ U ++ skipn d1 V /\ i2 = k + length M + length U /\
           target = visit_until f (map (app P) (choices d1 V)) st')
        (mu := fun '(s, st', i2) => k + length M + length B - i2); [| |lia].
      + intros ((s, st'), i2) (U & V & EW & HV & -> & -> & Ht).
        assert (LUV : length U + length V = d1 + length B) by (rewrite <- app_length, <- EW; exact LW).
        destruct (Nat.eqb_spec (k + length M + length U) (k + length M + length B)) as [E2|E2].
        * cbn [holds]. exists U, V. split; [exact EW|]. split; [lia|].
          assert (EV : d1 = length V) by lia.
          rewrite EV, firstn_all, skipn_all, app_nil_r. split; [reflexivity|].
          rewrite Ht, EV, choices_all. reflexivity.
        * assert (HV2 : d1 < length V) by lia.
          destruct V as [|v V1]; [simpl in HV2; lia|]. destruct V1 as [|y B1]; [simpl in HV2; lia|].
          rewrite E1 in *. cbn [firstn skipn].
          rewrite bound_at by (simpl; lia).
          cbn [choices map] in Ht. rewrite map_app, visit_until_app in Ht. cbn [map visit_until] in Ht.
          destruct (f (P ++ [v]) st') as (st2, b) eqn:Ef. destruct b; cbn [negb].
          -- replace (P ++ [v] ++ M ++ U ++ y :: B1) with (P ++ v :: (M ++ U) ++ y :: B1)
               by (rewrite <- !app_assoc; reflexivity).
             rewrite iter_swap_at; [|reflexivity|rewrite app_length; lia]. cbn [bind holds].
             split; [|lia]. exists (U ++ [v]), (y :: B1). split; [rewrite EW, <- app_assoc; reflexivity|].
             split; [simpl; lia|]. split; [cbn [firstn skipn]; rewrite <- !app_assoc; reflexivity|].
             split; [rewrite app_length; simpl; lia|]. exact Ht.
          -- cbn [holds]. unfold after. rewrite Ht. split; [reflexivity|]. split; [reflexivity|]. split.
             ++ unfold s0. apply Permutation_app_head.
                rewrite (Permutation_app_comm [v]). rewrite <- !app_assoc.
                rewrite (Permutation_app_comm A). rewrite <- app_assoc. apply Permutation_app_head.
                rewrite (Permutation_app_comm B). fold W. rewrite EW.
                apply Permutation_app_head. rewrite (Permutation_app_comm (y :: B1)). reflexivity.
             ++ rewrite app_assoc. rewrite firstn_app_ge by (rewrite app_length; simpl; lia).
                rewrite app_length. cbn [length]. replace (k - (length P + 1)) with 0 by lia.
                cbn [firstn]. apply app_nil_r.
      + exists [], W. split; [reflexivity|]. split; [lia|].
        split; [|split; [simpl; lia|reflexivity]].
        cbn [app]. unfold W. rewrite firstn_app_le, skipn_app_le by (unfold d1; lia).
        unfold d1. rewrite firstn_all, skipn_all. reflexivity.
    - apply loop_rule with
        (I := fun '(s, st', i2, d22) => exists U V, W = U ++ V /\ d1 <= length V /\
           s = P ++ firstn d1 V ++ M ++ U ++ skipn d1 V /\ i2 = k + length M + length U /\
           d22 = length V - d1 /\
           target = visit_until f (map (app P) (choices d1 V)) st')
        (mu := fun '(s, st', i2, d22) => k + length M + length B - i2); [| |lia].
      + intros (((s, st'), i2), d22) (U & V & EW & HV & -> & -> & -> & Ht).
        assert (LUV : length U + length V = d1 + length B) by (rewrite <- app_length, <- EW; exact LW).
        destruct (Nat.eqb_spec (k + length M + length U) (k + length M + length B)) as [E2|E2].
        * cbn [holds]. exists U, V. split; [exact EW|]. split; [lia|].
          assert (EV : d1 = length V) by lia.
          rewrite EV, firstn_all, skipn_all, app_nil_r. split; [reflexivity|].
          rewrite Ht, EV, choices_all. reflexivity.
        * assert (HV2 : d1 < length V) by lia.
          destruct V as [|v V1]; [simpl in HV2; lia|].
          destruct d1 as [|e] eqn:Ed1; [lia|]. destruct e as [|e]; [lia|].
          change (firstn (S (S e)) (v :: V1)) with (v :: firstn (S e) V1).
          change (skipn (S (S e)) (v :: V1)) with (skipn (S e) V1). cbn [length] in HV2.
          set (A1 := firstn (S e) V1). set (B1 := skipn (S e) V1).
          assert (LA1 : length A1 = S e) by (unfold A1; rewrite firstn_length; lia).
          assert (LB1 : length B1 = length V1 - S e) by (unfold B1; rewrite skipn_length; lia).
          assert (EV1 : A1 ++ B1 = V1) by apply firstn_skipn.
          replace (S (S e) - 1) with (S e) by lia.
          replace (P ++ (v :: A1) ++ M ++ U ++ B1) with ((P ++ [v]) ++ A1 ++ (M ++ U) ++ B1)
            by (rewrite <- !app_assoc; reflexivity).
          pose proof (IH (P ++ [v]) A1 (M ++ U) B1 (d + 1) st' k) as IHs.
          assert (IHs' := IHs ltac:(unfold d1 in *; lia) ltac:(lia) ltac:(lia)
                            ltac:(rewrite app_length; simpl; lia)). clear IHs.
          rewrite EV1, LA1 in IHs'.
          replace (length (P ++ [v])) with (S (length P)) in IHs' by (rewrite app_length; simpl; lia).
          replace (k + length (M ++ U)) with (k + length M + length U) in IHs' by (rewrite app_length; lia).
          replace (k + length M + length U + length B1) with (k + length M + length B) in IHs' by (simpl in LUV; lia).
          replace (length B1) with (length (v :: V1) - S (S e)) in IHs' by (simpl; lia).
          replace (d + 1 =? 0) with false in IHs' by (symmetry; apply Nat.eqb_neq; lia).
          apply holds_bind2 with (1 := IHs'). intros ((s2, st2), b).
          cbn [choices] in Ht. rewrite map_app, map_map, visit_until_app in Ht.
          replace (map (fun x => P ++ v :: x) (choices (S e) V1)) with (map (app (P ++ [v])) (choices (S e) V1)) in Ht
            by (apply map_ext; intros x; rewrite <- app_assoc; reflexivity).
          unfold after.
          destruct (visit_until f (map (app (P ++ [v])) (choices (S e) V1)) st') as (st3, [c|]).
          -- intros (-> & -> & Hp & Hc). cbn [negb holds]. rewrite Ht. split; [reflexivity|].
             split; [reflexivity|]. split; [|exact Hc]. rewrite Hp. unfold s0.
             rewrite <- app_assoc. apply Permutation_app_head.
             rewrite (app_assoc [v] A1), (Permutation_app_comm ([v] ++ A1)).
             rewrite (Permutation_app_comm A). rewrite <- !app_assoc. apply Permutation_app_head.
             rewrite (Permutation_app_comm B). fold W. rewrite EW. apply Permutation_app_head.
             rewrite (Permutation_app_comm B1). rewrite <- app_assoc. rewrite EV1. reflexivity.
          -- intros (-> & -> & ->). cbn [negb].
             assert (HA1 : exists x A0, A1 = x :: A0).
             { destruct A1 as [|x A0]; [simpl in LA1; lia|eauto]. }
             destruct HA1 as (x & A0 & EA1).
             assert (HB1 : exists y B0, B1 = y :: B0).
             { destruct B1 as [|y B0]; [simpl in LB1; lia|eauto]. }
             destruct HB1 as (y & B0 & EB1).
             assert (EV1' : V1 = x :: A0 ++ y :: B0) by (rewrite <- EV1, EA1, EB1; reflexivity).
             assert (LA0 : length A0 = e) by (rewrite EA1 in LA1; simpl in LA1; lia).
             rewrite EV1'. cbn [tl]. change (firstn 1 (x :: A0 ++ y :: B0)) with [x].
             rewrite firstn_app_ge, skipn_app_ge by lia. replace (S e - length A0) with 1 by lia.
             change (firstn 1 (y :: B0)) with [y]. change (skipn 1 (y :: B0)) with B0.
             replace ((P ++ [v]) ++ (A0 ++ [y]) ++ (M ++ U) ++ [x] ++ B0)
               with (P ++ v :: (A0 ++ [y] ++ M ++ U) ++ x :: B0) by (asc).
             rewrite iter_swap_at; [|reflexivity|rewrite !app_length; simpl; lia]. cbn [bind holds].
             split; [|lia]. exists (U ++ [v]), V1. rewrite EV1'.
             split; [rewrite EW, EV1', <- app_assoc; reflexivity|].
             split; [simpl; rewrite app_length; simpl; simpl in HV2; rewrite EV1' in HV2; simpl in HV2; rewrite app_length in HV2; simpl in HV2; lia|].
             split.
             { change (firstn (S (S e)) (x :: A0 ++ y :: B0)) with (x :: firstn (S e) (A0 ++ y :: B0)).
               change (skipn (S (S e)) (x :: A0 ++ y :: B0)) with (skipn (S e) (A0 ++ y :: B0)).
               rewrite firstn_app_ge, skipn_app_ge by lia. replace (S e - length A0) with 1 by lia.
               cbn [firstn skipn]. asc. }
             split; [rewrite app_length; simpl; lia|]. split; [simpl; lia|].
             rewrite Ht, EV1'. reflexivity.
      + exists [], W. split; [reflexivity|]. split; [lia|].
        split; [|split; [simpl; lia|split; [lia|reflexivity]]].
        cbn [app]. unfold W. rewrite firstn_app_le, skipn_app_le by (unfold d1; lia).
        unfold d1. rewrite firstn_all, skipn_all. reflexivity. }
  apply holds_bind2 with (1 := Loop). intros ((s, st'), b). cbv beta iota.
  destruct b; cbn [negb].
  - intros (U & V & EW & HV & -> & Ht).
    assert (LU : length U = length B) by (rewrite EW, app_length in LW; lia).
    rewrite bound_at by (unfold d1 in *; lia). cbn [visit_until] in Ht.
    destruct (f (P ++ V) st') as (st2, b). destruct b; cbn [negb].
    + destruct (Nat.eqb_spec d 0) as [Ed|Ed]; cbn [negb].
      * rewrite rotate_discontinuous_at by (unfold d1 in *; lia). cbn [bind holds].
        rewrite Ht. split; [reflexivity|]. split; [reflexivity|].
        rewrite <- EW, HV. unfold s0, W, d1. rewrite firstn_app_len, skipn_app_len. reflexivity.
      * destruct U as [|u U']; [simpl in LU; lia|].
        replace (P ++ V ++ M ++ u :: U') with (P ++ V ++ (M ++ [u]) ++ U') by (rewrite <- !app_assoc; reflexivity).
        rewrite rotate_discontinuous_at by (rewrite ?app_length; simpl in *; unfold d1 in *; lia). cbn [bind holds].
        rewrite Ht. split; [reflexivity|]. split; [reflexivity|].
        rewrite EW, HV. cbn [app tl firstn]. rewrite <- !app_assoc. reflexivity.
    + cbn [holds]. rewrite Ht. split; [reflexivity|]. split; [reflexivity|]. split.
      * unfold s0. apply Permutation_app_head.
        rewrite (Permutation_app_comm V), (Permutation_app_comm A). rewrite <- !app_assoc.
        apply Permutation_app_head. rewrite (Permutation_app_comm B). fold W. rewrite EW. reflexivity.
      * rewrite app_assoc, firstn_app_ge by (rewrite app_length; unfold d1 in *; lia).
        rewrite app_length. replace (k - (length P + length V)) with 0 by (unfold d1 in *; lia).
        cbn [firstn]. apply app_nil_r.
  - intros H. cbn [holds]. unfold after in *. destruct target as (st2, [c|]).
    + exact H.
    + destruct H as (_ & H & _). discriminate H.
Qed.

End Combine.
