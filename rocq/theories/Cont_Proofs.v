From Verif Require Import Base Cont_Model Cont_Spec.
From Coq Require Import Sorted Permutation.
Local Open Scope nat_scope.

Section Heap.
Context {V E : Type}.
Implicit Types h : @heap V.
Variable proj : E -> ptr.

Lemma addresses_app : forall a b, addresses (a ++ b) = addresses a ++ addresses b.
Proof. induction a as [|[x|] a IH]; intros b; cbn; [reflexivity|rewrite IH; reflexivity|apply IH]. Qed.

Lemma delete_ok : forall p h, (forall a, p = Some a -> h a <> None) ->
  exists h', delete p h = Ok h' /\ without h (addresses [p]) h'.
Proof.
  intros [a|] h Hp; cbn.
  - specialize (Hp a eq_refl). destruct (h a) eqn:Ea; [|congruence].
    eexists; split; [reflexivity|]. intros b; split; intros Hb.
    + destruct Hb as [->|[]]. rewrite Nat.eqb_refl. reflexivity.
    + destruct (b =? a) eqn:Eb; [|reflexivity]. apply Nat.eqb_eq in Eb. subst. cbn in Hb. tauto.
  - eexists; split; [reflexivity|]. intros b; split; intros Hb; [destruct Hb|reflexivity].
Qed.

Lemma without_trans : forall h h1 h2 a b, without h a h1 -> without h1 b h2 -> without h (a ++ b) h2.
Proof.
  intros h h1 h2 a b H1 H2 x. destruct (H1 x) as [P1 P2]. destruct (H2 x) as [Q1 Q2].
  destruct (in_dec Nat.eq_dec x b) as [Hb|Hb].
  - split; [auto|]. intros Hn. exfalso. apply Hn, in_or_app; auto.
  - rewrite (Q2 Hb). split; intros Hn.
    + apply in_app_or in Hn. tauto.
    + apply P2. intros Ha. apply Hn, in_or_app; auto.
Qed.

(* the loop of delete_all from position [itr] *)
Lemma delete_all_loop : forall fuel cont itr h, itr <= length cont -> length cont - itr < fuel ->
  owns h (map proj (skipn itr cont)) ->
  exists h', loop fuel
       (fun '(itr, h) =>
          if length cont =? itr then Ok (inr h)
          else
            e <- rd cont itr ;;
            h' <- delete (proj e) h ;;
            Ok (inl (S itr, h')))
       (itr, h) = Ok h' /\ without h (addresses (map proj (skipn itr cont))) h'.
Proof.
  induction fuel as [|fuel IH]; intros cont itr h Hle Hf [Hn Hl]; [lia|].
  cbn [loop]. destruct (length cont =? itr) eqn:Ee.
  - apply Nat.eqb_eq in Ee. rewrite skipn_all2 by lia. exists h. split; [reflexivity|].
    intros a; split; [intros []|reflexivity].
  - apply Nat.eqb_neq in Ee. destruct (nth_error cont itr) as [e|] eqn:En;
      [|apply nth_error_None in En; lia].
    unfold rd. rewrite En. cbn [bind].
    rewrite (skipn_nth_cons _ _ _ En) in *. cbn [map] in *.
    change (proj e :: map proj (skipn (S itr) cont)) with ([proj e] ++ map proj (skipn (S itr) cont)) in *.
    rewrite addresses_app in *.
    destruct (delete_ok (proj e) h) as (h1 & D1 & W1).
    { intros a Ea. apply Hl. apply in_or_app. left. rewrite Ea. cbn. auto. }
    rewrite D1. cbn [bind].
    destruct (IH cont (S itr) h1) as (h2 & L2 & W2); [lia|lia| |].
    + split.
      * destruct (proj e); cbn [addresses app] in Hn; [inversion Hn; assumption|assumption].
      * intros a Ha. destruct (W1 a) as [_ W]. rewrite W; [apply Hl, in_or_app; auto|].
        destruct (proj e) as [b|]; cbn; [|tauto]. intros [->|[]].
        cbn [addresses app] in Hn. inversion Hn; contradiction.
    + exists h2. split; [exact L2|]. eapply without_trans; eassumption.
Qed.

Lemma delete_all_ok : forall cont h, owns h (map proj cont) ->
  exists h', delete_all proj cont h = Ok ([], h') /\ without h (addresses (map proj cont)) h'.
Proof.
  intros cont h Ho. destruct (delete_all_loop (S (length cont)) cont 0 h) as (h' & L & W);
    [lia|lia|exact Ho|]. exists h'. unfold delete_all. cbv zeta. rewrite L. split; [reflexivity|exact W].
Qed.

(* and undefined in every other case *)
Lemma delete_all_loop_ub : forall fuel cont itr h r, itr <= length cont ->
  loop fuel
       (fun '(itr, h) =>
          if length cont =? itr then Ok (inr h)
          else
            e <- rd cont itr ;;
            h' <- delete (proj e) h ;;
            Ok (inl (S itr, h')))
       (itr, h) = Ok r -> owns h (map proj (skipn itr cont)).
Proof.
  induction fuel as [|fuel IH]; intros cont itr h r Hle HL; [discriminate|].
  cbn [loop] in HL. destruct (length cont =? itr) eqn:Ee.
  - apply Nat.eqb_eq in Ee. rewrite skipn_all2 by lia. split; [constructor|intros a []].
  - apply Nat.eqb_neq in Ee. destruct (nth_error cont itr) as [e|] eqn:En;
      [|apply nth_error_None in En; lia].
    unfold rd in HL. rewrite En in HL. cbn [bind] in HL.
    rewrite (skipn_nth_cons _ _ _ En). cbn [map].
    destruct (proj e) as [a|] eqn:Ea; cbn [delete] in HL.
    + destruct (h a) eqn:Eh; [|discriminate]. cbn [bind] in HL.
      apply IH in HL; [|lia]. destruct HL as [Hn Hl]. split; cbn [addresses].
      * constructor; [|exact Hn]. intros Hi. apply Hl in Hi. rewrite Nat.eqb_refl in Hi. congruence.
      * intros b [->|Hb]; [congruence|]. apply Hl in Hb. destruct (b =? a); congruence.
    + cbn [bind] in HL. apply IH in HL; [|lia]. exact HL.
Qed.

Lemma delete_all_iff : forall cont h,
  (exists r, delete_all proj cont h = Ok r) <-> owns h (map proj cont).
Proof.
  intros cont h; split.
  - intros [r Hr]. unfold delete_all in Hr. cbv zeta in Hr.
    destruct (loop _ _ _) as [x| |] eqn:EL in Hr; try discriminate.
    apply delete_all_loop_ub in EL; [exact EL|lia].
  - intros Ho. destruct (delete_all_ok cont h Ho) as (h' & H & _). eauto.
Qed.

Lemma delete_if_loop : forall (p : @heap V -> E -> outcome bool) q fuel pre rest h,
  (forall (h : @heap V) e, (forall a, proj e = Some a -> h a <> None) -> p h e = Ok (q e (pointee h (proj e)))) ->
  length rest < fuel -> owns h (map proj rest) ->
  exists h', loop fuel
       (fun '(itr, cont, h) =>
          if length cont =? itr then Ok (inr (cont, h))
          else
            e <- rd cont itr ;;
            b <- p h e ;;
            if b : bool then
              h' <- delete (proj e) h ;;
              cont' <- erase cont itr ;;
              Ok (inl (itr, cont', h'))
            else Ok (inl (S itr, cont, h)))
       (length pre, pre ++ rest, h) =
    Ok (pre ++ filter (fun e => negb (q e (pointee h (proj e)))) rest, h') /\
    without h (addresses (map proj (filter (fun e => q e (pointee h (proj e))) rest))) h'.
Proof.
  intros p q fuel. induction fuel as [|fuel IH]; intros pre rest h Hp Hf [Hn Hl]; [lia|].
  cbn [loop]. destruct rest as [|e rest].
  - rewrite app_nil_r, Nat.eqb_refl. cbn [filter map addresses]. rewrite app_nil_r. exists h.
    split; [reflexivity|]. intros a; split; [intros []|reflexivity].
  - rewrite (proj2 (Nat.eqb_neq _ _)) by (rewrite app_length; cbn; lia).
    unfold rd. rewrite nth_error_app2, Nat.sub_diag by lia. cbn [nth_error bind].
    assert (Hlive : forall a, proj e = Some a -> h a <> None).
    { intros a Ea. apply Hl. cbn. rewrite Ea. cbn. auto. }
    rewrite (Hp h e Hlive). cbn [bind filter].
    assert (Hrest : owns h (map proj rest)).
    { cbn [map] in *. destruct (proj e) as [a|]; cbn [addresses] in *.
      - split; [inversion Hn; assumption|]. intros b Hb. apply Hl. right. exact Hb.
      - split; assumption. }
    destruct (q e (pointee h (proj e))) eqn:Eq; cbn [negb].
    + destruct (delete_ok (proj e) h Hlive) as (h1 & D1 & W1). rewrite D1. cbn [bind].
      unfold erase. rewrite app_length. cbn [length].
      rewrite (proj2 (Nat.ltb_lt _ _)) by lia. cbn [bind].
      rewrite firstn_app, Nat.sub_diag, firstn_all, firstn_O, app_nil_r.
      assert (Es : skipn (S (length pre)) (pre ++ e :: rest) = rest).
      { rewrite skipn_app. rewrite skipn_all2 by lia. replace (S (length pre) - length pre) with 1 by lia. reflexivity. }
      rewrite Es.
      assert (Hfar : forall a, In a (addresses (map proj rest)) -> ~ In a (addresses [proj e])).
      { intros a Ha Hi. cbn [map] in Hn. destruct (proj e) as [b|]; cbn in Hi; [|tauto].
        destruct Hi as [->|[]]. cbn [addresses] in Hn. inversion Hn; contradiction. }
      assert (Hsame : forall x, In x rest -> pointee h1 (proj x) = pointee h (proj x)).
      { intros x Hx. destruct (proj x) as [b|] eqn:Ex; [|reflexivity]. cbn. apply W1. apply Hfar.
        clear - Hx Ex. induction rest as [|y rest IHr]; [destruct Hx|]. cbn [map].
        destruct Hx as [->|Hx]; [rewrite Ex; cbn; auto|].
        destruct (proj y); cbn [addresses]; [right|]; auto. }
      destruct (IH pre rest h1 Hp) as (h2 & L2 & W2); [cbn in Hf; lia| |].
      { split; [apply Hrest|]. intros a Ha. destruct (W1 a) as [_ W]. rewrite W; [apply Hrest, Ha|]. apply Hfar, Ha. }
      exists h2. split.
      * etransitivity; [exact L2|]. f_equal. f_equal. f_equal. apply filter_ext_in. intros x Hx. rewrite Hsame; auto.
      * cbn [map]. change (proj e :: ?l) with ([proj e] ++ l). rewrite addresses_app.
        eapply without_trans; [exact W1|].
        erewrite filter_ext_in; [exact W2|]. intros x Hx. cbn. rewrite Hsame; auto.
    + destruct (IH (pre ++ [e]) rest h Hp) as (h2 & L2 & W2); [cbn in Hf; lia|exact Hrest|].
      exists h2. rewrite app_length in L2. cbn [length] in L2. rewrite Nat.add_1_r in L2.
      rewrite <- !app_assoc in L2. cbn [app] in L2. split; [exact L2|exact W2].
Qed.

Lemma delete_if_ok : forall (p : @heap V -> E -> outcome bool) q cont h,
  (forall (h : @heap V) e, (forall a, proj e = Some a -> h a <> None) -> p h e = Ok (q e (pointee h (proj e)))) ->
  owns h (map proj cont) ->
  exists h', delete_if proj p cont h =
      Ok (filter (fun e => negb (q e (pointee h (proj e)))) cont, h') /\
    without h (addresses (map proj (filter (fun e => q e (pointee h (proj e))) cont))) h'.
Proof.
  intros p q cont h Hp Ho.
  destruct (delete_if_loop p q (S (length cont)) [] cont h Hp) as (h' & L & W); [lia|exact Ho|].
  exists h'. split; [exact L|exact W].
Qed.
End Heap.

Section Keys.
Context {K T Out : Type}.

Lemma key_list_impl : forall (put : Out -> K -> Out) (m : list (K * T)) out,
  make_key_list_impl put m out = Ok (fold_left put (map fst m) out).
Proof.
  intros put m out. unfold make_key_list_impl. destruct (length m =? 0) eqn:E0.
  - apply Nat.eqb_eq in E0. destruct m; [reflexivity|discriminate].
  - clear E0.
    enough (H : forall fuel itr out, itr <= length m -> length m - itr < fuel ->
      loop fuel (fun '(itr, out) =>
            if length m =? itr then Ok (inr out)
            else kv <- rd m itr ;; Ok (inl (S itr, put out (fst kv)))) (itr, out) =
      Ok (fold_left put (map fst (skipn itr m)) out)) by (apply (H _ 0); lia).
    induction fuel as [|fuel IH]; intros itr o Hle Hf; [lia|]. cbn [loop].
    destruct (length m =? itr) eqn:Ee.
    + apply Nat.eqb_eq in Ee. rewrite skipn_all2 by lia. reflexivity.
    + apply Nat.eqb_neq in Ee. destruct (nth_error m itr) as [e|] eqn:En;
        [|apply nth_error_None in En; lia].
      unfold rd. rewrite En. cbn [bind]. rewrite IH by lia.
      rewrite (skipn_nth_cons _ _ _ En). reflexivity.
Qed.
End Keys.

Section Keys2.
Context {K T : Type}.
Variable lt : K -> K -> bool.

Lemma fold_push : forall (ks s : list K), fold_left push_back ks s = s ++ ks.
Proof.
  induction ks as [|k ks IH]; intros s; cbn; [rewrite app_nil_r; reflexivity|].
  rewrite IH. unfold push_back. rewrite <- app_assoc. reflexivity.
Qed.

Lemma set_insert_in : forall s k x, In x (set_insert lt s k) -> x = k \/ In x s.
Proof.
  induction s as [|y s IH]; intros k x; cbn; [intros [->|[]]; auto|].
  destruct (lt k y); [cbn; intros [->|[->|H]]; auto|].
  destruct (lt y k); cbn; [|intros [->|H]; auto].
  intros [->|H]; [auto|]. apply IH in H. tauto.
Qed.
Lemma set_insert_old : forall s k x, In x s -> In x (set_insert lt s k).
Proof.
  induction s as [|y s IH]; intros k x; cbn; [intros []|].
  destruct (lt k y); [cbn; tauto|]. destruct (lt y k); cbn; [|tauto]. intros [->|H]; auto.
Qed.
Lemma set_insert_new : forall s k, exists x, In x (set_insert lt s k) /\ (x = k \/ (lt x k = false /\ lt k x = false)).
Proof.
  induction s as [|y s IH]; intros k; cbn; [exists k; cbn; auto|].
  destruct (lt k y) eqn:E1; [exists k; cbn; auto|]. destruct (lt y k) eqn:E2.
  - destruct (IH k) as (x & Hx & H). exists x. cbn. auto.
  - exists y. cbn. auto.
Qed.
Lemma set_insert_sorted : strict_weak lt -> forall s k, rising lt s -> rising lt (set_insert lt s k).
Proof.
  intros (_ & Htr & _). induction s as [|y s IH]; intros k Hs; cbn; [repeat constructor|].
  inversion Hs as [|? ? Hs' Hy]; subst. destruct (lt k y) eqn:E1.
  - constructor; [exact Hs|]. constructor; [exact E1|]. eapply Forall_impl; [|exact Hy]. cbn. intros a Ha. eauto.
  - destruct (lt y k) eqn:E2; [|exact Hs]. constructor; [apply IH, Hs'|].
    apply Forall_forall. intros x Hx. apply set_insert_in in Hx. destruct Hx as [->|Hx]; [exact E2|].
    rewrite Forall_forall in Hy. auto.
Qed.

Lemma fold_set : strict_weak lt -> forall ks s, rising lt s ->
  let r := fold_left (set_insert lt) ks s in
  rising lt r /\ (forall x, In x s -> In x r) /\ (forall x, In x r -> In x s \/ In x ks) /\
  (forall k, In k ks -> exists x, In x r /\ (x = k \/ (lt x k = false /\ lt k x = false))).
Proof.
  intros Hlt. induction ks as [|k ks IH]; intros s Hs; cbn.
  - repeat split; auto. intros k [].
  - destruct (IH (set_insert lt s k)) as (A & B & C & D); [apply set_insert_sorted; assumption|].
    repeat split; auto.
    + intros x Hx. apply B, set_insert_old, Hx.
    + intros x Hx. apply C in Hx. destruct Hx as [Hx|Hx]; [|auto]. apply set_insert_in in Hx. destruct Hx as [->|Hx]; auto.
    + intros k' [->|Hk]; [|auto]. destruct (set_insert_new s k') as (x & Hx & H). exists x. auto.
Qed.

Lemma multiset_perm : forall s k, Permutation (multiset_insert lt s k) (k :: s).
Proof.
  induction s as [|y s IH]; intros k; cbn; [reflexivity|].
  destruct (lt k y); [reflexivity|]. rewrite IH. constructor.
Qed.
Lemma multiset_sorted : strict_weak lt -> forall s k, level_or_rising lt s -> level_or_rising lt (multiset_insert lt s k).
Proof.
  intros (Hir & Htr & Htn). induction s as [|y s IH]; intros k Hs; cbn; [repeat constructor|].
  inversion Hs as [|? ? Hs' Hy]; subst. destruct (lt k y) eqn:E1.
  - assert (Eyk : lt y k = false).
    { destruct (lt y k) eqn:E; [|reflexivity]. pose proof (Htr _ _ _ E E1) as Hc. rewrite Hir in Hc. discriminate. }
    constructor; [exact Hs|]. constructor; [exact Eyk|].
    eapply Forall_impl; [|exact Hy]. cbn. intros a Ha. eauto.
  - constructor; [apply IH, Hs'|]. apply Forall_forall. intros x Hx.
    apply (Permutation_in _ (multiset_perm s k)) in Hx. destruct Hx as [->|Hx]; [exact E1|].
    rewrite Forall_forall in Hy. auto.
Qed.
Lemma fold_multiset : strict_weak lt -> forall ks s, level_or_rising lt s ->
  let r := fold_left (multiset_insert lt) ks s in level_or_rising lt r /\ Permutation r (s ++ ks).
Proof.
  intros Hlt. induction ks as [|k ks IH]; intros s Hs; cbn.
  - rewrite app_nil_r. auto.
  - destruct (IH (multiset_insert lt s k)) as (A & B); [apply multiset_sorted; assumption|].
    split; [exact A|]. rewrite B. rewrite multiset_perm. cbn. apply Permutation_middle.
Qed.

(* the elements equivalent to a key form one block *)
Lemma block : strict_weak lt -> forall (m : list (K * T)) key, level_or_rising lt (map fst m) ->
  exists a b c, m = a ++ b ++ c /\
    Forall (fun kv => equivalent lt (fst kv) key = false) a /\
    Forall (fun kv => equivalent lt (fst kv) key = true) b /\
    Forall (fun kv => equivalent lt (fst kv) key = false) c.
Proof.
  intros (Hir & Htr & Htn) m key. induction m as [|[k v] m IH]; cbn [map fst]; intros Hs.
  - exists [], [], []. repeat split; constructor.
  - inversion Hs as [|? ? Hs' Hy]; subst. destruct (IH Hs') as (a & b & c & -> & Ha & Hb & Hc).
    unfold equivalent in *. destruct (negb (lt k key) && negb (lt key k)) eqn:Ek.
    + apply andb_prop in Ek. destruct Ek as [E1 E2]. apply negb_true_iff in E1, E2.
      (* nothing before the block, or no block at all *)
      assert (Hbound : Forall (fun kv : K * T => lt (fst kv) key = false) (a ++ b ++ c)).
      { apply Forall_forall. intros x Hx. rewrite Forall_forall in Hy.
        assert (Hxk := Hy (fst x) (in_map fst _ _ Hx)). cbn in Hxk. eauto. }
      assert (Hsplit : a = [] \/ b = []).
      { destruct a as [|[ka va] a]; [auto|]. destruct b as [|[kb vb] b]; [auto|]. exfalso.
        inversion Ha as [|? ? Hka _]; subst. inversion Hb as [|? ? Hkb _]; subst. cbn in Hka, Hkb.
        apply andb_prop in Hkb. destruct Hkb as [Hk1 Hk2]. apply negb_true_iff in Hk1, Hk2.
        inversion Hbound as [|? ? Hka' _]; subst. cbn in Hka'. rewrite Hka' in Hka. cbn in Hka.
        apply negb_false_iff in Hka.
        cbn [map app fst] in Hs'. inversion Hs' as [|? ? _ Hall]; subst. rewrite Forall_forall in Hall.
        assert (Hkb' : lt kb ka = false).
        { apply Hall. rewrite map_app. apply in_or_app. right. cbn. auto. }
        rewrite (Htn key kb ka) in Hka; congruence. }
      destruct Hsplit as [->| ->].
      * exists [], ((k, v) :: b), c. repeat split; auto. constructor; [|exact Hb]. cbn. rewrite E1, E2. reflexivity.
      * exists [], [(k, v)], (a ++ c). repeat split; auto.
        -- constructor; [|constructor]. cbn. rewrite E1, E2. reflexivity.
        -- apply Forall_app. auto.
    + exists ((k, v) :: a), b, c. repeat split; auto.
Qed.

Lemma first_equivalent_block : forall (a b c : list (K * T)) key,
  Forall (fun kv => equivalent lt (fst kv) key = false) a ->
  Forall (fun kv => equivalent lt (fst kv) key = true) b ->
  Forall (fun kv => equivalent lt (fst kv) key = false) c ->
  first_equivalent lt (a ++ b ++ c) key = match b with [] => length (a ++ c) | _ => length a end /\
  count_equivalent lt (a ++ b ++ c) key = length b.
Proof.
  intros a b c key Ha Hb Hc. unfold count_equivalent. split.
  - induction a as [|[k v] a IH]; cbn [app first_equivalent].
    + destruct b as [|[k v] b]; cbn.
      * induction c as [|[k v] c IHc]; cbn; [reflexivity|]. inversion Hc as [|? ? H Hc']; subst. cbn in H. rewrite H. f_equal. auto.
      * inversion Hb as [|? ? H _]; subst. cbn in H. rewrite H. reflexivity.
    + inversion Ha as [|? ? H Ha']; subst. cbn in H. rewrite H. rewrite (IH Ha'). destruct b; reflexivity.
  - rewrite !filter_app, !app_length.
    assert (Hn : forall l : list (K * T), Forall (fun kv => equivalent lt (fst kv) key = false) l ->
      filter (fun kv => equivalent lt (fst kv) key) l = []).
    { induction l as [|x l IH]; intros H; [reflexivity|]. inversion H as [|? ? Hx Hl]; subst. cbn [filter]. cbn beta in Hx. rewrite Hx. auto. }
    assert (Hy : forall l : list (K * T), Forall (fun kv => equivalent lt (fst kv) key = true) l ->
      filter (fun kv => equivalent lt (fst kv) key) l = l).
    { induction l as [|x l IH]; intros H; [reflexivity|]. inversion H as [|? ? Hx Hl]; subst. cbn [filter]. cbn beta in Hx. rewrite Hx. f_equal. auto. }
    rewrite (Hn a Ha), (Hy b Hb), (Hn c Hc). cbn. lia.
Qed.

Lemma value_loop : forall (eqb : K -> K -> bool) (m : list (K * T)) key fuel itr out b c,
  skipn itr m = b ++ c -> itr <= length m -> length m - itr < fuel ->
  Forall (fun kv => eqb key (fst kv) = true) b ->
  (forall x c', c = x :: c' -> eqb key (fst x) = false) ->
  loop fuel
         (fun '(itr, out) =>
            if length m =? itr then Ok (inr out)
            else
              kv <- rd m itr ;;
              if eqb key (fst kv) then Ok (inl (S itr, out ++ [snd kv]))
              else Ok (inr out))
         (itr, out) = Ok (out ++ map snd b).
Proof.
  intros eqb m key fuel. induction fuel as [|fuel IH]; intros itr out b c Hs Hle Hf Hb Hc; [lia|].
  cbn [loop]. destruct (length m =? itr) eqn:Ee.
  - apply Nat.eqb_eq in Ee. rewrite skipn_all2 in Hs by lia. symmetry in Hs. apply app_eq_nil in Hs.
    destruct Hs as [-> ->]. cbn. rewrite app_nil_r. reflexivity.
  - apply Nat.eqb_neq in Ee. destruct (nth_error m itr) as [e|] eqn:En;
      [|apply nth_error_None in En; lia].
    unfold rd. rewrite En. cbn [bind]. rewrite (skipn_nth_cons _ _ _ En) in Hs.
    destruct b as [|x b].
    + cbn [app] in Hs. destruct c as [|y c]; [discriminate|]. inversion Hs; subst y.
      rewrite (Hc _ _ eq_refl). cbn. rewrite app_nil_r. reflexivity.
    + cbn [app] in Hs. injection Hs as He Hs. subst x. inversion Hb as [|? ? Hx Hb']; subst. rewrite Hx.
      rewrite (IH (S itr) _ b c); auto; try lia. cbn [map]. rewrite <- app_assoc. reflexivity.
Qed.

Lemma equivalent_sym : forall a b, equivalent lt a b = equivalent lt b a.
Proof. intros. unfold equivalent. apply andb_comm. Qed.

Lemma filter_block : forall (a b c : list (K * T)) key,
  Forall (fun kv => equivalent lt (fst kv) key = false) a ->
  Forall (fun kv => equivalent lt (fst kv) key = true) b ->
  Forall (fun kv => equivalent lt (fst kv) key = false) c ->
  filter (fun kv => equivalent lt key (fst kv)) (a ++ b ++ c) = b.
Proof.
  intros a b c key Ha Hb Hc. rewrite !filter_app.
  assert (Hn : forall l : list (K * T), Forall (fun kv => equivalent lt (fst kv) key = false) l ->
    filter (fun kv => equivalent lt key (fst kv)) l = []).
  { induction l as [|x l IH]; intros H; [reflexivity|]. inversion H as [|? ? Hx Hl]; subst. cbn [filter]. rewrite equivalent_sym, Hx. auto. }
  assert (Hy : forall l : list (K * T), Forall (fun kv => equivalent lt (fst kv) key = true) l ->
    filter (fun kv => equivalent lt key (fst kv)) l = l).
  { induction l as [|x l IH]; intros H; [reflexivity|]. inversion H as [|? ? Hx Hl]; subst. cbn [filter]. rewrite equivalent_sym, Hx. f_equal. auto. }
  rewrite (Hn a Ha), (Hy b Hb), (Hn c Hc). cbn. apply app_nil_r.
Qed.

Lemma value_list : strict_weak lt -> forall eqb choose (m : list (K * T)) key out,
  (forall a b, eqb a b = equivalent lt a b) -> level_or_rising lt (map fst m) ->
  let values := map snd (filter (fun kv => equivalent lt key (fst kv)) m) in
  let n := choose (length values) in
  make_value_list lt eqb choose m key out = Ok (out ++ skipn (if n <? length values then n else 0) values).
Proof.
  intros Hlt eqb choose m key out He Hs values n. unfold make_value_list.
  destruct (length m =? 0) eqn:E0.
  - apply Nat.eqb_eq in E0. destruct m; [|discriminate]. unfold values. cbn [filter map]. rewrite skipn_nil, app_nil_r. reflexivity.
  - clear E0. destruct (block Hlt m key Hs) as (a & b & c & -> & Ha & Hb & Hc).
    destruct (first_equivalent_block a b c key Ha Hb Hc) as [Hf Hcount].
    subst values n. cbv zeta.
    rewrite (filter_block a b c key Ha Hb Hc) in *. rewrite map_length in *.
    unfold multimap_find. rewrite Hf, Hcount.
    remember (if choose (length b) <? length b then choose (length b) else 0) as d eqn:Ed.
    assert (Hd : d <= length b).
    { subst d. destruct (choose (length b) <? length b) eqn:El; [apply Nat.ltb_lt in El|]; lia. }
    rewrite skipn_map.
    destruct b as [|x b].
    + cbn [length] in *. assert (d = 0) by lia. replace (choose 0 <? 0) with false by reflexivity.
      cbn [app] in *. rewrite skipn_nil. cbn [map].
      rewrite (value_loop eqb (a ++ c) key _ _ out [] []); auto.
      * rewrite skipn_all2 by lia. reflexivity.
      * lia.
      * intros y c' Hy. discriminate.
    + replace (if choose (length (x :: b)) <? length (x :: b) then length a + choose (length (x :: b)) else length a)
        with (length a + d) by (subst d; destruct (choose (length (x :: b)) <? length (x :: b)); lia).
      apply (value_loop eqb _ key _ _ out (skipn d (x :: b)) c).
      * rewrite skipn_app, skipn_all2 by lia. replace (length a + d - length a) with d by lia. rewrite app_nil_l.
        rewrite skipn_app. replace (d - length (x :: b)) with 0 by lia. reflexivity.
      * rewrite !app_length. lia.
      * lia.
      * assert (HF : Forall (fun kv => eqb key (fst kv) = true) (x :: b)).
        { eapply Forall_impl; [|exact Hb]. cbn. intros kv Hkv. rewrite He, equivalent_sym. exact Hkv. }
        rewrite <- (firstn_skipn d (x :: b)) in HF. apply Forall_app in HF. tauto.
      * intros y c' ->. inversion Hc as [|? ? Hy _]; subst. cbn in Hy. rewrite He, equivalent_sym. exact Hy.
Qed.
End Keys2.
