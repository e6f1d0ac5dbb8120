(* Proofs about the prefix trie: every node stands for one word. *)
From Verif Require Import Base Trie_Model Trie_Spec.

Section Proofs.
Context {K V : Type}.
Variable keq : K -> K -> bool.
Hypothesis keq_ok : forall a b, keq a b = true <-> a = b.

Definition wordset := list (list K).

Definition inv (h : heap K V) (ws : wordset) : Prop :=
  length h = length ws /\ NoDup ws /\ nth_error ws 0 = Some [] /\
  (forall j w c, nth_error ws j = Some (w ++ [c]) -> exists i, nth_error ws i = Some w /\ i < j) /\
  (forall i w, nth_error ws i = Some w -> exists n, nth_error h i = Some (Some n) /\
     NoDup (node_list n) /\
     (forall q, In q (node_list n) <-> exists c, nth_error ws q = Some (w ++ [c])) /\
     (forall w' c, w = w' ++ [c] -> key_value n = c)).

Definition child (w k : list K) : Prop := exists c, k = w ++ [c].

Definition vals (h : heap K V) (ws : wordset) (hist : list (list K * V)) : Prop :=
  forall i w n, nth_error ws i = Some w -> nth_error h i = Some (Some n) ->
    (value_holder n = false /\ forall k v, In (k, v) hist -> ~ child w k) \/
    (exists v, value_holder n = true /\ value n = Some v /\ last_value (child w) hist v).

Lemma snoc_inj (w w' : list K) c c' : w ++ [c] = w' ++ [c'] -> w = w' /\ c = c'.
Proof. intros E. apply app_inj_tail in E. exact E. Qed.

Lemma ws_inj (ws : wordset) i j w : NoDup ws -> nth_error ws i = Some w -> nth_error ws j = Some w -> i = j.
Proof.
  intros Hn Hi Hj. rewrite NoDup_nth_error in Hn. apply Hn; [|congruence].
  apply nth_error_Some. congruence.
Qed.

Lemma deref_ok (h : heap K V) p n : nth_error h p = Some (Some n) -> deref h p = Ok n.
Proof. intros E. unfold deref, rd. rewrite E. reflexivity. Qed.

(* ---- get_node ---- *)
Lemma get_node_ok h ws i w k : inv h ws -> nth_error ws i = Some w ->
  holds (get_node keq h i k) (fun r =>
    match r with
    | Some q => nth_error ws q = Some (w ++ [k])
    | None => forall q, nth_error ws q <> Some (w ++ [k])
    end).
Proof.
  intros (Hl & Hn & H0 & Hp & Hi) Hw. destruct (Hi i w Hw) as (n & En & Nd & Hk & Hkey).
  unfold get_node. rewrite (deref_ok _ _ _ En). cbn [bind].
  destruct (length (node_list n) =? 0) eqn:E0.
  - apply Nat.eqb_eq in E0. apply length_zero_iff_nil in E0. simpl.
    intros q Hq. assert (In q (node_list n)) as Hin by (apply Hk; eauto). rewrite E0 in Hin. exact Hin.
  - apply (loop_rule (fun itr => itr <= length (node_list n) /\
        forall a q, a < itr -> nth_error (node_list n) a = Some q -> nth_error ws q <> Some (w ++ [k]))
        (fun itr => length (node_list n) - itr)).
    + intros itr (Hle & Hbefore). destruct (itr =? length (node_list n)) eqn:E1.
      * apply Nat.eqb_eq in E1. simpl. intros q Hq.
        assert (In q (node_list n)) as Hin by (apply Hk; eauto).
        apply In_nth_error in Hin. destruct Hin as (a & Ha).
        apply (Hbefore a q); auto. assert (a < length (node_list n)) by (apply nth_error_Some; congruence). lia.
      * apply Nat.eqb_neq in E1. destruct (nth_error (node_list n) itr) as [q|] eqn:Eq.
        2:{ apply nth_error_None in Eq. lia. }
        rewrite (rd_nth _ _ _ Eq). cbn [bind].
        assert (In q (node_list n)) as Hin by (eapply nth_error_In; eauto).
        apply Hk in Hin. destruct Hin as (c & Hc).
        destruct (Hi q _ Hc) as (m & Em & _ & _ & Hkm). rewrite (deref_ok _ _ _ Em). cbn [bind].
        rewrite (Hkm w c eq_refl).
        destruct (keq k c) eqn:Ek.
        -- apply keq_ok in Ek. subst. exact Hc.
        -- simpl. split; [split; [lia|]|lia].
           intros a q' Ha Hq'. destruct (Nat.eq_dec a itr) as [->|Hne].
           ++ rewrite Eq in Hq'. injection Hq' as <-. rewrite Hc. intros Hcontra.
              injection Hcontra as Hcontra. apply snoc_inj in Hcontra. destruct Hcontra as [_ ->].
              rewrite (proj2 (keq_ok k k) eq_refl) in Ek. discriminate.
           ++ apply Hbefore with a; auto. lia.
    + split; [lia|]. intros; lia.
    + lia.
Qed.

Lemma nth_error_snoc {A} (l : list A) x i : 
  nth_error (l ++ [x]) i = if i =? length l then Some x else nth_error l i.
Proof.
  destruct (i =? length l) eqn:E.
  - apply Nat.eqb_eq in E. subst. rewrite nth_error_app2 by lia. now rewrite Nat.sub_diag.
  - apply Nat.eqb_neq in E. destruct (Nat.lt_ge_cases i (length l)).
    + now rewrite nth_error_app1.
    + rewrite (proj2 (nth_error_None l i)) by lia. apply nth_error_None. rewrite app_length. simpl. lia.
Qed.

(* ---- adding a child ---- *)
Lemma add_child_ok h ws i w k hist : inv h ws -> vals h ws hist -> nth_error ws i = Some w ->
  (forall q, nth_error ws q <> Some (w ++ [k])) -> (forall key v, In (key, v) hist -> ~ child (w ++ [k]) key) ->
  exists h', add_node (fst (new_node h k)) i (snd (new_node h k)) = Ok h' /\
    inv h' (ws ++ [w ++ [k]]) /\ vals h' (ws ++ [w ++ [k]]) hist.
Proof.
  intros (Hl & Hn & H0 & Hp & Hi) Hv Hw Hnew Hfresh.
  destruct (Hi i w Hw) as (n & En & Nd & Hk & Hkey).
  assert (i < length ws) as Hilt by (apply nth_error_Some; congruence).
  unfold new_node, add_node. cbn [fst snd].
  rewrite (deref_ok _ _ n) by (rewrite nth_error_app1 by lia; exact En). cbn [bind].
  eexists. split; [apply wr_ok; rewrite app_length; simpl; lia|].
  set (nn := Some (Node k false None [])).
  set (n' := Some (Node (key_value n) (value_holder n) (value n) (node_list n ++ [length h]))).
  assert (forall j, nth_error (upd (h ++ [nn]) i n') j =
                    if j =? i then Some n' else if j =? length h then Some nn else nth_error h j) as Hnth.
  { intros j. destruct (j =? i) eqn:Eji.
    - apply Nat.eqb_eq in Eji. subst j. rewrite nth_error_upd_same; [reflexivity|rewrite app_length; simpl; lia].
    - apply Nat.eqb_neq in Eji. rewrite nth_error_upd_other by lia. apply nth_error_snoc. }
  split; [split; [|split; [|split; [|split]]]|].
  - rewrite upd_length, !app_length. simpl. lia.
  - rewrite <- (app_nil_r (ws ++ [w ++ [k]])), <- app_assoc. apply NoDup_Add with (a := w ++ [k]) (l := ws).
    + simpl. pose proof (Add_app (w ++ [k]) ws []) as HA. rewrite app_nil_r in HA. exact HA.
    + split; auto. intros Hin. apply In_nth_error in Hin. destruct Hin as (q & Hq). eapply Hnew; eauto.
  - rewrite nth_error_app1 by lia. exact H0.
  - intros j w1 c. rewrite nth_error_snoc. destruct (j =? length ws) eqn:Ej.
    + intros E. injection E as E. apply snoc_inj in E. destruct E as [-> ->]. exists i.
      apply Nat.eqb_eq in Ej. subst. rewrite nth_error_app1 by lia. auto.
    + intros E. destruct (Hp _ _ _ E) as (i1 & E1 & Hlt). exists i1. rewrite nth_error_app1; auto.
      apply nth_error_Some. congruence.
  - intros j w1. rewrite nth_error_snoc, Hnth. destruct (j =? length ws) eqn:Ej.
    + apply Nat.eqb_eq in Ej. subst j. intros E. injection E as <-.
      destruct (length ws =? i) eqn:E1; [apply Nat.eqb_eq in E1; lia|]. rewrite Hl, Nat.eqb_refl.
      eexists. split; [reflexivity|]. cbn [node_list key_value].
      split; [constructor|]. split.
      * intros q. split; [intros []|]. intros (c & Hc). exfalso.
        rewrite nth_error_snoc in Hc. destruct (q =? length ws).
        -- injection Hc as Hc. apply (f_equal (@length K)) in Hc. rewrite !app_length in Hc. simpl in Hc. lia.
        -- destruct (Hp _ _ _ Hc) as (i1 & E & _). eapply Hnew; eauto.
      * intros w' c E. apply snoc_inj in E. tauto.
    + intros E. destruct (j =? i) eqn:Eji.
      * apply Nat.eqb_eq in Eji. subst j. rewrite Hw in E. injection E as <-.
        eexists. split; [reflexivity|]. cbn [node_list key_value].
        split; [|split].
        -- apply NoDup_Add with (a := length h) (l := node_list n).
           ++ pose proof (Add_app (length h) (node_list n) []) as HA. rewrite app_nil_r in HA. exact HA.
           ++ split; auto. intros Hin. apply Hk in Hin. destruct Hin as (c & Hc).
              assert (length h < length ws) by (apply nth_error_Some; congruence). lia.
        -- intros q. rewrite in_app_iff, Hk. rewrite nth_error_snoc. split.
           ++ intros [(c & Hc)|[Eq0|[]]]; [|subst q].
              ** exists c. destruct (q =? length ws) eqn:Eq; auto. apply Nat.eqb_eq in Eq.
                 assert (q < length ws) by (apply nth_error_Some; congruence). lia.
              ** exists k. replace (length h =? length ws) with true by (symmetry; apply Nat.eqb_eq; exact Hl). reflexivity.
           ++ intros (c & Hc). destruct (q =? length ws) eqn:Eq; eauto.
              right. left. apply Nat.eqb_eq in Eq. lia.
        -- exact Hkey.
      * destruct (Hi j w1 E) as (m & Em & Ndm & Hkm & Hkeym).
        assert (j < length ws) by (apply nth_error_Some; congruence).
        destruct (j =? length h) eqn:Ejh; [apply Nat.eqb_eq in Ejh; lia|].
        exists m. split; auto. split; auto. split; auto.
        intros q. rewrite Hkm, nth_error_snoc. split.
        -- intros (c & Hc). exists c. destruct (q =? length ws) eqn:Eq; auto. apply Nat.eqb_eq in Eq.
           assert (q < length ws) by (apply nth_error_Some; congruence). lia.
        -- intros (c & Hc). destruct (q =? length ws) eqn:Eq; eauto.
           injection Hc as Hc. apply snoc_inj in Hc. destruct Hc as [-> ->].
           apply Nat.eqb_neq in Eji. exfalso. apply Eji. eapply ws_inj; eauto.
  - intros j w1 m. rewrite nth_error_snoc, Hnth. destruct (j =? length ws) eqn:Ej.
    + apply Nat.eqb_eq in Ej. subst j. destruct (length ws =? i) eqn:E1; [apply Nat.eqb_eq in E1; lia|].
      rewrite Hl, Nat.eqb_refl. intros E E'. injection E as <-. injection E' as <-. left. split; auto.
    + intros E. destruct (j =? i) eqn:Eji.
      * apply Nat.eqb_eq in Eji. subst j. intros E'. injection E' as <-. cbn. apply (Hv i w1 n E En).
      * assert (j < length ws) by (apply nth_error_Some; congruence).
        destruct (j =? length h) eqn:Ejh; [apply Nat.eqb_eq in Ejh; lia|].
        intros E'. apply (Hv j w1 m E E').
Qed.

(* ---- histories ---- *)
Definition nonempty_hist (hist : list (list K * V)) := exists k v, In (k, v) hist /\ k <> [].

Definition rep (t : trie K V) (hist : list (list K * V)) : Prop :=
  (t = empty_trie /\ forall k v, In (k, v) hist -> k = []) \/
  (head t = Some 0 /\ nonempty_hist hist /\
   exists ws, inv (mem t) ws /\ vals (mem t) ws hist /\
     forall w, In w ws <-> w = [] \/ stored_prefix hist w).

Lemma prefix_snoc (w p : list K) c : prefix_of p (w ++ [c]) <-> p = w ++ [c] \/ prefix_of p w.
Proof.
  split.
  - intros (r & E). destruct r as [|x r0] using rev_ind.
    + rewrite app_nil_r in E. auto.
    + right. rewrite app_assoc in E. apply snoc_inj in E. destruct E as [E _]. now exists r0.
  - intros [->|(r & ->)]; [now exists []; rewrite app_nil_r|]. exists (r ++ [c]). now rewrite app_assoc.
Qed.

Lemma firstn_snoc_nth (key : list K) i k : nth_error key i = Some k -> firstn (S i) key = firstn i key ++ [k].
Proof.
  revert i. induction key as [|a key IH]; intros [|i] E; simpl in *; try discriminate.
  - congruence.
  - rewrite (IH i E). reflexivity.
Qed.

Lemma prefix_nil (p : list K) : prefix_of p [] -> p = [].
Proof. intros (r & E). symmetry in E. apply app_eq_nil in E. tauto. Qed.

Local Arguments firstn : simpl never.

Lemma assign_ok h ws p w v key hist : inv h ws -> vals h ws hist -> nth_error ws p = Some w ->
  child w key ->
  exists h', assign_value h p v = Ok h' /\ inv h' ws /\ vals h' ws (hist ++ [(key, v)]).
Proof.
  intros (Hl & Hn & H0 & Hp & Hi) Hv Hw Hc.
  destruct (Hi p w Hw) as (n & En & Nd & Hk & Hkey).
  assert (p < length ws) as Hplt by (apply nth_error_Some; congruence).
  unfold assign_value. rewrite (deref_ok _ _ _ En). cbn [bind].
  eexists. split; [apply wr_ok; lia|].
  set (n' := Some (Node (key_value n) true (Some v) (node_list n))).
  assert (forall j, nth_error (upd h p n') j = if j =? p then Some n' else nth_error h j) as Hnth.
  { intros j. destruct (j =? p) eqn:Ej.
    - apply Nat.eqb_eq in Ej. subst. apply nth_error_upd_same; lia.
    - apply Nat.eqb_neq in Ej. apply nth_error_upd_other; lia. }
  split; [split; [|split; [|split; [|split]]]|]; auto.
  - rewrite upd_length. exact Hl.
  - intros j w1 E. rewrite Hnth. destruct (j =? p) eqn:Ej; [|apply Hi; auto].
    apply Nat.eqb_eq in Ej. subst. assert (w1 = w) by congruence. subst.
    eexists. split; [reflexivity|]. cbn. auto.
  - intros j w1 m E. rewrite Hnth. destruct (j =? p) eqn:Ej.
    + apply Nat.eqb_eq in Ej. subst. assert (w1 = w) by congruence. subst.
      intros E'. injection E' as <-. cbn. right. exists v. split; [auto|]. split; auto.
      exists hist, key, []. split; [reflexivity|]. split; [assumption|intros ? ? []].
    + intros E'. assert (w1 <> w) as Hne.
      { intros ->. apply Nat.eqb_neq in Ej. apply Ej. eapply ws_inj; eauto. }
      assert (~ child w1 key) as Hnc.
      { intros (c & Ec). destruct Hc as (c' & Ec'). rewrite Ec in Ec'. apply snoc_inj in Ec'. tauto. }
      destruct (Hv j w1 m E E') as [(Hf & Hno)|(v1 & Ht & Hvv & (h1 & k & h2 & -> & Hck & Hlast))].
      * left. split; auto. intros k v0. rewrite in_app_iff. intros [Hin|[Hin|[]]]; [eauto|].
        injection Hin as <- <-. exact Hnc.
      * right. exists v1. split; auto. split; auto. exists h1, k, (h2 ++ [(key, v)]).
        split; [rewrite <- app_assoc; reflexivity|]. split; auto.
        intros k' v'. rewrite in_app_iff. intros [Hin|[Hin|[]]]; [eauto|].
        injection Hin as <- <-. exact Hnc.
Qed.

Lemma insert_ok t hist key v : rep t hist ->
  holds (insert keq t key v) (fun t' => rep t' (hist ++ [(key, v)])).
Proof.
  intros Hr. unfold insert. destruct (length key =? 0) eqn:E0.
  - apply Nat.eqb_eq in E0. apply length_zero_iff_nil in E0. subst key. simpl.
    destruct Hr as [(-> & Hall)|(Hh & (k0 & v0 & Hin & Hne) & ws & Hi & Hv & Hws)].
    + left. split; auto. intros k v0. rewrite in_app_iff. intros [Hin|[Hin|[]]]; [eauto|congruence].
    + right. split; auto. split.
      { exists k0, v0. rewrite in_app_iff. auto. }
      exists ws. split; auto. split.
      * intros i w n Ew En. destruct (Hv i w n Ew En) as [(Hf & Hno)|(v1 & Ht & Hvv & (h1 & k & h2 & -> & Hck & Hlast))].
        -- left. split; auto. intros k v1. rewrite in_app_iff. intros [Hin'|[Hin'|[]]]; [eauto|].
           injection Hin' as <- <-. intros (c & Ec). symmetry in Ec. apply app_eq_nil in Ec. destruct Ec; discriminate.
        -- right. exists v1. split; auto. split; auto. exists h1, k, (h2 ++ [([], v)]).
           split; [rewrite <- app_assoc; reflexivity|]. split; auto.
           intros k' v'. rewrite in_app_iff. intros [Hin'|[Hin'|[]]]; [eauto|].
           injection Hin' as <- <-. intros (c & Ec). symmetry in Ec. apply app_eq_nil in Ec. destruct Ec; discriminate.
      * intros w. rewrite Hws. unfold stored_prefix. split.
        -- intros [->|(Hn0 & k & v1 & Hin1 & Hpre)]; auto. right. split; auto. exists k, v1. rewrite in_app_iff. auto.
        -- intros [->|(Hn0 & k & v1 & Hin1 & Hpre)]; auto. rewrite in_app_iff in Hin1.
           destruct Hin1 as [Hin1|[Hin1|[]]].
           ++ right. split; auto. exists k, v1. auto.
           ++ injection Hin1 as <- <-. apply prefix_nil in Hpre. contradiction.
  - apply Nat.eqb_neq in E0. destruct key as [|k0 key0]; [simpl in E0; lia|]. clear E0.
    set (key := k0 :: key0) in *. change (rd key 0) with (@Ok K k0). cbn [bind].
    assert (key <> []) as Hnil by discriminate. clearbody key.
    (* state after the head has been created if necessary *)
    assert (exists h ws, (match head t with None => new_node (mem t) k0 | Some p => (mem t, p) end) = (h, 0) /\
              inv h ws /\ vals h ws hist /\ (forall w, In w ws <-> w = [] \/ stored_prefix hist w)) as
      (h & ws & -> & Hi & Hv & Hws).
    { destruct Hr as [(-> & Hall)|(Hh & Hne & ws & Hi & Hv & Hws)].
      - cbn. exists [Some (Node k0 false None [])], [[]]. split; [reflexivity|]. split; [|split].
        + split; [reflexivity|]. split; [repeat constructor; simpl; tauto|]. split; [reflexivity|]. split.
          * intros [|[|j]] w c E; simpl in E; try discriminate. injection E as E. symmetry in E.
            apply app_eq_nil in E. destruct E; discriminate.
          * intros [|[|i]] w E; simpl in E; try discriminate. injection E as <-.
            eexists. split; [reflexivity|]. cbn. split; [constructor|]. split.
            -- intros q. split; [tauto|]. intros (c & Hc). destruct q as [|[|q]]; discriminate.
            -- intros w' c E. symmetry in E. apply app_eq_nil in E. destruct E; discriminate.
        + intros [|[|i]] w n Ew En; simpl in Ew, En; try discriminate. injection Ew as <-. injection En as <-.
          left. split; auto. intros k v0 Hin (c & Ec). apply Hall in Hin. subst. discriminate.
        + intros w. simpl. split.
          * intros [<-|[]]. auto.
          * intros [->|(Hn0 & k & v0 & Hin & Hpre)]; auto. apply Hall in Hin. subst.
            apply prefix_nil in Hpre. contradiction.
      - rewrite Hh. exists (mem t), ws. auto. }
    apply holds_bind2 with (P := fun '(h', parent) => exists ws' p, parent = Some p /\ inv h' ws' /\
       vals h' ws' hist /\ (forall w, In w ws' <-> In w ws \/ prefix_of w key) /\
       nth_error ws' p = Some (removelast key)).
    + apply (loop_rule (fun '(h', n, parent, itr) => itr <= length key /\ exists ws', inv h' ws' /\
         vals h' ws' hist /\ (forall w, In w ws' <-> In w ws \/ prefix_of w (firstn itr key)) /\
         nth_error ws' n = Some (firstn itr key) /\
         match itr with
         | 0 => parent = None
         | S i => exists p, parent = Some p /\ nth_error ws' p = Some (firstn i key)
         end) (fun '(h', n, parent, itr) => length key - itr)).
      * intros [[[h' n] parent] itr] (Hle & ws' & Hi' & Hv' & Hws' & Hn & Hpar).
        destruct (itr =? length key) eqn:Ei.
        -- apply Nat.eqb_eq in Ei. simpl. subst itr. rewrite firstn_all in *.
           destruct (length key) as [|i] eqn:El; [apply length_zero_iff_nil in El; contradiction|].
           destruct Hpar as (p & -> & Hp). exists ws', p. split; auto. split; auto. split; auto. split; auto.
           rewrite Hp. f_equal.
           rewrite removelast_firstn_len, El. reflexivity.
        -- apply Nat.eqb_neq in Ei. destruct (nth_error key itr) as [k|] eqn:Ek.
           2:{ apply nth_error_None in Ek. lia. }
           rewrite (rd_nth _ _ _ Ek). cbn [bind].
           eapply holds_bind2; [apply (get_node_ok h' ws' n _ k Hi' Hn)|].
           rewrite <- (firstn_snoc_nth _ _ _ Ek). intros [q|] Hq.
           ++ cbn [bind]. simpl. split; [split; [lia|]|lia]. exists ws'. split; auto. split; auto. split; [|split; auto].
              ** intros w. rewrite Hws'. rewrite (firstn_snoc_nth _ _ _ Ek), prefix_snoc.
                 split; [tauto|]. intros [Hin|[->|Hpre]]; auto. apply Hws'.
                 rewrite <- (firstn_snoc_nth _ _ _ Ek). eapply nth_error_In. eauto.
              ** exists n. auto.
           ++ assert (forall k' v', In (k', v') hist -> ~ child (firstn itr key ++ [k]) k') as Hfresh.
              { intros k' v' Hin (c & Ec). 
                assert (In (firstn (S itr) key) ws') as Hin2.
                { apply Hws'. left. apply Hws. right. split.
                  - rewrite (firstn_snoc_nth _ _ _ Ek). intros Hc. apply app_eq_nil in Hc. destruct Hc; discriminate.
                  - exists k', v'. split; auto. exists [c]. rewrite Ec, (firstn_snoc_nth _ _ _ Ek). reflexivity. }
                apply In_nth_error in Hin2. destruct Hin2 as (q & Hq'). eapply Hq; eauto. }
              rewrite (firstn_snoc_nth _ _ _ Ek) in Hq.
              destruct (add_child_ok h' ws' n _ k hist Hi' Hv' Hn Hq Hfresh) as (h2 & E2 & Hi2 & Hv2).
              unfold new_node in *. cbn [fst snd] in E2. rewrite E2. cbn [bind]. simpl.
              split; [split; [lia|]|lia]. exists (ws' ++ [firstn itr key ++ [k]]). split; auto. split; auto.
              split; [|split].
              ** intros w. rewrite in_app_iff, Hws', (firstn_snoc_nth _ _ _ Ek), prefix_snoc. simpl.
                 split; intuition.
              ** rewrite nth_error_snoc. replace (length h') with (length ws') by (symmetry; apply Hi').
                 rewrite Nat.eqb_refl, (firstn_snoc_nth _ _ _ Ek). reflexivity.
              ** exists n. split; auto. rewrite nth_error_app1; auto. apply nth_error_Some. congruence.
      * split; [lia|]. exists ws. split; auto. split; auto. split; [|split].
        -- intros w. rewrite firstn_O. split; [tauto|]. intros [?|Hpre]; auto. apply prefix_nil in Hpre. subst.
           apply Hws. auto.
        -- rewrite firstn_O. apply Hi.
        -- reflexivity.
      * lia.
    + intros [h' parent] (ws' & p & -> & Hi' & Hv' & Hws' & Hp).
      assert (child (removelast key) key) as Hchild.
      { exists (last key k0). apply app_removelast_last. exact Hnil. }
      destruct (assign_ok h' ws' p _ v key hist Hi' Hv' Hp Hchild) as (h2 & -> & Hi2 & Hv2).
      simpl. right. split; [reflexivity|]. split.
      { exists key, v. rewrite in_app_iff. simpl. auto. }
      exists ws'. split; auto. split; auto.
      intros w. rewrite Hws', Hws. unfold stored_prefix. split.
      * intros [[->|(Hn0 & k & v1 & Hin1 & Hpre)]|Hpre]; auto.
        -- right. split; auto. exists k, v1. rewrite in_app_iff. auto.
        -- destruct w as [|a w]; auto. right. split; [discriminate|]. exists key, v. rewrite in_app_iff. simpl. auto.
      * intros [->|(Hn0 & k & v1 & Hin1 & Hpre)]; auto. rewrite in_app_iff in Hin1.
        destruct Hin1 as [Hin1|[Hin1|[]]].
        -- left. right. split; auto. exists k, v1. auto.
        -- injection Hin1 as <- <-. auto.
Qed.

Lemma insert_all_ok hist : exists t, insert_all keq empty_trie hist = Ok t /\ rep t hist.
Proof.
  unfold insert_all. induction hist as [|[k v] hist IH] using rev_ind.
  - exists empty_trie. split; auto. left. split; auto. intros ? ? [].
  - destruct IH as (t & E & Hr). rewrite fold_left_app, E. cbn [fold_left bind].
    pose proof (insert_ok t hist k v Hr) as H. apply holds_ex in H. exact H.
Qed.

Lemma find_prefix_ok t hist p : rep t hist ->
  holds (find_prefix keq t p) (fun b => b = true <-> stored_prefix hist p).
Proof.
  intros [(-> & Hall)|(Hh & Hne & ws & Hi & Hv & Hws)]; unfold find_prefix.
  - simpl. split; [discriminate|]. intros (Hn0 & k & v & Hin & Hpre). apply Hall in Hin. subst.
    apply prefix_nil in Hpre. contradiction.
  - rewrite Hh. destruct (length p =? 0) eqn:E0.
    { apply Nat.eqb_eq in E0. apply length_zero_iff_nil in E0. subst. simpl. split; [discriminate|].
      intros (Hn0 & _). contradiction. }
    apply Nat.eqb_neq in E0.
    apply (loop_rule (fun '(n, itr) => itr <= length p /\ nth_error ws n = Some (firstn itr p))
             (fun '(n, itr) => length p - itr)).
    + intros [n itr] (Hle & Hn). destruct (itr =? length p) eqn:Ei.
      * apply Nat.eqb_eq in Ei. subst. rewrite firstn_all in Hn. simpl. split; [intros _|auto].
        apply nth_error_In in Hn. apply Hws in Hn. destruct Hn as [->|]; auto. simpl in E0. lia.
      * apply Nat.eqb_neq in Ei. destruct (nth_error p itr) as [k|] eqn:Ek.
        2:{ apply nth_error_None in Ek. lia. }
        rewrite (rd_nth _ _ _ Ek). cbn [bind].
        eapply holds_bind2; [apply (get_node_ok _ ws n _ k Hi Hn)|].
        rewrite <- (firstn_snoc_nth _ _ _ Ek). intros [q|] Hq; simpl.
        -- split; [split; [lia|auto]|lia].
        -- split; [discriminate|]. intros (Hn0 & k' & v & Hin & (r & Er)). exfalso.
           assert (In (firstn (S itr) p) ws) as Hin2.
           { apply Hws. right. split.
             - rewrite (firstn_snoc_nth _ _ _ Ek). intros Hc. apply app_eq_nil in Hc. destruct Hc; discriminate.
             - exists k', v. split; auto. exists (skipn (S itr) p ++ r). rewrite app_assoc, firstn_skipn. auto. }
           apply In_nth_error in Hin2. destruct Hin2 as (q & Hq'). eapply Hq; eauto.
    + split; [lia|]. rewrite firstn_O. apply Hi.
    + lia.
Qed.

Lemma find_ok t hist key : rep t hist ->
  holds (find keq t key) (fun r =>
    match r with
    | Some v => stored_prefix hist key /\ last_value (sibling key) hist v
    | None => ~ (stored_prefix hist key /\ exists k v, In (k, v) hist /\ sibling key k)
    end).
Proof.
  intros [(-> & Hall)|(Hh & Hne & ws & Hi & Hv & Hws)]; unfold find.
  - simpl. intros ((Hn0 & k & v & Hin & Hpre) & _). apply Hall in Hin. subst.
    apply prefix_nil in Hpre. contradiction.
  - rewrite Hh. destruct (length key =? 0) eqn:E0.
    { apply Nat.eqb_eq in E0. apply length_zero_iff_nil in E0. subst. simpl. 
      intros ((Hn0 & _) & _). contradiction. }
    apply Nat.eqb_neq in E0.
    apply holds_bind2 with (P := fun r => match r with
       | None => ~ stored_prefix hist key
       | Some parent => stored_prefix hist key /\ exists w c, key = w ++ [c] /\ nth_error ws parent = Some w
       end).
    + apply (loop_rule (fun '(n, parent, itr) => itr <= length key /\ nth_error ws n = Some (firstn itr key) /\
               match itr with 0 => True | S i => nth_error ws parent = Some (firstn i key) end)
             (fun '(n, parent, itr) => length key - itr)).
      * intros [[n parent] itr] (Hle & Hn & Hpar). destruct (itr =? length key) eqn:Ei.
        -- apply Nat.eqb_eq in Ei. subst. rewrite firstn_all in Hn. simpl. split.
           ++ apply nth_error_In in Hn. apply Hws in Hn. destruct Hn as [->|]; auto. simpl in E0. lia.
           ++ destruct (length key) as [|i] eqn:El; [lia|]. exists (firstn i key).
              destruct (nth_error key i) as [c|] eqn:Ec; [|apply nth_error_None in Ec; lia].
              exists c. split; auto. rewrite <- (firstn_snoc_nth _ _ _ Ec), <- El, firstn_all. reflexivity.
        -- apply Nat.eqb_neq in Ei. destruct (nth_error key itr) as [k|] eqn:Ek.
           2:{ apply nth_error_None in Ek. lia. }
           rewrite (rd_nth _ _ _ Ek). cbn [bind].
           eapply holds_bind2; [apply (get_node_ok _ ws n _ k Hi Hn)|].
           rewrite <- (firstn_snoc_nth _ _ _ Ek). intros [q|] Hq; simpl.
           ++ split; [split; [lia|auto]|lia].
           ++ intros (Hn0 & k' & v & Hin & (r & Er)).
              assert (In (firstn (S itr) key) ws) as Hin2.
              { apply Hws. right. split.
                - rewrite (firstn_snoc_nth _ _ _ Ek). intros Hc. apply app_eq_nil in Hc. destruct Hc; discriminate.
                - exists k', v. split; auto. exists (skipn (S itr) key ++ r). rewrite app_assoc, firstn_skipn. auto. }
              apply In_nth_error in Hin2. destruct Hin2 as (q & Hq'). eapply Hq; eauto.
      * split; [lia|]. split; [rewrite firstn_O; apply Hi|exact I].
      * lia.
    + intros [parent|] Hp; simpl; [|tauto].
      destruct Hp as (Hs & w & c & -> & Hw).
      destruct (proj2 (proj2 (proj2 (proj2 Hi))) _ _ Hw) as (n & En & _).
      rewrite (deref_ok _ _ _ En). cbn [bind].
      assert (forall k, child w k <-> sibling (w ++ [c]) k) as Hcs.
      { intros k. split.
        - intros (c' & ->). exists w, c, c'. auto.
        - intros (w' & c1 & c2 & E1 & ->). apply snoc_inj in E1. destruct E1 as [-> ->]. now exists c2. }
      destruct (Hv _ _ _ Hw En) as [(Hf & Hno)|(v1 & Ht & Hvv & (h1 & k & h2 & -> & Hck & Hlast))].
      * rewrite Hf. simpl. intros (_ & k & v & Hin & Hsib). apply Hcs in Hsib. eapply Hno; eauto.
      * rewrite Ht, Hvv. simpl. split; auto. exists h1, k, h2. split; auto. split; [apply Hcs; auto|].
        intros k' v' Hin Hsib. apply Hcs in Hsib. eapply Hlast; eauto.
Qed.

(* ---- destruction ---- *)
Lemma prefix_closed h ws : inv h ws -> forall r w j, nth_error ws j = Some (w ++ r) -> exists i, nth_error ws i = Some w.
Proof.
  intros (_ & _ & _ & Hp & _) r. induction r as [|c r IH] using rev_ind; intros w j E.
  - rewrite app_nil_r in E. eauto.
  - rewrite app_assoc in E. destruct (Hp _ _ _ E) as (i & Hi & _). eauto.
Qed.

Lemma delete_S f (h : heap K V) p : delete (S f) h p =
  (n <- deref h p ;;
   h <- (if length (node_list n) =? 0 then Ok h
         else for_up 0 (length (node_list n))
                (fun itr h => q <- rd (node_list n) itr ;; delete f h q) h) ;;
   wr h p None).
Proof. reflexivity. Qed.

Lemma delete_ok h0 ws : inv h0 ws -> forall fuel h p w,
  nth_error ws p = Some w -> length ws - p < fuel -> length h = length ws ->
  (forall j wj, nth_error ws j = Some wj -> prefix_of w wj -> nth_error h j = nth_error h0 j) ->
  exists h', delete fuel h p = Ok h' /\ length h' = length ws /\
    (forall j wj, nth_error ws j = Some wj -> prefix_of w wj -> nth_error h' j = Some None) /\
    (forall j wj, nth_error ws j = Some wj -> ~ prefix_of w wj -> nth_error h' j = nth_error h j).
Proof.
  intros Hi fuel. pose proof Hi as (Hl & Hn & H0 & Hp & Hnode).
  induction fuel as [|f IH]; intros h p w Hw Hf Hlen Hlive; [lia|].
  assert (p < length ws) as Hplt by (apply nth_error_Some; congruence).
  destruct (Hnode p w Hw) as (n & En & Nd & Hk & _).
  assert (nth_error h p = Some (Some n)) as Ehp.
  { rewrite (Hlive p w Hw); auto. exists []. now rewrite app_nil_r. }
  rewrite delete_S, (deref_ok _ _ _ Ehp). cbn [bind].
  set (under := fun m wj => exists a q wq, a < m /\ nth_error (node_list n) a = Some q /\
                  nth_error ws q = Some wq /\ prefix_of wq wj).
  assert (exists h1, (if length (node_list n) =? 0 then Ok h else
            for_up 0 (length (node_list n)) (fun itr h => q <- rd (node_list n) itr ;; delete f h q) h) = Ok h1 /\
     length h1 = length ws /\
     (forall j wj, nth_error ws j = Some wj -> under (length (node_list n)) wj -> nth_error h1 j = Some None) /\
     (forall j wj, nth_error ws j = Some wj -> ~ under (length (node_list n)) wj -> nth_error h1 j = nth_error h j))
    as (h1 & E1 & Hl1 & Hfree & Hkeep).
  { destruct (length (node_list n) =? 0) eqn:E0.
    - apply Nat.eqb_eq in E0. exists h. split; auto. split; auto. split; auto.
      intros j wj _ (a & q & wq & Ha & _). lia.
    - clear E0. apply holds_ex.
      pose proof (for_up_rule (S := heap K V) (fun m h1 => length h1 = length ws /\
        (forall j wj, nth_error ws j = Some wj -> under m wj -> nth_error h1 j = Some None) /\
        (forall j wj, nth_error ws j = Some wj -> ~ under m wj -> nth_error h1 j = nth_error h j))
        (fun itr h => q <- rd (node_list n) itr ;; delete f h q) (length (node_list n)) 0 h) as R.
      cbn beta in R. apply R; clear R.
      + intros m h1 Hm (Hl1 & Hfree & Hkeep).
        destruct (nth_error (node_list n) m) as [q|] eqn:Eq; [|apply nth_error_None in Eq; lia].
        rewrite (rd_nth _ _ _ Eq). cbn [bind].
        assert (In q (node_list n)) as Hin by (eapply nth_error_In; eauto).
        apply Hk in Hin. destruct Hin as (c & Hc).
        destruct (Hp _ _ _ Hc) as (p' & Hp' & Hlt). assert (p' = p) by (eapply ws_inj; eauto). subst p'.
        assert (forall wj, prefix_of (w ++ [c]) wj -> ~ under m wj) as Hdisj.
        { intros wj (r & ->) (a & q' & wq & Ha & Hq' & Hwq & (r' & Er')).
          assert (In q' (node_list n)) as Hin' by (eapply nth_error_In; eauto).
          apply Hk in Hin'. destruct Hin' as (c' & Hc'). rewrite Hwq in Hc'. injection Hc' as ->.
          rewrite <- !app_assoc in Er'. apply app_inv_head in Er'. injection Er' as <- _.
          assert (q' = q) by (eapply ws_inj; eauto). subst q'.
          assert (a = m); [|lia]. rewrite NoDup_nth_error in Nd. apply Nd; [|congruence].
          apply nth_error_Some. congruence. }
        destruct (IH h1 q (w ++ [c]) Hc) as (h2 & E2 & Hl2 & Hf2 & Hk2); [lia|auto| |].
        * intros j wj Ej Hpre. rewrite Hkeep with (wj := wj); auto. apply Hlive with wj; auto.
          destruct Hpre as (r & ->). exists ([c] ++ r). now rewrite app_assoc.
        * rewrite E2. simpl. split; auto. split.
          -- intros j wj Ej (a & q' & wq & Ha & Hq' & Hwq & Hpre).
             destruct (Nat.eq_dec a m) as [->|Hne].
             ++ assert (q' = q) by congruence. subst q'. assert (wq = w ++ [c]) by congruence. subst wq. eauto.
             ++ assert (under m wj) as Hu by (exists a, q', wq; repeat split; auto; lia).
                rewrite (Hk2 j wj Ej); eauto. intros Hpre'. eapply Hdisj; eauto.
          -- intros j wj Ej Hnu. rewrite (Hk2 j wj Ej).
             ++ apply (Hkeep j wj Ej). intros (a & q' & wq & Ha & Hr). apply Hnu. exists a, q', wq. split; [lia|auto].
             ++ intros Hpre. apply Hnu. exists m, q, (w ++ [c]). split; [lia|]. auto.
      + split; auto. split; auto. intros j wj _ (a & q & wq & Ha & _). lia. }
  unfold heap in *. rewrite E1. cbn [bind]. eexists. split; [apply wr_ok; lia|]. split; [rewrite upd_length; auto|].
  assert (forall wj, under (length (node_list n)) wj -> prefix_of w wj /\ wj <> w) as Hup.
  { intros wj (a & q & wq & Ha & Hq & Hwq & (r & ->)).
    assert (In q (node_list n)) as Hin by (eapply nth_error_In; eauto).
    apply Hk in Hin. destruct Hin as (c & Hc). rewrite Hwq in Hc. injection Hc as ->.
    rewrite <- app_assoc. split; [now exists ([c] ++ r)|]. intros E.
    apply (f_equal (@length K)) in E. rewrite !app_length in E. simpl in E. lia. }
  split.
  - intros j wj Ej Hpre. destruct (Nat.eq_dec j p) as [->|Hne].
    + apply nth_error_upd_same. lia.
    + rewrite nth_error_upd_other by lia. apply (Hfree j wj Ej).
      destruct Hpre as (r & ->). destruct r as [|c r].
      * exfalso. apply Hne. rewrite app_nil_r in Ej. eapply ws_inj; eauto.
      * change (c :: r) with ([c] ++ r) in *. rewrite app_assoc in Ej.
        destruct (prefix_closed _ _ Hi _ _ _ Ej) as (q & Hq).
        assert (In q (node_list n)) as Hin by (apply Hk; eauto).
        apply In_nth_error in Hin. destruct Hin as (a & Ha). exists a, q, (w ++ [c]).
        split; [apply nth_error_Some; congruence|]. split; auto. split; auto. exists r. now rewrite app_assoc.
  - intros j wj Ej Hnp. rewrite nth_error_upd_other.
    + apply (Hkeep j wj Ej). intros Hu. apply Hup in Hu. tauto.
    + intros ->. apply Hnp. assert (wj = w) by congruence. subst. exists []. now rewrite app_nil_r.
Qed.

Lemma destroy_ok t hist fuel : rep t hist -> length (mem t) < fuel ->
  destroy fuel t = Ok (repeat None (length (mem t))).
Proof.
  intros [(-> & _)|(Hh & _ & ws & Hi & _)] Hf; unfold destroy; [reflexivity|].
  rewrite Hh. pose proof Hi as (Hl & _ & H0 & _).
  destruct (delete_ok (mem t) ws Hi fuel (mem t) 0 [] H0) as (h' & -> & Hl' & Hfree & _); auto; [lia|].
  f_equal. apply nth_error_ext. intros i.
  destruct (Nat.lt_ge_cases i (length ws)) as [Hlt|Hge].
  - destruct (nth_error ws i) as [w|] eqn:Ew; [|apply nth_error_None in Ew; lia].
    rewrite (Hfree i w Ew); [|now exists w].
    symmetry. rewrite nth_error_repeat; [reflexivity|lia].
  - rewrite (proj2 (nth_error_None h' i)) by lia. symmetry. apply nth_error_None. rewrite repeat_length. lia.
Qed.

End Proofs.
