From Verif Require Import Base Edit_Model Edit_Spec Edit_Proofs2 Codec_Spec Codec_Proofs Codec_Proofs2 Match_Model Match_Spec.

(* partial correctness of loops: whatever result comes out satisfies Q *)
Definition post {A} (m : outcome A) (Q : A -> Prop) : Prop := forall a, m = Ok a -> Q a.

Lemma post_bind {A B} (m : outcome A) (f : A -> outcome B) P Q :
  post m P -> (forall a, P a -> post (f a) Q) -> post (bind m f) Q.
Proof. intros H1 H2 b E. destruct m as [a| |]; try discriminate. apply (H2 a); auto. Qed.

Lemma post_ok {A} (a : A) (Q : A -> Prop) : Q a -> post (Ok a) Q.
Proof. intros H b E. congruence. Qed.

Lemma post_ub {A} (Q : A -> Prop) : post UB Q.
Proof. intros b E. discriminate. Qed.

Lemma post_weaken {A} (m : outcome A) (P Q : A -> Prop) : post m P -> (forall a, P a -> Q a) -> post m Q.
Proof. intros H1 H2 a E. auto. Qed.

Lemma post_holds {A} (m : outcome A) (Q : A -> Prop) : holds m Q -> post m Q.
Proof. intros H a ->. exact H. Qed.

Lemma post_rd {A} (s : list A) i (Q : A -> Prop) :
  (forall a, nth_error s i = Some a -> Q a) -> post (rd s i) Q.
Proof. intros H a E. unfold rd in E. destruct (nth_error s i) eqn:En; try discriminate. apply H. congruence. Qed.

Lemma loop_post {S R} (I : S -> Prop) (Q : R -> Prop) (body : S -> outcome (S + R)) :
  (forall st, I st -> post (body st) (fun x => match x with inl st' => I st' | inr r => Q r end)) ->
  forall fuel st, I st -> post (loop fuel body st) Q.
Proof.
  intros Hb fuel. induction fuel as [|f IH]; intros st Hi r E; [discriminate|].
  cbn [loop] in E. specialize (Hb st Hi).
  destruct (body st) as [[st'|r']| |]; try discriminate.
  - apply (IH st'); auto. exact (Hb _ eq_refl).
  - injection E as <-. exact (Hb _ eq_refl).
Qed.

Section Glob.
  Context {A : Type}.
  Variable eqb cmp : A -> A -> bool.
  Variables zm zo : A.
  Hypothesis eqb_ok : forall x y, eqb x y = true <-> x = y.

  Notation wild x := (x = zm \/ x = zo).

  Lemma skip_wild_post pt p : p <= length pt ->
    post (skip_wild eqb zm zo pt p) (fun q => p <= q <= length pt /\
      (forall k x, p <= k < q -> nth_error pt k = Some x -> wild x) /\
      (forall x, nth_error pt q = Some x -> ~ wild x)).
  Proof.
    intros Hp. unfold skip_wild.
    apply loop_post with (I := fun q => p <= q <= length pt /\
      (forall k x, p <= k < q -> nth_error pt k = Some x -> wild x)).
    - intros q (Hq & Hw). destruct (Nat.eqb_spec q (length pt)) as [->|Hn].
      + apply post_ok. split; [lia|]. split; auto. intros x Hx.
        apply nth_error_some_lt in Hx. lia.
      + eapply post_bind; [apply post_rd with (Q := fun x => nth_error pt q = Some x); auto|].
        intros x Hx. destruct (eqb x zm || eqb x zo) eqn:E.
        * apply post_ok. split; [lia|]. intros k y Hk Hy.
          destruct (Nat.eq_dec k q) as [->|]; [|apply (Hw k); auto; lia].
          assert (y = x) by congruence. subst. apply orb_prop in E. rewrite !eqb_ok in E. exact E.
        * apply post_ok. split; [lia|]. split; auto. intros y Hy.
          assert (y = x) by congruence. subst. apply orb_false_elim in E. rewrite <- !eqb_ok.
          destruct E as [-> ->]. intuition discriminate.
    - split; [lia|]. intros; lia.
  Qed.

  Lemma skip_to_post buf dend c d :
    post (skip_to cmp buf dend c d) (fun e => d <= e /\
      (e = dend \/ exists x, nth_error buf e = Some x /\ cmp c x = true)).
  Proof.
    unfold skip_to. apply loop_post with (I := fun e => d <= e); [|lia].
    intros e He. destruct (Nat.eqb_spec e dend) as [->|Hn]; [apply post_ok; auto|].
    eapply post_bind; [apply post_rd with (Q := fun x => nth_error buf e = Some x); auto|].
    cbn beta. intros x Hx. destruct (cmp c x) eqn:E; [apply post_ok; eauto 6|].
    unfold advance. destruct (e <? length buf); [|apply post_ub]. cbn [bind]. apply post_ok. lia.
  Qed.

  Lemma glob_drop_wild p : forall k d,
    (forall i x, i < k -> nth_error p i = Some x -> wild x) ->
    glob cmp zm zo (skipn k p) d -> glob cmp zm zo p d.
  Proof.
    induction p as [|y p IH]; intros k d Hw H.
    - now destruct k.
    - destruct k as [|k]; [exact H|]. simpl in H.
      assert (G : glob cmp zm zo p d).
      { apply IH with (k := k); auto. intros i x Hi Hx. apply (Hw (S i)); auto. lia. }
      destruct (Hw 0 y ltac:(lia) eq_refl) as [->| ->]; now constructor.
  Qed.

  Lemma glob_star_skip p : forall k d, k <= length d -> glob cmp zm zo (zm :: p) (skipn k d) ->
    glob cmp zm zo (zm :: p) d.
  Proof.
    induction k as [|k IH]; intros d Hk H; [exact H|].
    destruct d as [|x d]; [simpl in Hk; lia|]. apply g_many. apply IH; [simpl in Hk; lia|exact H].
  Qed.

  Lemma glob_star_all d : glob cmp zm zo [zm] d.
  Proof. induction d; [apply g_many0; constructor|]. now apply g_many. Qed.

  Lemma match_array_sound pt data : match_array eqb cmp zm zo pt data = Ok true -> glob cmp zm zo pt data.
  Proof.
    unfold match_array, match_impl.
    assert (H : post (loop (S (length pt)) (match_step eqb cmp zm zo pt data (length data)) (0, 0))
        (fun b => b = true -> glob cmp zm zo pt data)).
    2: { intros E. now apply (H true). }
    apply loop_post with (I := fun '(p, d) => p <= length pt /\ d <= length data /\
        (glob cmp zm zo (skipn p pt) (skipn d data) -> glob cmp zm zo pt data)).
    2: { simpl. split; [lia|]. split; [lia|]. auto. }
    intros [p d] (Hp & Hd & Hg). unfold match_step.
    destruct ((p =? length pt) || (d =? length data)) eqn:Ee.
    - unfold match_end. destruct (Nat.eqb_spec d (length data)) as [->|Hn]; cbn [negb bind].
      2: { apply post_ok. discriminate. }
      rewrite skipn_all in Hg.
      destruct (Nat.eqb_spec p (length pt)) as [->|Hpn]; cbn [bind].
      + apply post_ok. intros _. apply Hg. rewrite skipn_all. constructor.
      + unfold rd. destruct (nth_error pt p) as [x|] eqn:Ex; cbn [bind]; [|apply post_ub].
        apply post_ok. intros E. apply Nat.eqb_eq in E.
        destruct (eqb zm x || eqb zo x) eqn:Ew; [|lia].
        apply Hg. rewrite (skipn_nth_cons _ _ _ Ex), <- E, skipn_all.
        apply orb_prop in Ew. rewrite !eqb_ok in Ew. destruct Ew as [<-|<-]; repeat constructor.
    - apply orb_false_elim in Ee. destruct Ee as [E1 E2].
      apply Nat.eqb_neq in E1, E2.
      unfold rd at 1. destruct (nth_error pt p) as [x|] eqn:Ex; cbn [bind]; [|apply post_ub].
      destruct (eqb zm x) eqn:Ezm.
      + apply eqb_ok in Ezm. subst x.
        eapply post_bind; [apply skip_wild_post; lia|]. cbn beta.
        intros q (Hq & Hw & Hnw).
        assert (Hpq : p < q).
        { destruct (Nat.eq_dec p q) as [<-|]; [|lia]. exfalso. apply (Hnw zm Ex). auto. }
        assert (Hdrop : forall d', glob cmp zm zo (skipn q pt) d' -> glob cmp zm zo (skipn (S p) pt) d').
        { intros d' G. apply glob_drop_wild with (k := q - S p).
          - intros i y Hi Hy. rewrite nth_error_skipn in Hy. apply (Hw (S p + i)); auto. lia.
          - rewrite skipn_skipn. now replace (q - S p + S p) with q by lia. }
        destruct (Nat.eqb_spec q (length pt)) as [->|Hqn].
        * apply post_ok. intros _. apply Hg. rewrite (skipn_nth_cons _ _ _ Ex).
          apply glob_star_skip with (k := length (skipn d data)); auto. rewrite skipn_all.
          apply g_many0. apply Hdrop. rewrite skipn_all. constructor.
        * unfold rd. destruct (nth_error pt q) as [c|] eqn:Ec; cbn [bind]; [|apply post_ub].
          eapply post_bind; [apply skip_to_post|]. cbn beta. intros e (He & Hc).
          unfold advance. destruct (Nat.ltb_spec e (length data)) as [Hel|]; [|apply post_ub].
          destruct Hc as [->|(y & Ey & Hc)]; [lia|]. cbn [bind].
          apply post_ok. split; [lia|]. split; [lia|]. intros G. apply Hg.
          rewrite (skipn_nth_cons _ _ _ Ex).
          apply glob_star_skip with (k := e - d); [rewrite skipn_length; lia|].
          rewrite skipn_skipn. replace (e - d + d) with e by lia.
          apply g_many0. apply Hdrop. rewrite (skipn_nth_cons _ _ _ Ec), (skipn_nth_cons _ _ _ Ey).
          pose proof (Hnw c eq_refl). apply g_char; auto.
      + assert (Hnm : x <> zm) by (intros ->; rewrite (proj2 (eqb_ok zm zm) eq_refl) in Ezm; discriminate).
        destruct (eqb x zo) eqn:Ezo.
        * apply eqb_ok in Ezo. subst x.
          unfold advance. destruct (Nat.ltb_spec d (length data)) as [Hel|]; [|apply post_ub]. cbn [bind].
          apply post_ok. split; [lia|]. split; [lia|]. intros G. apply Hg.
          destruct (nth_error data d) as [y|] eqn:Ey; [|apply nth_error_None in Ey; lia].
          rewrite (skipn_nth_cons _ _ _ Ex), (skipn_nth_cons _ _ _ Ey). now apply g_one.
        * assert (Hno : x <> zo) by (intros ->; rewrite (proj2 (eqb_ok zo zo) eq_refl) in Ezo; discriminate).
          unfold rd. destruct (nth_error data d) as [y|] eqn:Ey; cbn [bind]; [|apply post_ub].
          destruct (cmp x y) eqn:Ec; [|apply post_ok; discriminate].
          unfold advance. destruct (Nat.ltb_spec d (length data)) as [Hel|]; [|apply post_ub]. cbn [bind].
          apply post_ok. split; [lia|]. split; [lia|]. intros G. apply Hg.
          rewrite (skipn_nth_cons _ _ _ Ex), (skipn_nth_cons _ _ _ Ey). now apply g_char.
  Qed.

  (* ---- patterns whose only zm, if any, starts a tail of wildcards ---- *)
  Fixpoint walk (p d : list A) : bool :=
    match p, d with
    | [], [] => true
    | [], _ :: _ => false
    | c :: p', [] => (eqb zm c || eqb zo c) && (match p' with [] => true | _ => false end)
    | c :: p', x :: d' => if eqb zm c then true else if eqb c zo || cmp c x then walk p' d' else false
    end.

  Definition simple (p : list A) : Prop :=
    exists l t, p = l ++ t /\ Forall (fun x => x <> zm) l /\
      (t = [] \/ exists t', t = zm :: t' /\ Forall (fun x => wild x) t').

  Lemma simple_tail x p : x <> zm -> simple (x :: p) -> simple p.
  Proof.
    intros Hx (l & t & E & Hl & Ht). destruct l as [|y l].
    - simpl in E. subst t. destruct Ht as [Ht|(t' & Ht & _)]; [discriminate|]. congruence.
    - injection E as -> ->. inversion Hl; subst. exists l, t. auto.
  Qed.

  Lemma simple_star p : simple (zm :: p) -> Forall (fun x => wild x) p.
  Proof.
    intros (l & t & E & Hl & Ht). destruct l as [|y l].
    - simpl in E. subst t. destruct Ht as [Ht|(t' & Ht & Hw)]; [discriminate|]. congruence.
    - injection E as <- ->. inversion Hl; subst. congruence.
  Qed.

  Lemma skip_wild_to_end pt p : p <= length pt -> Forall (fun x => wild x) (skipn p pt) ->
    skip_wild eqb zm zo pt p = Ok (length pt).
  Proof.
    intros Hp Hw. apply holds_eq. unfold skip_wild.
    apply loop_rule with (I := fun q => p <= q <= length pt) (mu := fun q => length pt - q); [|lia|lia].
    intros q Hq. destruct (Nat.eqb_spec q (length pt)) as [E|E]; [exact E|].
    destruct (rd_total pt q ltac:(lia)) as (x & Ex). rewrite Ex. cbn [bind].
    assert (Hx : wild x).
    { unfold rd in Ex. destruct (nth_error pt q) as [z|] eqn:En; try discriminate.
      injection Ex as ->. rewrite Forall_forall in Hw. apply Hw.
      apply nth_error_In with (n := q - p). rewrite nth_error_skipn. now replace (p + (q - p)) with q by lia. }
    replace (eqb x zm || eqb x zo) with true; [cbn [holds]; lia|].
    symmetry. apply orb_true_intro. rewrite !eqb_ok. exact Hx.
  Qed.

  Lemma match_walk pt extra data : simple pt ->
    match_impl eqb cmp zm zo pt (data ++ extra) (length data) = Ok (walk pt data).
  Proof.
    intros Hs. unfold match_impl.
    assert (G : forall rest p d, length rest + p = length pt -> skipn p pt = rest -> p <= length pt ->
       d <= length data -> simple rest ->
       forall fuel, length rest < fuel ->
       loop fuel (match_step eqb cmp zm zo pt (data ++ extra) (length data)) (p, d)
       = Ok (walk rest (skipn d data))).
    { induction rest as [|c rest IH]; intros p d Hpe Hr Hp Hd Hsim fuel Hf;
      (destruct fuel as [|fuel]; [simpl in Hf; lia|]); cbn [loop]; unfold match_step at 1.
      - simpl in Hpe. assert (p = length pt) by lia. subst p. rewrite Nat.eqb_refl. cbn [orb].
        unfold match_end. destruct (Nat.eqb_spec d (length data)) as [->|Hn]; cbn [negb].
        + rewrite Nat.eqb_refl, skipn_all. reflexivity.
        + cbn [bind]. destruct (skipn d data) eqn:E; [|reflexivity].
          apply (f_equal (@length A)) in E. rewrite skipn_length in E. simpl in E. lia.
      - assert (Hlt : p < length pt).
        { apply (f_equal (@length A)) in Hr. rewrite skipn_length in Hr. simpl in Hr. lia. }
        assert (Hc : nth_error pt p = Some c).
        { rewrite <- (firstn_skipn p pt), Hr. rewrite nth_error_app2; rewrite firstn_length; [|lia].
          now replace (p - Nat.min p (length pt)) with 0 by lia. }
        assert (Hr' : skipn (S p) pt = rest).
        { rewrite (skipn_nth_cons _ _ _ Hc) in Hr. congruence. }
        destruct (Nat.eqb_spec p (length pt)); [lia|]. cbn [orb].
        destruct (Nat.eqb_spec d (length data)) as [->|Hn].
        + unfold match_end. rewrite Nat.eqb_refl. cbn [negb].
          destruct (Nat.eqb_spec p (length pt)); [lia|].
          rewrite (rd_nth _ _ _ Hc). cbn [bind]. rewrite skipn_all. cbn [walk].
          pose proof (f_equal (@length A) Hr) as Hlr. rewrite skipn_length in Hlr. cbn [length] in Hpe, Hlr.
          destruct (eqb zm c || eqb zo c); cbn [andb].
          * destruct rest; cbn [length] in Hpe, Hlr.
            -- destruct (Nat.eqb_spec (length pt) (S p)); auto. lia.
            -- destruct (Nat.eqb_spec (length pt) (S p)); auto. lia.
          * destruct (Nat.eqb_spec (length pt) p); auto. lia.
        + destruct (nth_error data d) as [x|] eqn:Ex; [|apply nth_error_None in Ex; lia].
          rewrite (skipn_nth_cons _ _ _ Ex). cbn [walk].
          rewrite (rd_nth _ _ _ Hc). cbn [bind].
          assert (Hadv : advance (data ++ extra) d = Ok (S d)).
          { unfold advance. rewrite app_length. destruct (Nat.ltb_spec d (length data + length extra)); auto. lia. }
          assert (Hrd : rd (data ++ extra) d = Ok x).
          { apply rd_nth. rewrite nth_error_app1 by lia. exact Ex. }
          destruct (eqb zm c) eqn:Ezm.
          * apply eqb_ok in Ezm. subst c. rewrite skip_wild_to_end.
            -- cbn [bind]. now rewrite Nat.eqb_refl.
            -- lia.
            -- rewrite (skipn_nth_cons _ _ _ Hc), Hr'. constructor; auto. now apply simple_star.
          * assert (Hnm : c <> zm) by (intros ->; rewrite (proj2 (eqb_ok zm zm) eq_refl) in Ezm; discriminate).
            assert (IH' : loop fuel (match_step eqb cmp zm zo pt (data ++ extra) (length data)) (S p, S d)
                = Ok (walk rest (skipn (S d) data))).
            { cbn [length] in *. apply IH; auto; try lia. exact (simple_tail c rest Hnm Hsim). }
            destruct (eqb c zo) eqn:Ezo; cbn [orb].
            -- rewrite Hadv. cbn [bind]. exact IH'.
            -- rewrite Hrd. cbn [bind]. destruct (cmp c x).
               ++ rewrite Hadv. cbn [bind]. exact IH'.
               ++ reflexivity. }
    specialize (G pt 0 0). cbn [skipn] in G. apply G; auto; lia.
  Qed.

  (* star-free patterns *)
  Lemma walk_one_each p : Forall (fun x => x <> zm) p ->
    forall d, walk p d = true <-> one_each cmp zo p d.
  Proof.
    intros Hp. induction Hp as [|c p Hc Hp IH]; intros d.
    - destruct d; simpl; split; intros H; try discriminate; auto; [constructor|inversion H].
    - assert (Ezm : eqb zm c = false).
      { destruct (eqb zm c) eqn:E; auto. apply eqb_ok in E. congruence. }
      destruct d as [|x d]; cbn [walk]; rewrite Ezm; cbn [orb].
      + split.
        * intros H. apply andb_prop in H. destruct H as [H1 H2]. apply eqb_ok in H1. subst c.
          destruct p; [constructor|discriminate].
        * intros H. inversion H; subst. rewrite (proj2 (eqb_ok zo zo) eq_refl). reflexivity.
      + destruct (eqb c zo) eqn:Ezo; cbn [orb].
        * apply eqb_ok in Ezo. subst c. rewrite IH. split; intros H; [now constructor|].
          inversion H; subst; auto.
        * assert (Hno : c <> zo) by (intros ->; rewrite (proj2 (eqb_ok zo zo) eq_refl) in Ezo; discriminate).
          destruct (cmp c x) eqn:Ec.
          -- rewrite IH. split; intros H; [now constructor|]. inversion H; subst; auto; congruence.
          -- split; [discriminate|]. intros H. inversion H; subst; congruence.
  Qed.

  (* literal prefix followed by wildcards *)
  Lemma walk_prefix l t : Forall (fun x => x <> zm /\ x <> zo) l ->
    forall d, walk (l ++ zm :: t) d = true <->
      (t = [] \/ length l < length d) /\
      length l <= length d /\ Forall2 (fun c x => cmp c x = true) l (firstn (length l) d).
  Proof.
    intros Hl. induction Hl as [|c l (Hm & Ho) Hl IH]; intros d.
    - simpl. destruct d as [|x d]; rewrite (proj2 (eqb_ok zm zm) eq_refl); simpl.
      + destruct t; split; intros H; auto; try discriminate.
        destruct H as [[H|H] _]; [discriminate|lia].
      + split; auto. intros _. split; [right; lia|]. split; [lia|constructor].
    - assert (Ezm : eqb zm c = false).
      { destruct (eqb zm c) eqn:E; auto. apply eqb_ok in E. congruence. }
      assert (Ezo : eqb zo c = false).
      { destruct (eqb zo c) eqn:E; auto. apply eqb_ok in E. congruence. }
      assert (Ezo' : eqb c zo = false).
      { destruct (eqb c zo) eqn:E; auto. apply eqb_ok in E. congruence. }
      destruct d as [|x d]; cbn [walk app].
      + rewrite Ezm, Ezo. cbn [orb andb]. split; [discriminate|]. simpl. lia.
      + rewrite Ezm, Ezo'. cbn [orb length firstn]. destruct (cmp c x) eqn:Ec.
        * rewrite IH. split; intros (H0 & H1 & H2).
          -- split; [destruct H0; auto; right; lia|]. split; [lia|]. now constructor.
          -- split; [destruct H0; auto; right; lia|]. split; [lia|]. now inversion H2.
        * split; [discriminate|]. intros (_ & _ & H). inversion H. congruence.
  Qed.
End Glob.

(* ---------------- case-insensitive matching ---------------- *)
Definition ascii7 (c : ascii) : Prop := nat_of_ascii c < 128.
Definition is7 (c : ascii) : bool := nat_of_ascii c <? 128.
Lemma is7_ok c : is7 c = true <-> ascii7 c.
Proof. unfold is7, ascii7. apply Nat.ltb_lt. Qed.

Lemma toupper_char_ok c : ascii7 c -> toupper_char c = Ok (Z.of_nat (nat_of_ascii (upper c))).
Proof.
  intros H. apply is7_ok in H.
  pose (P := fun c => implb (is7 c) (match toupper_char c with
     Ok z => Z.eqb z (Z.of_nat (nat_of_ascii (upper c))) | _ => false end)).
  assert (G : P c = true) by (apply all_bytes_spec; vm_compute; reflexivity).
  unfold P in G. rewrite H in G. cbn [implb] in G.
  destruct (toupper_char c); try discriminate. apply Z.eqb_eq in G. congruence.
Qed.

Lemma toupper_char_ub c : 128 <= nat_of_ascii c < 255 -> toupper_char c = UB.
Proof.
  intros H.
  pose (P := fun c => implb ((128 <=? nat_of_ascii c) && (nat_of_ascii c <? 255)) (match toupper_char c with
     UB => true | _ => false end)).
  assert (G : P c = true) by (apply all_bytes_spec; vm_compute; reflexivity).
  unfold P in G. replace ((128 <=? nat_of_ascii c) && (nat_of_ascii c <? 255)) with true in G by lia.
  cbn [implb] in G. now destruct (toupper_char c).
Qed.

Lemma nat_ascii_inj a b : nat_of_ascii a = nat_of_ascii b -> a = b.
Proof. intros H. rewrite <- (ascii_nat_embedding a), <- (ascii_nat_embedding b). congruence. Qed.

Lemma imatch_charb_ok a b : ascii7 a -> ascii7 b -> imatch_charb a b = Ascii.eqb (upper a) (upper b).
Proof.
  intros Ha Hb. unfold imatch_charb, imatch_char. rewrite !toupper_char_ok by assumption. cbn [bind].
  destruct (Ascii.eqb_spec (upper a) (upper b)) as [->|Hn]; [apply Z.eqb_refl|].
  apply Z.eqb_neq. intros E. apply Hn, nat_ascii_inj. lia.
Qed.

Lemma imatch_ok s1 s2 : Forall ascii7 s1 -> Forall ascii7 s2 ->
  exists b, imatch s1 s2 = Ok b /\ (b = true <-> map upper s1 = map upper s2).
Proof.
  intros H1 H2. unfold imatch.
  destruct (Nat.eqb_spec (length s1) (length s2)) as [El|En]; cbn [negb].
  2: { exists false. split; auto. split; [discriminate|]. intros E.
       apply (f_equal (@length ascii)) in E. rewrite !map_length in E. lia. }
  match goal with |- exists b, ?m = _ /\ _ =>
    assert (H : holds m (fun b => b = true <-> map upper s1 = map upper s2)) end.
  2: { apply holds_ex in H. exact H. }
  apply loop_rule with (I := fun '(i, j) => i = j /\ i <= length s1 /\
        map upper (firstn i s1) = map upper (firstn i s2))
     (mu := fun '(i, j) => length s1 - i).
  - intros [i j] (<- & Hi & He). destruct (Nat.eqb_spec (length s1) i) as [E|E].
    + subst i. rewrite firstn_all in He. rewrite El, firstn_all in He. cbn [holds]. tauto.
    + destruct (nth_error s1 i) as [a|] eqn:Ea; [|apply nth_error_None in Ea; lia].
      destruct (nth_error s2 i) as [b|] eqn:Eb; [|apply nth_error_None in Eb; lia].
      rewrite (rd_nth _ _ _ Ea), (rd_nth _ _ _ Eb). cbn [bind].
      assert (Ha : ascii7 a) by (rewrite Forall_forall in H1; apply H1; eapply nth_error_In; eauto).
      assert (Hb : ascii7 b) by (rewrite Forall_forall in H2; apply H2; eapply nth_error_In; eauto).
      rewrite !toupper_char_ok by assumption. cbn [bind].
      destruct (Z.eqb_spec (Z.of_nat (nat_of_ascii (upper a))) (Z.of_nat (nat_of_ascii (upper b)))) as [Eu|Eu];
        cbn [negb holds].
      * split; [|lia]. split; auto. split; [lia|].
        rewrite (firstn_S_nth _ _ _ Ea), (firstn_S_nth _ _ _ Eb), !map_app, He. cbn [map]. do 2 f_equal.
        apply nat_ascii_inj. lia.
      * split; [discriminate|]. intros Em. exfalso. apply Eu.
        apply (f_equal (fun l => nth_error l i)) in Em. rewrite !nth_error_map, Ea, Eb in Em.
        cbn [option_map] in Em. congruence.
  - split; auto. split; [lia|]. reflexivity.
  - lia.
Qed.

(* a character in 0x80..0xFE reached after an equal prefix is undefined behaviour *)
Lemma imatch_ub p1 p2 c d r1 r2 : Forall ascii7 p1 -> Forall ascii7 p2 ->
  map upper p1 = map upper p2 -> length r1 = length r2 ->
  128 <= nat_of_ascii c < 255 ->
  imatch (p1 ++ c :: r1) (p2 ++ d :: r2) = UB.
Proof.
  intros H1 H2 Em Hl Hc. unfold imatch.
  assert (El : length p1 = length p2) by (apply (f_equal (@length ascii)) in Em; now rewrite !map_length in Em).
  replace (length (p1 ++ c :: r1) =? length (p2 ++ d :: r2)) with true.
  2: { symmetry. apply Nat.eqb_eq. rewrite !app_length. simpl. lia. }
  cbn [negb].
  match goal with |- loop _ ?b _ = _ => set (body := b) end.
  assert (G : forall k i fuel, i + k = length p1 -> k < fuel -> loop fuel body (i, i) = UB).
  2: { apply (G (length p1)); auto. rewrite app_length. lia. }
  induction k as [|k IH]; intros i fuel Hi Hf; (destruct fuel as [|fuel]; [lia|]); cbn [loop]; unfold body at 1.
  - assert (Hne : length (p1 ++ c :: r1) =? i = false)
      by (apply Nat.eqb_neq; rewrite app_length; simpl; lia). rewrite Hne.
    replace i with (length p1) by lia. rewrite rd_here. cbn [bind].
    now rewrite toupper_char_ub.
  - assert (Hne : length (p1 ++ c :: r1) =? i = false)
      by (apply Nat.eqb_neq; rewrite app_length; simpl; lia). rewrite Hne.
    destruct (nth_error p1 i) as [a|] eqn:Ea; [|apply nth_error_None in Ea; lia].
    destruct (nth_error p2 i) as [b|] eqn:Eb; [|apply nth_error_None in Eb; lia].
    assert (Ha : ascii7 a) by (rewrite Forall_forall in H1; apply H1; eapply nth_error_In; eauto).
    assert (Hb : ascii7 b) by (rewrite Forall_forall in H2; apply H2; eapply nth_error_In; eauto).
    rewrite (rd_nth (p1 ++ c :: r1) i a) by (rewrite nth_error_app1 by lia; exact Ea).
    rewrite (rd_nth (p2 ++ d :: r2) i b) by (rewrite nth_error_app1 by lia; exact Eb). cbn [bind].
    rewrite !toupper_char_ok by assumption. cbn [bind].
    assert (Eu : upper a = upper b).
    { apply (f_equal (fun l => nth_error l i)) in Em. rewrite !nth_error_map, Ea, Eb in Em.
      cbn [option_map] in Em. congruence. }
    rewrite Eu, Z.eqb_refl. cbn [negb]. apply IH; lia.
Qed.

Lemma imatch_any_ok s seq : Forall ascii7 s -> Forall (Forall ascii7) seq ->
  exists i, imatch_any s seq = Ok i /\ i <= length seq /\
    (forall j t, j < i -> nth_error seq j = Some t -> map upper s <> map upper t) /\
    (forall t, nth_error seq i = Some t -> map upper s = map upper t).
Proof.
  intros Hs Hq. apply holds_ex. unfold imatch_any.
  apply loop_rule with (I := fun i => i <= length seq /\
      (forall j t, j < i -> nth_error seq j = Some t -> map upper s <> map upper t))
     (mu := fun i => length seq - i).
  - intros i (Hi & Hb). destruct (Nat.eqb_spec i (length seq)) as [->|E].
    + cbn [holds]. split; auto. split; auto. intros t Ht. apply nth_error_some_lt in Ht. lia.
    + destruct (nth_error seq i) as [t|] eqn:Et; [|apply nth_error_None in Et; lia].
      rewrite (rd_nth _ _ _ Et). cbn [bind].
      assert (Ht : Forall ascii7 t) by (rewrite Forall_forall in Hq; apply Hq; eapply nth_error_In; eauto).
      destruct (imatch_ok s t Hs Ht) as (b & -> & Hiff). cbn [bind].
      destruct b; cbn [holds].
      * split; auto. split; auto. intros t' Ht'. assert (t' = t) by congruence. subst. tauto.
      * split; [|lia]. split; [lia|]. intros j t' Hj Ht'.
        destruct (Nat.eq_dec j i) as [->|]; [|apply (Hb j); auto; lia].
        assert (t' = t) by congruence. subst. intros E'. apply Hiff in E'. discriminate.
  - split; [lia|]. intros; lia.
  - lia.
Qed.

Definition ieq (x y : ascii) : bool := Ascii.eqb (upper x) (upper y).

Lemma prefixb_ext (f g : ascii -> ascii -> bool) pt : Forall ascii7 pt ->
  (forall a b, ascii7 a -> ascii7 b -> f a b = g a b) ->
  forall s, Forall ascii7 s -> prefixb f pt s = prefixb g pt s.
Proof.
  intros Hp Hfg. induction Hp as [|y pt Hy Hp IH]; intros s Hs; auto.
  destruct s as [|x s]; auto. inversion Hs; subst. cbn [prefixb]. now rewrite Hfg, IH.
Qed.

Lemma search_ext (f g : ascii -> ascii -> bool) pt : Forall ascii7 pt ->
  (forall a b, ascii7 a -> ascii7 b -> f a b = g a b) ->
  forall s, Forall ascii7 s -> search f pt s = search g pt s.
Proof.
  intros Hp Hfg s Hs. induction Hs as [|x s Hx Hs IH]; cbn [search].
  - now rewrite (prefixb_ext f g) by (auto; constructor).
  - rewrite (prefixb_ext f g) by (auto; constructor; auto). now rewrite IH.
Qed.

Lemma Forall_skipn {A} (P : A -> Prop) n (s : list A) : Forall P s -> Forall P (skipn n s).
Proof. intros H. revert n. induction H; intros [|n]; simpl; auto. Qed.

Lemma std_search_ext (f g : ascii -> ascii -> bool) pt s i : Forall ascii7 pt -> Forall ascii7 s ->
  (forall a b, ascii7 a -> ascii7 b -> f a b = g a b) ->
  std_search f s pt i = std_search g s pt i.
Proof.
  intros Hp Hs Hfg. unfold std_search. rewrite (search_ext f g); auto. now apply Forall_skipn.
Qed.

Lemma toupper_defined7 s : Forall ascii7 s -> forallb toupper_defined s = true.
Proof.
  intros H. apply forallb_forall. rewrite Forall_forall in H. intros c Hc.
  unfold toupper_defined. now rewrite toupper_char_ok by auto.
Qed.

Lemma ifind_ok pt data : Forall ascii7 pt -> Forall ascii7 data -> pt <> [] ->
  match ifind pt data with
  | Ok (Some k) => occurs_at ieq pt data k /\ forall j, j < k -> ~ occurs_at ieq pt data j
  | Ok None => forall j, ~ occurs_at ieq pt data j
  | _ => False
  end.
Proof.
  intros Hp Hd Hne. unfold ifind.
  destruct (Nat.ltb_spec (length data) (length pt)).
  - intros j (Hl & _). lia.
  - rewrite toupper_defined7 by (apply Forall_app; auto).
    rewrite (std_search_ext imatch_charb ieq); auto.
    2: { intros a b Ha Hb. apply imatch_charb_ok; auto. }
    cbv zeta.
    destruct (std_search_spec ieq pt data 0 ltac:(lia)) as [(E & _ & Hn)|(E & Ho & Hn)].
    + rewrite E, Nat.eqb_refl. intros j. apply Hn; auto. lia.
    + destruct (Nat.eqb_spec (length data) (std_search ieq data pt 0)); [lia|].
      split; auto. intros j Hj. apply Hn. lia.
Qed.

Lemma loop_ext {S R} (f g : S -> outcome (S + R)) : (forall s, f s = g s) ->
  forall fuel s, loop fuel f s = loop fuel g s.
Proof.
  intros H fuel. induction fuel as [|n IH]; intros s; auto. cbn [loop]. rewrite H.
  destruct (g s) as [[|]| |]; auto.
Qed.

Lemma ifind_all_ok pt data : Forall ascii7 pt -> Forall ascii7 data -> pt <> [] ->
  exists ks, leftmost_occs ieq pt data 0 ks /\
    ifind_all pt data = Ok (map (fun k => (k, k + length pt)) ks, length ks).
Proof.
  intros Hp Hd Hne. unfold ifind_all. rewrite toupper_defined7 by (apply Forall_app; auto).
  destruct (find_all_ok ieq pt data Hne) as (ks & H1 & H2). exists ks. split; auto.
  change (fun k => (k, k + length pt)) with (occ_range (length pt)).
  rewrite <- H2. unfold find_all. apply loop_ext. intros [[itr out] cnt]. unfold find_all_step.
  rewrite (std_search_ext imatch_charb ieq); auto.
  intros a b Ha Hb. apply imatch_charb_ok; auto.
Qed.
