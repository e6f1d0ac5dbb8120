From Verif Require Import Base Split_Model Split_Spec Split_Proofs Split_Proofs2 Delim_Spec Delim_Proofs Real_Model Period_Model Period_Spec Edit_Proofs Parse_Proofs.
From Coq Require Import Permutation.
Local Open Scope nat_scope.

Lemma separator_pred c : period_delimiter c = true <-> separator c.
Proof.
  unfold period_delimiter, separator. rewrite among_multi. unfold among. rewrite existsb_exists. split.
  - intros (x & Hx & E). apply Ascii.eqb_eq in E. now subst.
  - intros H. exists c. split; auto. apply Ascii.eqb_refl.
Qed.
Lemma separator_pred_false c : period_delimiter c = false <-> ~ separator c.
Proof. rewrite <- separator_pred. destruct (period_delimiter c); intuition congruence. Qed.

(* ---- letters ---- *)
Definition all_ascii : list ascii := map (fun n => ascii_of_N (N.of_nat n)) (seq 0 256).
Lemma in_all_ascii c : In c all_ascii.
Proof.
  unfold all_ascii. apply in_map_iff. exists (N.to_nat (N_of_ascii c)). split.
  - rewrite N2Nat.id. apply ascii_N_embedding.
  - apply in_seq. pose proof (N_ascii_bounded c). lia.
Qed.
Definition letter_b (c : ascii) : option (nat * Z) :=
  if existsb (Ascii.eqb c) (str "Dd") then Some (0, 86400000%Z)
  else if existsb (Ascii.eqb c) (str "Hh") then Some (1, 3600000%Z)
  else if existsb (Ascii.eqb c) (str "Mm") then Some (2, 60000%Z)
  else if existsb (Ascii.eqb c) (str "Ss") then Some (3, 1000%Z) else None.
Lemma letter_b_iff c k f : letter_b c = Some (k, f) <-> unit_letter c k f.
Proof.
  split.
  - unfold letter_b. intros H.
    assert (G : forall l, existsb (Ascii.eqb c) l = true -> In c l).
    { intros l E. apply existsb_exists in E. destruct E as (x & Hx & E). apply Ascii.eqb_eq in E. now subst. }
    destruct (existsb (Ascii.eqb c) (str "Dd")) eqn:E1; [injection H as <- <-; constructor; auto|].
    destruct (existsb (Ascii.eqb c) (str "Hh")) eqn:E2; [injection H as <- <-; constructor; auto|].
    destruct (existsb (Ascii.eqb c) (str "Mm")) eqn:E3; [injection H as <- <-; constructor; auto|].
    destruct (existsb (Ascii.eqb c) (str "Ss")) eqn:E4; [injection H as <- <-; constructor; auto|]. discriminate.
  - intros [x H|x H|x H|x H]; destruct H as [<-|[<-|[]]]; reflexivity.
Qed.
(* what the loop does with the last character of a token *)
Definition letter_check (c : ascii) : bool :=
  match toupper c with
  | Ok c' => match unit_of c', letter_b c with
             | Some (k, f), Some (k', f') => (k =? k') && Z.eqb f f' && (k <? 4) && Bool.eqb (Ascii.eqb c' "D") (k =? 0) && period_delimiter c
             | None, None => true
             | _, _ => false
             end
  | _ => match letter_b c with None => negb (period_delimiter c) | _ => false end
  end.
Lemma letters_ok c : letter_check c = true.
Proof.
  assert (H : forallb letter_check all_ascii = true) by (vm_compute; reflexivity).
  rewrite forallb_forall in H. apply H, in_all_ascii.
Qed.
Lemma toupper_some c c' k f : toupper c = Ok c' -> unit_of c' = Some (k, f) ->
  unit_letter c k f /\ k < 4 /\ Ascii.eqb c' "D" = (k =? 0) /\ separator c.
Proof.
  intros E1 E2. pose proof (letters_ok c) as H. unfold letter_check in H. rewrite E1, E2 in H.
  destruct (letter_b c) as [[k' f']|] eqn:E; [|discriminate].
  apply andb_true_iff in H. destruct H as [H H5]. apply andb_true_iff in H. destruct H as [H H4].
  apply andb_true_iff in H. destruct H as [H H3]. apply andb_true_iff in H. destruct H as [H1 H2].
  apply Nat.eqb_eq in H1. apply Z.eqb_eq in H2. apply Nat.ltb_lt in H3. apply Bool.eqb_prop in H4. subst k' f'.
  repeat split; auto; [now apply letter_b_iff|now apply separator_pred].
Qed.
Lemma letter_toupper c k f : unit_letter c k f -> exists c', toupper c = Ok c' /\ unit_of c' = Some (k, f) /\ k < 4 /\ Ascii.eqb c' "D" = (k =? 0).
Proof.
  intros E. apply letter_b_iff in E. pose proof (letters_ok c) as H. unfold letter_check in H. rewrite E in H.
  destruct (toupper c) as [c'| |] eqn:E1; try discriminate. exists c'. destruct (unit_of c') as [[k' f']|] eqn:E2; [|discriminate].
  destruct (toupper_some c c' k' f' E1 E2) as (G & G2 & G3 & _). apply letter_b_iff in G. rewrite E in G. injection G as <- <-. auto.
Qed.
Lemma separator_toupper c : separator c -> exists c', toupper c = Ok c'.
Proof.
  intros H. apply separator_pred in H. pose proof (letters_ok c) as G. unfold letter_check in G.
  destruct (toupper c); eauto; rewrite H in G; destruct (letter_b c); discriminate.
Qed.

(* ---- the converter stores only what it read ---- *)
Section Reader.
Variable O : reals.
Lemma parse_real_shape s : (exists v, forall t, parse_real O s t = Ok (true, v)) \/ (forall t, parse_real O s t = Ok (false, t)) \/
  (forall t, parse_real O s t = UB) \/ (forall t, parse_real O s t = OutOfFuel).
Proof.
  unfold parse_real. destruct (length s =? 0); [auto|]. destruct (rd s 0) as [c| |]; cbn [bind]; [|auto|auto]. cbv zeta.
  destruct ((Ascii.eqb c "-" || Ascii.eqb c "+") && (length s =? (if Ascii.eqb c "-" || Ascii.eqb c "+" then 1 else 0))); [auto|].
  match goal with |- context [rd s ?i] => destruct (rd s i) as [c1| |]; cbn [bind]; [|auto|auto] end.
  match goal with |- context [bind ?m _] => lazymatch m with context [parse_digits] => destruct m as [((i1 & d1) & b1)| |]; cbn [bind]; [|auto|auto] end end.
  match goal with |- context [bind ?m _] => lazymatch m with context [parse_digits] => destruct m as [((i2 & d2) & b2)| |]; cbn [bind]; [|auto|auto] end end.
  destruct (parse_tail O s i2 (Ascii.eqb c "-")) as [[[i3 e]|[v|]]| |]; cbn [bind]; [|eauto|auto|auto|auto].
  destruct (negb (length s =? i3) || negb b2); [auto|].
  match goal with |- context [bind ?m _] => destruct m as [d3| |]; cbn [bind]; [|auto|auto] end. left. eauto.
Qed.
Lemma parse_real_same s t v : parse_real O s t = Ok (true, v) -> forall t', parse_real O s t' = Ok (true, v).
Proof.
  intros H t'. destruct (parse_real_shape s) as [(w & E)|[E|[E|E]]]; rewrite E in *; congruence.
Qed.
End Reader.

(* ---- decompositions ---- *)
Lemma head_unique v u g s v' u' g' s' :
  Forall (fun c => ~ separator c) v -> separator u -> Forall separator g -> (forall c q, s = c :: q -> ~ separator c) ->
  Forall (fun c => ~ separator c) v' -> separator u' -> Forall separator g' -> (forall c q, s' = c :: q -> ~ separator c) ->
  v ++ u :: g ++ s = v' ++ u' :: g' ++ s' -> v = v' /\ u = u' /\ g = g' /\ s = s'.
Proof.
  intros Hv Hu Hg Hs Hv' Hu' Hg' Hs'. revert v' Hv'. induction Hv as [|c v Hc Hv IH]; intros v' Hv' E.
  - destruct Hv' as [|c' v' Hc' Hv'].
    + cbn [app] in E. injection E as -> E. split; auto. split; auto. clear Hu Hu'. revert g' Hg' E. induction Hg as [|x g Hx Hg IH]; intros g' Hg' E.
      * destruct Hg' as [|y g' Hy Hg']; [auto|]. exfalso. cbn [app] in E. exact (Hs _ _ E Hy).
      * destruct Hg' as [|y g' Hy Hg']; [exfalso; cbn [app] in E; exact (Hs' _ _ (eq_sym E) Hx)|].
        cbn [app] in E. injection E as -> E. destruct (IH _ Hg' E) as [-> ->]. auto.
    + cbn [app] in E. exfalso. assert (u = c') by congruence. now subst.
  - destruct Hv' as [|c' v' Hc' Hv'].
    + cbn [app] in E. exfalso. assert (c = u') by congruence. now subst.
    + cbn [app] in E. assert (c = c') by congruence. subst c'. assert (E' : v ++ u :: g ++ s = v' ++ u' :: g' ++ s') by congruence.
      destruct (IH _ Hv' E') as (-> & -> & -> & ->). auto.
Qed.
Lemma parts_unique s l r : parts s l r -> forall l' r', parts s l' r' -> length l = length l' -> l = l' /\ r = r'.
Proof.
  induction 1 as [s|v u g s l r Hv Hu Hg Hs H IH]; intros l' r' H' Hl.
  - destruct l'; [|discriminate]. inversion H'. auto.
  - destruct l' as [|x l']; [discriminate|].
    remember (v ++ u :: g ++ s) as w eqn:E. remember (x :: l') as m eqn:Em.
    destruct H' as [w|v' u' g' s' l2 r2 Hv' Hu' Hg' Hs' H']; [discriminate|].
    destruct (head_unique _ _ _ _ _ _ _ _ Hv Hu Hg Hs Hv' Hu' Hg' Hs' (eq_sym E)) as (-> & -> & -> & ->).
    injection Em as -> ->. cbn [length] in Hl. destruct (IH _ _ H' ltac:(lia)) as [-> ->]. auto.
Qed.

(* ---- the loop ---- *)
Section Loop.
Variable O : reals.
Variable D : period_ops (target O).
Variables s rest : list ascii.
Notation amounts := (Forall2 (fun vu kz => amount O D vu (fst kz) (snd kz))).

Lemma add_ll_ok a b q : add_ll a b = Ok q -> q = (a + b)%Z /\ (- 2 ^ 63 <= a + b < 2 ^ 63)%Z.
Proof. unfold add_ll. destruct (Z.leb_spec (- 2 ^ 63) (a + b)), (Z.ltb_spec (a + b) (2 ^ 63)); cbn [andb]; intros E; try discriminate. injection E as <-. lia. Qed.
Lemma add_ll_in a b : (- 2 ^ 63 <= a + b < 2 ^ 63)%Z -> add_ll a b = Ok (a + b)%Z.
Proof. intros H. unfold add_ll. destruct (Z.leb_spec (- 2 ^ 63) (a + b)), (Z.ltb_spec (a + b) (2 ^ 63)); cbn [andb]; auto; lia. Qed.

Lemma loop_start mem toks t t' enc period q : period_loop O D mem toks t enc period = Ok (true, q) ->
  period_loop O D mem toks t' enc period = Ok (true, q).
Proof.
  destruct toks as [|[f e] toks]; [exact (fun H => H)|]. cbn [period_loop convert].
  destruct (e =? 0); [discriminate|]. destruct (f <? e).
  - destruct (parse_real_shape O (sub mem (f, e - 1))) as [(w & E)|[E|[E|E]]]; rewrite !E; cbn [bind negb]; auto; discriminate.
  - destruct (rd mem f) as [c| |]; cbn [bind]; auto. destruct (Ascii.eqb c zero); cbn [bind negb]; auto; discriminate.
Qed.
(* one step with a number and its unit u *)
Lemma period_step mem f e u toks t enc period q : f < e -> rd mem (e - 1) = Ok u -> length enc = 4 ->
  period_loop O D mem ((f, e) :: toks) t enc period = Ok (true, q) <->
  exists k z, amount O D (sub mem (f, e - 1), u) k z /\ nth_error enc k = Some false /\
    (- 2 ^ 63 <= period + z < 2 ^ 63)%Z /\ period_loop O D mem toks t (upd enc k true) (period + z) = Ok (true, q).
Proof.
  intros Hf Hu Hl. cbn [period_loop convert]. replace (e =? 0) with false by (symmetry; apply Nat.eqb_neq; lia).
  replace (f <? e) with true by (symmetry; now apply Nat.ltb_lt). cbn [snd]. split.
  - intros H.
    destruct (parse_real_shape O (sub mem (f, e - 1))) as [(w & E)|[E|[E|E]]]; rewrite E in H; cbn [bind negb] in H; try discriminate.
    rewrite Hu in H. cbn [bind] in H. destruct (toupper u) as [c| |] eqn:Ec; cbn [bind] in H; try discriminate.
    destruct (unit_of c) as [[k fac]|] eqn:Ek; [|discriminate].
    destruct (toupper_some u c k fac Ec Ek) as (H1 & H2 & H3 & _).
    destruct (nth_error enc k) as [b|] eqn:En; [|apply nth_error_None in En; lia].
    rewrite (rd_nth _ _ _ En) in H. cbn [bind] in H. destruct b; [discriminate|]. cbv zeta in H.
    rewrite wr_ok in H by lia. cbn [bind] in H. rewrite H3 in H.
    destruct (negb (k =? 0) && below_0 D (scale D fac w)) eqn:Eb; [discriminate|].
    destruct (to_ll D (scale D fac w)) as [z|] eqn:Ez; [|discriminate].
    destruct (add_ll period z) as [p'| |] eqn:Ea; cbn [bind] in H; try discriminate.
    apply add_ll_ok in Ea. destruct Ea as [-> Hr]. exists k, z. split; [|split; [auto|split; [exact Hr|eapply loop_start; eauto]]].
    exists fac, w. cbn [fst snd]. repeat split; auto.
    intros Hk. apply Nat.eqb_neq in Hk. rewrite Hk in Eb. exact Eb.
  - intros (k & z & (fac & w & H1 & H2 & H3 & H4) & En & Hr & H). cbn [fst snd] in *.
    rewrite H2. cbn [bind negb]. rewrite Hu. cbn [bind].
    destruct (letter_toupper u k fac H1) as (c & -> & Ek & Hk & Ed). cbn [bind]. rewrite Ek, (rd_nth _ _ _ En). cbn [bind]. cbv zeta.
    rewrite wr_ok by lia. cbn [bind]. rewrite Ed.
    replace (negb (k =? 0) && below_0 D (scale D fac w)) with false.
    2:{ destruct (Nat.eqb_spec k 0) as [|N]; cbn [negb andb]; auto. symmetry. auto. }
    rewrite H4, add_ll_in by auto. cbn [bind]. eapply loop_start; eauto.
Qed.

Lemma Forall_sub (P : ascii -> Prop) q a b : a <= b -> b <= length s -> all_in s q a b -> (forall x, q x = true -> P x) -> Forall P (sub s (a, b)).
Proof.
  intros Ha Hb H HP. apply Forall_forall. intros x Hx. apply In_nth_error in Hx. destruct Hx as (i & Hi).
  pose proof (nth_error_some_lt _ _ _ Hi) as Hl. rewrite sub_length in Hl by lia.
  rewrite nth_error_sub in Hi by lia. apply HP. apply (H (a + i)); auto. lia.
Qed.
Lemma loop_parts a toks : cuts period_delimiter s (spec_tok_end 3) (spec_next_start 3) a toks ->
  forall n t enc period q, length enc = 4 ->
  period_loop O D (s ++ rest) (firstn n toks) t enc period = Ok (true, q) <->
  exists l r ks, parts (skipn a s) l r /\ length l = n /\ amounts l ks /\ NoDup (map fst ks) /\
    (forall k, In k (map fst ks) -> nth_error enc k = Some false) /\ running_sum period (map snd ks) q.
Proof.
  induction 1 as [a H1 H2|a f e toks H1 H2 H3 H4 H5 H6 H7 IH]; intros n t enc period q Hl.
  - destruct n as [|n].
    + cbn [firstn period_loop]. split.
      * intros E. assert (q = period) by congruence. subst. exists [], (skipn a s), []. repeat split; try constructor. intros k [].
      * intros (l & r & ks & G1 & G2 & G3 & G4 & G5 & G6). destruct l; [|discriminate]. inversion G3; subst. inversion G6; subst. reflexivity.
    + cbn [firstn]. rewrite firstn_nil. split; intros G.
      * exfalso. destruct (Nat.ltb_spec a (length s)) as [Ha|Ha].
        -- destruct (nth_error s (length s - 1)) as [u|] eqn:Eu; [|apply nth_error_None in Eu; lia].
           apply (period_step (s ++ rest) a (length s) u) in G; auto.
           ++ destruct G as (k & z & (fac & w & G1 & _) & _). cbn [snd] in G1.
              destruct (letter_toupper u k fac G1) as (c & Ec & Ek & _). destruct (toupper_some u c k fac Ec Ek) as (_ & _ & _ & Hs).
              apply separator_pred in Hs. specialize (H2 (length s - 1) u ltac:(lia) Eu). cbn beta in H2. rewrite Hs in H2. discriminate.
           ++ apply rd_nth. rewrite nth_error_app1 by lia. exact Eu.
        -- assert (a = length s) by lia. subst a. cbn [period_loop convert] in G.
           destruct (length s =? 0); [discriminate|]. rewrite Nat.ltb_irrefl in G.
           destruct (rd (s ++ rest) (length s)) as [c| |]; cbn [bind] in G; try discriminate.
           destruct (Ascii.eqb c zero); cbn [bind negb] in G; discriminate.
      * exfalso. destruct G as (l & r & ks & G1 & G2 & _). remember (skipn a s) as w eqn:Ew.
        destruct G1 as [w|v u g s' l r Hv Hu Hg Hs G1]; [discriminate|].
        assert (Hi : nth_error (skipn a s) (length v) = Some u) by (rewrite <- Ew, nth_error_app2, Nat.sub_diag by lia; reflexivity).
        rewrite nth_error_skipn in Hi. pose proof (nth_error_some_lt _ _ _ Hi).
        specialize (H2 (a + length v) u ltac:(lia) Hi). cbn beta in H2. apply separator_pred in Hu. rewrite Hu in H2. discriminate.
  - destruct n as [|n].
    + cbn [firstn period_loop]. split.
      * intros E. assert (q = period) by congruence. subst. exists [], (skipn a s), []. repeat split; try constructor. intros k [].
      * intros (l & r & ks & G1 & G2 & G3 & G4 & G5 & G6). destruct l; [|discriminate]. inversion G3; subst. inversion G6; subst. reflexivity.
    + cbn [firstn]. change (spec_tok_end 3 f e) with (S f). change (spec_next_start 3 f e) with e in IH.
      destruct (nth_error s f) as [u|] eqn:Eu; [|apply nth_error_None in Eu; lia].
      assert (Hsep : separator u) by (apply separator_pred; apply (H5 f); auto; lia).
      assert (Hv : sub (s ++ rest) (a, f) = sub s (a, f)).
      { unfold sub. cbn [fst snd]. rewrite skipn_app. replace (a - length s) with 0 by lia. rewrite firstn_app, skipn_length.
        replace (f - a - (length s - a)) with 0 by lia. cbn [firstn skipn]. apply app_nil_r. }
      assert (Hsplit : skipn a s = sub s (a, f) ++ u :: sub s (S f, e) ++ skipn e s).
      { apply nth_error_ext. intros i. rewrite nth_error_skipn. destruct (Nat.ltb_spec i (f - a)) as [Hi|Hi].
        - rewrite nth_error_app1 by (rewrite sub_length; lia). rewrite nth_error_sub by lia. reflexivity.
        - rewrite nth_error_app2 by (rewrite sub_length; lia). rewrite sub_length by lia.
          destruct (i - (f - a)) as [|j] eqn:Ej; [cbn [nth_error]; rewrite <- Eu; f_equal; lia|]. cbn [nth_error].
          destruct (Nat.ltb_spec j (e - S f)) as [Hj|Hj].
          + rewrite nth_error_app1 by (rewrite sub_length; lia). rewrite nth_error_sub by lia. f_equal. lia.
          + rewrite nth_error_app2 by (rewrite sub_length; lia). rewrite sub_length, nth_error_skipn by lia. f_equal. lia. }
      assert (Hv' : Forall (fun c => ~ separator c) (sub s (a, f))).
      { eapply Forall_sub; eauto; [lia|]. cbn beta. intros x Hx. apply separator_pred_false. now apply negb_true_iff in Hx. }
      assert (Hg' : Forall separator (sub s (S f, e))).
      { apply (Forall_sub _ period_delimiter); auto; [|].
        - intros i x Hi. apply H5. lia.
        - intros x Hx. now apply separator_pred. }
      assert (Hs' : forall c q, skipn e s = c :: q -> ~ separator c).
      { intros c q' Ec. apply separator_pred_false. destruct H6 as [->|(x & Hx & Px)].
        - rewrite skipn_all in Ec. discriminate.
        - replace x with c in Px; auto. pose proof (nth_error_skipn s e 0) as Hn. rewrite Ec, Nat.add_0_r in Hn. cbn [nth_error] in Hn. congruence. }
      rewrite (period_step (s ++ rest) a (S f) u) by
        (try lia; auto; rewrite Nat.sub_succ, Nat.sub_0_r; apply rd_nth; rewrite nth_error_app1 by lia; exact Eu).
      rewrite Nat.sub_succ, Nat.sub_0_r, Hv. split.
      * intros (k & z & Ha & En & Hr & G). apply IH in G; [|now rewrite upd_length].
        destruct G as (l & r & ks & G1 & G2 & G3 & G4 & G5 & G6).
        assert (Hk : ~ In k (map fst ks)).
        { intros Hi. apply G5 in Hi. rewrite nth_error_upd_same in Hi by (apply nth_error_some_lt in En; lia). discriminate. }
        exists ((sub s (a, f), u) :: l), r, ((k, z) :: ks). split; [rewrite Hsplit; now constructor|]. split; [cbn [length]; lia|].
        split; [constructor; auto|]. cbn [map fst snd]. split; [constructor; auto|]. split; [|constructor; auto].
        intros k' [<-|Hi]; [auto|]. pose proof (G5 k' Hi) as E. destruct (Nat.eq_dec k k') as [->|N]; [tauto|].
        rewrite nth_error_upd_other in E by auto. exact E.
      * intros (l & r & ks & G1 & G2 & G3 & G4 & G5 & G6). rewrite Hsplit in G1.
        remember (sub s (a, f) ++ u :: sub s (S f, e) ++ skipn e s) as w eqn:Ew.
        destruct G1 as [w|v u' g s' l r Hv2 Hu2 Hg2 Hs2 G1]; [discriminate|].
        destruct (head_unique _ _ _ _ _ _ _ _ Hv2 Hu2 Hg2 Hs2 Hv' Hsep Hg' Hs' Ew) as (-> & -> & -> & ->).
        inversion G3 as [|vu [k z] l2 ks2 Ha G3' E1 E2]; subst. cbn [map fst snd] in *. inversion G4 as [|? ? Hk G4' E1]; subst. inversion G6 as [|? ? ? ? Hr G6']; subst.
        exists k, z. split; [exact Ha|]. assert (En : nth_error enc k = Some false) by (apply G5; now left). split; [auto|]. split; [auto|].
        apply IH; [now rewrite upd_length|]. exists l, r, ks2. split; [auto|]. cbn [length] in G2. split; [lia|]. split; [auto|]. split; [auto|]. split; [|auto].
        intros k' Hi. rewrite nth_error_upd_other by (intros ->; auto). apply G5. now right.
Qed.
End Loop.

Lemma amount_4 O D vu k z : amount O D vu k z -> k < 4.
Proof. intros (f & t & H & _). destruct H; lia. Qed.
Lemma parse_period_range_ok O D s rest p q : parse_period_range O D s rest p = Ok (true, q) <-> period_text O D s q.
Proof.
  unfold parse_period_range, period_text.
  destruct (split_n_firstn period_delimiter s 3 ltac:(discriminate) 4) as (toks & E1 & E2).
  destruct (split_tokens period_delimiter s 3) as (toks' & E1' & Ht). rewrite E1 in E1'. assert (toks' = toks) by congruence; subst toks'; clear E1'. rewrite E2. cbn [bind].
  destruct Ht as [[-> ->]|[Hs Hc]].
  - cbn [length Nat.min Nat.eqb]. split; [discriminate|]. intros (l & r & ks & H & Hl & _). exfalso.
    remember [] as w eqn:Ew. destruct H as [|v u g s l r]; [discriminate|]. now destruct v.
  - replace (0 =? Nat.min 4 (length toks)) with false.
    2:{ symmetry. apply Nat.eqb_neq. inversion Hc; subst; cbn [length Nat.min]; discriminate. }
    rewrite (loop_parts O D s rest 0 toks Hc 4) by reflexivity. cbn [skipn].
    split; intros (l & r & ks & G1 & G2 & G3 & G4 & G).
    + exists l, r, ks. tauto.
    + exists l, r, ks. repeat (split; [auto; fail|]). split; [|exact G].
      intros k Hk. apply in_map_iff in Hk. destruct Hk as ([k' z] & <- & Hi). cbn [fst].
      assert (k' < 4).
      { clear -G3 Hi. revert Hi. induction G3 as [|vu kz l ks Ha G3 IH]; [intros []|]. intros [->|Hi]; [exact (amount_4 _ _ _ _ _ Ha)|auto]. }
      do 4 (destruct k' as [|k']; [reflexivity|]). lia.
Qed.
Lemma parse_period_ok O D s p q : parse_period O D s p = Ok (true, q) <-> period_text O D s q.
Proof.
  unfold parse_period. destruct (Nat.eqb_spec (length s) 0) as [E|E]; [|apply parse_period_range_ok].
  destruct s; [|discriminate]. rewrite <- (parse_period_range_ok O D [] [zero] p q). cbn. split; discriminate.
Qed.

(* ---- order ---- *)
Lemma amount_unique O D vu k z k' z' : amount O D vu k z -> amount O D vu k' z' -> (k, z) = (k', z').
Proof.
  intros (f & t & H1 & H2 & H3 & H4) (f' & t' & G1 & G2 & G3 & G4).
  apply letter_b_iff in H1. apply letter_b_iff in G1. rewrite G1 in H1. injection H1 as -> ->.
  pose proof (H2 t) as H2'. rewrite G2 in H2'. injection H2' as ->. congruence.
Qed.
Lemma running_sum_value a zs q : running_sum a zs q -> q = (a + fold_right Z.add 0 zs)%Z.
Proof. induction 1 as [a|a z zs b H1 H2 IH]; cbn [fold_right]; lia. Qed.
Lemma sum_perm l l' : Permutation l l' -> fold_right Z.add 0%Z l = fold_right Z.add 0%Z l'.
Proof. induction 1; cbn [fold_right]; lia. Qed.
Lemma amounts_perm O D l l' : Permutation l l' -> forall ks ks',
  Forall2 (fun vu kz => amount O D vu (fst kz) (snd kz)) l ks -> Forall2 (fun vu kz => amount O D vu (fst kz) (snd kz)) l' ks' -> Permutation ks ks'.
Proof.
  assert (Huniq : forall l ks ks', Forall2 (fun vu (kz : nat * Z) => amount O D vu (fst kz) (snd kz)) l ks ->
     Forall2 (fun vu kz => amount O D vu (fst kz) (snd kz)) l ks' -> ks = ks').
  { clear. induction l as [|x l IH]; intros ks ks' H H'; inversion H as [|? [k z] ? ? A B]; inversion H' as [|? [k' z'] ? ? A' B']; subst; [auto|].
    cbn [fst snd] in *. rewrite (amount_unique _ _ _ _ _ _ _ A A'). f_equal. eauto. }
  intros P. induction P as [|x l l' P IH|x y l|l l' l2 P1 IH1 P2 IH2]; intros ks ks' H H'.
  - inversion H; inversion H'; subst. constructor.
  - inversion H as [|? [k z] ? ? A B]; inversion H' as [|? [k' z'] ? ? A' B']; subst. cbn [fst snd] in *.
    rewrite (amount_unique _ _ _ _ _ _ _ A A'). constructor. eauto.
  - inversion H as [|? kz1 ? ks1 A B]; subst. inversion B as [|? kz2 ? ks2 A2 B2]; subst.
    inversion H' as [|? kz1' ? ks1' A' B']; subst. inversion B' as [|? kz2' ? ks2' A2' B2']; subst.
    destruct kz1, kz2, kz1', kz2'. cbn [fst snd] in *.
    rewrite (amount_unique _ _ _ _ _ _ _ A A2'), (amount_unique _ _ _ _ _ _ _ A2 A'), (Huniq _ _ _ B2 B2'). constructor.
  - assert (exists ks2, Forall2 (fun vu (kz : nat * Z) => amount O D vu (fst kz) (snd kz)) l' ks2) as (ks2 & H2).
    { clear -P1 H. revert ks H. induction P1 as [|x l l' P IH|x y l|l l' l2 P1 IH1 P2 IH2]; intros ks H.
      - exists []. constructor.
      - inversion H as [|? kz ? ks0 A B]; subst. destruct (IH _ B) as (m & Hm). exists (kz :: m). constructor; auto.
      - inversion H as [|? kz ? ks0 A B]; subst. inversion B as [|? kz2 ? ks1 A2 B2]; subst. exists (kz2 :: kz :: ks1). constructor; auto.
      - destruct (IH1 _ H) as (m & Hm). exact (IH2 _ Hm). }
    exact (perm_trans (IH1 _ _ H H2) (IH2 _ _ H2 H')).
Qed.
Lemma period_order O D s s' l l' r r' q q' : parts s l r -> parts s' l' r' -> length l = 4 -> Permutation l l' ->
  period_text O D s q -> period_text O D s' q' -> q = q'.
Proof.
  intros H H' Hl P (l1 & r1 & ks & A1 & A2 & A3 & A4 & A5) (l2 & r2 & ks' & B1 & B2 & B3 & B4 & B5).
  destruct (parts_unique _ _ _ H _ _ A1 ltac:(lia)) as [<- <-].
  pose proof (Permutation_length P). destruct (parts_unique _ _ _ H' _ _ B1 ltac:(lia)) as [<- <-].
  pose proof (amounts_perm O D _ _ P _ _ A3 B3) as Pk. apply running_sum_value in A5, B5. subst.
  f_equal. apply sum_perm. now apply Permutation_map.
Qed.
