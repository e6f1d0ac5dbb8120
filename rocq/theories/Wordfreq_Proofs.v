From Verif Require Import Base Split_Model Split_Spec Split_Proofs Split_Proofs2 Split_Proofs3 Codec_Model Codec_Spec Codec_Proofs Codec_Proofs2 Gen_Model Ext_Model Ext_Proofs Parse_Model IO_Model IO_Spec IO_Proofs Stl_Model Wordfreq_Model Wordfreq_Spec.
From Coq Require Import Sorting.Sorted.
Local Open Scope nat_scope.

(* ---------- words ---------- *)
Lemma words_fun s ws : words s ws -> forall vs, words s vs -> ws = vs.
Proof.
  intros H. induction H as [|c s ws Hc H IH|w s ws Hn Hw Hs H IH]; intros vs V.
  - inversion V as [|c' s' vs' Q1 Q2|w' s' vs' Q1 Q2 Q3 Q4 E]; [reflexivity|]. exfalso. apply app_eq_nil in E. destruct E as [-> ->]. now apply Q1.
  - inversion V as [|c' s' vs' Q1 Q2|w' s' vs' Q1 Q2 Q3 Q4 E]; subst; [auto|]. destruct w' as [|x w']; [contradiction|].
    injection E as -> E. inversion Q2. congruence.
  - remember (w ++ s) as t eqn:E. destruct V as [|c' s' vs' Q1 Q2|w' s' vs' Q1 Q2 Q3 Q4].
    + destruct w; [contradiction|discriminate].
    + destruct w as [|x w]; [contradiction|]. injection E as -> E. inversion Hw. congruence.
    + assert (w' = w /\ s' = s) as [-> ->].
      { clear - E Hs Hw Q2 Q3. revert w' Q2 E. induction w as [|x w IH]; intros [|y w'] Q2 E; cbn [app] in E.
        - now subst.
        - inversion Q2 as [|? ? Hy _]; subst. rewrite (Hs y (w' ++ s') eq_refl) in Hy. discriminate.
        - inversion Hw as [|? ? Hx _]; subst. rewrite (Q3 x (w ++ s) eq_refl) in Hx. discriminate.
        - injection E as -> E. inversion Q2; inversion Hw; subst. destruct (IH ltac:(assumption) w') as [-> ->]; auto. }
      f_equal. now apply IH.
Qed.

Lemma words_app l s wl ws c : letter c = false -> words l wl -> words s ws -> words (l ++ c :: s) (wl ++ ws).
Proof.
  intros Hc H Hs. induction H as [|d l wl Hd H IH|w l wl Hn Hw Hl H IH]; cbn [app].
  - now constructor.
  - now constructor.
  - rewrite <- app_assoc. constructor; [exact Hn|exact Hw| |exact IH]. intros e r E.
    destruct l as [|x l]; cbn [app] in E; injection E as <- E; [exact Hc|]. now apply (Hl x l).
Qed.

Definition nonempty (r : nat * nat) : bool := negb (fst r =? snd r).

Lemma words_cuts s p : (forall c, p c = negb (letter c)) -> forall toks a,
  cuts p s (fun f e => f) (fun f e => e) a toks -> (a = 0 \/ a <= length s) ->
  words (skipn a s) (map (sub s) (filter nonempty toks)).
Proof.
  intros Hp.
  assert (AL : forall a b, a <= b -> b <= length s -> all_in s (fun x => negb (p x)) a b -> Forall (fun c => letter c = true) (sub s (a, b))).
  { intros a b H1 H2 H. eapply Forall_impl; [|apply (all_in_forall s (fun x => negb (p x)) a b); eauto]. intros x Hx. cbn beta in Hx. rewrite Hp in Hx. now destruct (letter x). }
  intros toks a H. induction H as [a Ha Hn|a f e toks Haf Hfe He Hn Hd Hx H IH]; intros _.
  - assert (E : sub s (a, length s) = skipn a s) by (unfold sub; cbn [fst snd]; rewrite firstn_all2; [reflexivity|rewrite skipn_length; lia]).
    specialize (AL a (length s) Ha (Nat.le_refl _) Hn). rewrite E in AL. cbn [filter]. unfold nonempty. cbn [fst snd].
    destruct (Nat.eqb_spec a (length s)) as [->|N]; cbn [negb map].
    + rewrite skipn_all. constructor.
    + rewrite E. rewrite <- (app_nil_r (skipn a s)) at 1. apply w_word; [|exact AL|discriminate|constructor].
      intros Z. apply (f_equal (@length _)) in Z. rewrite skipn_length in Z. cbn in Z. lia.
  - specialize (IH (or_intror He)).
    assert (E : skipn a s = sub s (a, f) ++ skipn f s).
    { unfold sub. cbn [fst snd]. rewrite <- (firstn_skipn (f - a) (skipn a s)) at 1. rewrite skipn_skipn. do 2 f_equal. lia. }
    assert (W : words (skipn f s) (map (sub s) (filter nonempty toks))).
    { clear E AL Hn Haf. assert (K : forall k, f + k = e -> words (skipn f s) (map (sub s) (filter nonempty toks))); [|apply (K (e - f)); lia].
      intros k. revert f Hfe Hd. induction k as [|k IHk]; intros f Hfe Hd Ek; [lia|].
      destruct (nth_error s f) as [c|] eqn:Ec; [|apply nth_error_None in Ec; lia].
      rewrite (skipn_nth_cons _ _ _ Ec). constructor.
      - assert (Pc : p c = true) by (apply (Hd f c); [lia|exact Ec]). rewrite Hp in Pc. now destruct (letter c).
      - destruct k as [|k]; [replace (S f) with e by lia; exact IH|]. apply IHk; [lia| |lia].
        intros i x Hi Ex. apply (Hd i x); [lia|exact Ex]. }
    cbn [filter]. unfold nonempty at 1. cbn [fst snd]. rewrite E.
    destruct (Nat.eqb_spec a f) as [->|N]; cbn [negb map].
    + rewrite sub_empty by lia. exact W.
    + apply w_word; [|apply AL; [lia|lia|exact Hn]| |exact W].
      * intros Z. apply (f_equal (@length _)) in Z. rewrite sub_length in Z; cbn in Z; lia.
      * intros c r Er. assert (Ec : nth_error s f = Some c).
        { rewrite <- (Nat.add_0_r f), <- nth_error_skipn, Er. reflexivity. }
        assert (Pc : p c = true) by (apply (Hd f c); [lia|exact Ec]). rewrite Hp in Pc. now destruct (letter c).
Qed.

(* ---------- the delimiters ---------- *)
Lemma delimiters_ok ty : ty = IntType 0 255 false \/ ty = IntType (-128) 127 false ->
  exists ds, delimiters ty = Ok ds /\ forall c, multiple_char_delimiter_predicate ds c = negb (letter c).
Proof.
  intros H. unfold delimiters. rewrite (all_chars_ok ty H). cbn [bind].
  eexists. split; [vm_compute; reflexivity|].
  intros c. unfold multiple_char_delimiter_predicate. 
  match goal with |- context [setup_delimiter_table ?l] => let t := eval vm_compute in (setup_delimiter_table l) in change (setup_delimiter_table l) with t end.
  destruct c as [[] [] [] [] [] [] [] []]; reflexivity.
Qed.

(* ---------- the map ---------- *)
Lemma string_less_before a : forall b, string_less a b = true <-> before a b.
Proof.
  induction a as [|x a IH]; intros [|y b]; cbn [string_less].
  - split; [discriminate|]. intros (p & [(y & r & E1 & E2)|(x & y & r & q & E1 & E2 & _)]); destruct p; discriminate.
  - split; [|reflexivity]. intros _. exists []. left. exists y, b. auto.
  - split; [discriminate|]. intros (p & [(y & r & E1 & E2)|(z & y & r & q & E1 & E2 & _)]); destruct p; discriminate.
  - destruct (N.ltb_spec (N_of_ascii x) (N_of_ascii y)) as [L|L].
    + split; [|reflexivity]. intros _. exists []. right. exists x, y, a, b. auto.
    + destruct (N.ltb_spec (N_of_ascii y) (N_of_ascii x)) as [L'|L'].
      * split; [discriminate|]. intros (p & [(z & r & E1 & E2)|(z & w & r & q & E1 & E2 & E3)]).
        { subst p. injection E2 as -> _. lia. }
        destruct p as [|c p]; injection E1 as -> ->; injection E2 as -> ->; lia.
      * assert (x = y) as -> by (rewrite <- (ascii_N_embedding x), <- (ascii_N_embedding y); f_equal; lia).
        rewrite IH. split.
        -- intros (p & [(z & r & E1 & E2)|(z & w & r & q & E1 & E2 & E3)]); exists (y :: p).
           ++ left. exists z, r. subst. auto.
           ++ right. exists z, w, r, q. subst. auto.
        -- intros (p & [(z & r & E1 & E2)|(z & w & r & q & E1 & E2 & E3)]).
           ++ subst p. injection E2 as E2. exists a. left. exists z, r. auto.
           ++ destruct p as [|c p]; injection E1 as E1 E1'; injection E2 as E2 E2'.
              ** subst. lia.
              ** exists p. right. exists z, w, r, q. auto.
Qed.
Lemma string_less_total a : forall b, string_less a b = false -> string_less b a = false -> a = b.
Proof.
  induction a as [|x a IH]; intros [|y b]; cbn [string_less]; try discriminate; [reflexivity|].
  destruct (N.ltb_spec (N_of_ascii x) (N_of_ascii y)) as [L|L]; [discriminate|].
  destruct (N.ltb_spec (N_of_ascii y) (N_of_ascii x)) as [L'|L']; [discriminate|]. intros H1 H2.
  rewrite (IH b H1 H2). f_equal. rewrite <- (ascii_N_embedding x), <- (ascii_N_embedding y). f_equal. lia.
Qed.
Lemma before_irrefl a : ~ before a a.
Proof.
  intros H. apply string_less_before in H. induction a as [|x a IH]; cbn [string_less] in H; [discriminate|].
  rewrite N.ltb_irrefl in H. auto.
Qed.
Lemma before_trans a : forall b c, before a b -> before b c -> before a c.
Proof.
  intros b c. rewrite <- !string_less_before. revert b c.
  induction a as [|x a IH]; intros [|y b] [|z c]; cbn [string_less]; try discriminate; try reflexivity.
  destruct (N.ltb_spec (N_of_ascii x) (N_of_ascii y)), (N.ltb_spec (N_of_ascii y) (N_of_ascii x)),
    (N.ltb_spec (N_of_ascii y) (N_of_ascii z)), (N.ltb_spec (N_of_ascii z) (N_of_ascii y)),
    (N.ltb_spec (N_of_ascii x) (N_of_ascii z)), (N.ltb_spec (N_of_ascii z) (N_of_ascii x)); try discriminate; try reflexivity; try lia. apply IH.
Qed.

Definition key_order (a b : list ascii * N) := before (fst a) (fst b).

Lemma increment_in m k : StronglySorted key_order m -> forall x v, In (x, v) (increment m k) <->
  x <> k /\ In (x, v) m \/ x = k /\ ((exists u, In (k, u) m /\ v = ((u + 1) mod 2 ^ 32)%N) \/ (~ (exists u, In (k, u) m) /\ v = 1%N)).
Proof.
  induction m as [|(k', w) m IH]; intros S x v; cbn [increment].
  - cbn [In]. split.
    + intros [E|[]]. injection E as <- <-. right. split; [reflexivity|]. right. split; [intros (u & [])|reflexivity].
    + intros [(_ & [])|(-> & [(u & [] & _)|(_ & ->)])]. now left.
  - inversion S as [|? ? S' F]; subst. rewrite Forall_forall in F.
    assert (F' : forall y u, In (y, u) m -> before k' y) by (intros y u Hy; exact (F _ Hy)).
    destruct (string_less k k') eqn:L; [|destruct (string_less k' k) eqn:L'].
    + apply string_less_before in L.
      assert (N : ~ exists u, In (k, u) ((k', w) :: m)).
      { intros (u & [E|E]); [injection E as -> _; now apply (before_irrefl k)|].
        apply (before_irrefl k). eapply before_trans; [exact L|]. now apply (F' k u). }
      split.
      * intros [E|E]; [injection E as <- <-; right; auto|]. left. split; [|exact E]. intros ->. apply N. now exists v.
      * intros [(_ & E)|(-> & [(u & E & _)|(_ & ->)])]; [right; exact E| |now left]. exfalso. apply N. now exists u.
    + apply string_less_before in L'. cbn [In]. rewrite (IH S' x v).
      assert (NE : k' <> k) by (intros ->; now apply (before_irrefl k)).
      split.
      * intros [E|[(Nx & E)|(-> & [(u & E & ->)|(E & ->)])]].
        -- injection E as <- <-. left. auto.
        -- left. auto.
        -- right. split; [reflexivity|]. left. exists u. auto.
        -- right. split; [reflexivity|]. right. split; [|reflexivity]. intros (u & [E'|E']); [congruence|]. apply E. now exists u.
      * intros [(Nx & [E|E])|(-> & [(u & [E|E] & ->)|(E & ->)])].
        -- now left.
        -- right. left. auto.
        -- congruence.
        -- right. right. split; [reflexivity|]. left. exists u. auto.
        -- right. right. split; [reflexivity|]. right. split; [|reflexivity]. intros (u & E'). apply E. exists u. now right.
    + assert (k = k') as <- by now apply string_less_total. cbn [In].
      assert (N : ~ exists u, In (k, u) m) by (intros (u & E); apply (before_irrefl k); now apply (F' k u)).
      split.
      * intros [E|E].
        -- injection E as <- <-. right. split; [reflexivity|]. left. exists w. auto.
        -- left. split; [intros ->; apply N; now exists v|auto].
      * intros [(Nx & [E|E])|(-> & [(u & [E|E] & ->)|(E & ->)])].
        -- congruence.
        -- now right.
        -- left. congruence.
        -- exfalso. apply N. now exists u.
        -- exfalso. apply E. exists w. now left.
Qed.

Lemma increment_sorted m k : StronglySorted key_order m -> StronglySorted key_order (increment m k).
Proof.
  induction m as [|(k', w) m IH]; intros S; cbn [increment].
  - repeat constructor.
  - inversion S as [|? ? S' F]; subst.
    destruct (string_less k k') eqn:L; [|destruct (string_less k' k) eqn:L'].
    + apply string_less_before in L. constructor; [exact S|]. constructor; [exact L|].
      eapply Forall_impl; [|exact F]. intros (y & u) H. unfold key_order in *. cbn [fst] in *. eapply before_trans; eauto.
    + apply string_less_before in L'. constructor; [now apply IH|]. apply Forall_forall. intros (y & u) Hy.
      apply increment_in in Hy; [|exact S']. unfold key_order. cbn [fst].
      destruct Hy as [(_ & Hy)|(-> & _)]; [|exact L']. rewrite Forall_forall in F. exact (F _ Hy).
    + constructor; [exact S'|]. eapply Forall_impl; [|exact F]. intros (y & u) H. exact H.
Qed.

Lemma times_snoc k ws w : times k (ws ++ [w]) = times k ws + (if list_eq_dec ascii_dec w k then 1 else 0).
Proof. unfold times. rewrite count_occ_app. cbn [count_occ]. destruct (list_eq_dec ascii_dec w k); reflexivity. Qed.

Lemma frequencies_snoc ws m w : frequencies ws m -> frequencies (ws ++ [w]) (increment m w).
Proof.
  intros (S & H). split; [now apply increment_sorted|]. intros k v. rewrite (increment_in m w S k v), times_snoc, in_app_iff. cbn [In].
  destruct (list_eq_dec ascii_dec w k) as [<-|N].
  - split.
    + intros [(E & _)|(_ & [(u & Hu & ->)|(Hn & ->)])]; [now contradiction E| |].
      * apply H in Hu. destruct Hu as (_ & ->). split; [auto|]. rewrite N.add_mod_idemp_l by lia. f_equal. lia.
      * split; [auto|]. assert (times w ws = 0) as ->; [|reflexivity].
        apply count_occ_not_In. intros Hi. apply Hn. eexists. apply H. split; [exact Hi|reflexivity].
    + intros (_ & ->). right. split; [reflexivity|]. destruct (in_dec (list_eq_dec ascii_dec) w ws) as [Hi|Hi].
      * left. exists (N.of_nat (times w ws) mod 2 ^ 32)%N. split; [apply H; auto|]. rewrite N.add_mod_idemp_l by lia. f_equal. lia.
      * right. split; [intros (u & Hu); apply H in Hu; tauto|]. assert (times w ws = 0) as -> by now apply count_occ_not_In. reflexivity.
  - rewrite Nat.add_0_r, H. split.
    + intros [(_ & Hi & ->)|(E & _)]; [auto|]. congruence.
    + intros ([Hi|[E|[]]] & ->); [|congruence]. left. auto.
Qed.

(* ---------- lines ---------- *)
Definition counted (ws : list (list ascii)) (st : counters) : Prop :=
  fst st = (N.of_nat (length ws) mod 2 ^ 64)%N /\ frequencies ws (snd st).

Lemma count_words_ok s : forall toks ws st, counted ws st -> exists st', count_words s st toks = Ok st' /\
  counted (ws ++ map (map lower) (map (sub s) (filter nonempty toks))) st'.
Proof.
  induction toks as [|r toks IH]; intros ws [n m] H; cbn [count_words count_word filter].
  - exists (n, m). cbn [map]. rewrite app_nil_r. auto.
  - unfold nonempty at 1. destruct (fst r =? snd r); cbn [bind negb].
    + now apply IH.
    + rewrite lower_ok. cbn [bind map]. destruct H as (Hn & Hm). cbn [fst snd] in *. 
      destruct (IH (ws ++ [map lower (sub s r)]) (((n + 1) mod 2 ^ 64)%N, increment m (map lower (sub s r)))) as (st' & E & H').
      { split; cbn [fst snd]; [|now apply frequencies_snoc]. subst n. rewrite N.add_mod_idemp_l by lia. rewrite app_length. cbn [length]. f_equal. lia. }
      exists st'. split; [exact E|]. rewrite <- app_assoc in H'. exact H'.
Qed.

Lemma parse_line_ok p : (forall c, p c = negb (letter c)) -> forall s ws vs st, words s vs -> counted ws st ->
  exists st', parse_line p st s = Ok st' /\ counted (ws ++ map (map lower) vs) st'.
Proof.
  intros Hp s ws vs st W H. unfold parse_line. destruct (Nat.eqb_spec (length s) 0) as [E|E].
  - destruct s; [|discriminate]. rewrite <- (words_fun [] [] w_end vs W). cbn [map]. rewrite app_nil_r. eauto.
  - destruct (split_tokens p s 1) as (toks & Es & Ht). rewrite Es. cbn [bind].
    assert (Hs : s <> []) by (intros ->; now apply E). destruct Ht as [(Z & _)|(_ & Hc)]; [contradiction|].
    assert (Hc' : cuts p s (fun f e => f) (fun f e => e) 0 toks) by exact Hc.
    apply (words_cuts s p Hp) in Hc'; [|auto]. cbn [skipn] in Hc'. rewrite (words_fun _ _ W _ Hc'). now apply count_words_ok.
Qed.

Lemma parse_lines_ok p : (forall c, p c = negb (letter c)) -> forall s ls, lines_of s ls -> forall ws st, counted ws st ->
  exists vs st', words s vs /\
    fold_left (fun x l => x <- x ;; parse_line p x l) ls (Ok st) = Ok st' /\ counted (ws ++ map (map lower) vs) st'.
Proof.
  intros Hp. assert (WE : forall s, exists vs, words s vs).
  { assert (K : forall n s, length s <= n -> exists vs, words s vs); [|intros s; now apply (K (length s))].
    intros n. induction n as [|n IH]; intros s Hs; [destruct s; [eexists; constructor|cbn in Hs; lia]|].
    destruct s as [|c s]; [eexists; constructor|]. destruct (split_tokens p (c :: s) 1) as (toks & _ & Ht).
    destruct Ht as [(Z & _)|(_ & Hc)]; [discriminate|].
    assert (Hc' : cuts p (c :: s) (fun f e => f) (fun f e => e) 0 toks) by exact Hc.
    apply (words_cuts _ p Hp) in Hc'; [|auto]. eauto. }
  intros s ls H. induction H as [|l Hn Hl|l s ls Hl H IH]; intros ws st Hst; cbn [fold_left].
  - exists [], st. split; [constructor|]. cbn [map]. rewrite app_nil_r. auto.
  - destruct (WE l) as (vs & W). destruct (parse_line_ok p Hp l ws vs st W Hst) as (st' & E & H'). exists vs, st'. cbn [bind]. auto.
  - destruct (WE l) as (vs & W). destruct (parse_line_ok p Hp l ws vs st W Hst) as (st1 & E & H1). cbn [bind]. rewrite E.
    destruct (IH _ _ H1) as (us & st' & W' & E' & H'). exists (vs ++ us), st'. split; [apply words_app; [reflexivity|assumption|assumption]|].
    split; [exact E'|]. rewrite map_app, app_assoc. exact H'.
Qed.

Lemma counted_nil : counted [] (0%N, []).
Proof. split; [reflexivity|]. split; [constructor|]. intros k v. cbn [In snd]. tauto. Qed.
