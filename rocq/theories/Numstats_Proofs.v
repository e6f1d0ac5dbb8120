(* Proofs about the number statistics. *)
From Verif Require Import Base Split_Spec Split_Proofs Parse_Spec Parse_Model Parse_Proofs Parse_Proofs2 IO_Model IO_Spec IO_Proofs Stl_Model Scan_Model Scan_Spec Grid_Model Grid_Spec Grid_Rep Grid_Proofs Grid_Proofs2.
From Verif Require Import Real_Model Real_Spec Numstats_Model Numstats_Spec.
From Verif Require Grid_Props.
From Coq Require Import ZArith Floats.SpecFloat Permutation Sorting.Sorted.
Local Open Scope nat_scope.

(* ---------- the order of the doubles ---------- *)
Definition key (x : spec_float) : Z * Z * Z :=
  match x with
  | S754_nan => (0, 0, 0)
  | S754_zero _ => (0, 0, 0)
  | S754_infinity true => (-2, 0, 0)
  | S754_infinity false => (2, 0, 0)
  | S754_finite true m e => (-1, - e, - Zpos m)
  | S754_finite false m e => (1, e, Zpos m)
  end%Z.
Definition below (a b : Z * Z * Z) : Prop :=
  let '(a1, a2, a3) := a in let '(b1, b2, b3) := b in
  (a1 < b1 \/ a1 = b1 /\ (a2 < b2 \/ a2 = b2 /\ a3 < b3))%Z.

Lemma ltb_key x y : is_nan x = false -> is_nan y = false -> (SFltb x y = true <-> below (key x) (key y)).
Proof.
  intros Hx Hy. unfold SFltb.
  destruct x as [sx|[]| |[] mx ex], y as [sy|[]| |[] my ey]; try discriminate; cbn [SFcompare key below];
    try (split; [intros E; try discriminate E; lia|intros E; try reflexivity; exfalso; lia]);
    change (Pos.compare_cont Eq) with Pos.compare;
    destruct (Z.compare_spec ex ey) as [->|?|?]; try (split; [intros E; try discriminate E; lia|intros E; try reflexivity; exfalso; lia]);
    destruct (Pos.compare_spec mx my) as [->|?|?]; cbn [CompOpp]; (split; [intros E; try discriminate E; lia|intros E; try reflexivity; exfalso; lia]).
Qed.
Lemma below_trans a b c : below a b -> below b c -> below a c.
Proof. destruct a as [[? ?] ?], b as [[? ?] ?], c as [[? ?] ?]. cbn. lia. Qed.
Lemma below_split a b c : below a c -> below a b \/ below b c.
Proof. destruct a as [[? ?] ?], b as [[? ?] ?], c as [[? ?] ?]. cbn. lia. Qed.
Lemma below_irrefl a : ~ below a a.
Proof. destruct a as [[? ?] ?]. cbn. lia. Qed.

Lemma nan_ltb x y : SFltb x y = true -> is_nan x = false /\ is_nan y = false.
Proof. unfold SFltb. destruct x, y; cbn; try discriminate; auto. Qed.
Lemma ltb_irrefl x : SFltb x x = false.
Proof.
  destruct (SFltb x x) eqn:E; [|reflexivity]. destruct (nan_ltb _ _ E) as [H _]. apply (ltb_key x x H H) in E. now apply below_irrefl in E.
Qed.
Lemma ltb_trans x y z : SFltb x y = true -> SFltb y z = true -> SFltb x z = true.
Proof.
  intros H1 H2. destruct (nan_ltb _ _ H1) as [Hx Hy]. destruct (nan_ltb _ _ H2) as [_ Hz].
  apply ltb_key; auto. apply ltb_key in H1; auto. apply ltb_key in H2; auto. eapply below_trans; eauto.
Qed.
Lemma ltb_split x y z : is_nan y = false -> SFltb x z = true -> SFltb x y = true \/ SFltb y z = true.
Proof.
  intros Hy H. destruct (nan_ltb _ _ H) as [Hx Hz]. apply ltb_key in H; auto.
  destruct (below_split _ (key y) _ H) as [B|B]; [left|right]; apply ltb_key; auto.
Qed.

(* ---------- least and greatest ---------- *)
Lemma min_max_partial (s : list spec_float) : s <> [] ->
  exists mn mx, min_max_of_range SFltb s = Ok (mn, mx) /\ smallest SFltb s mn /\ largest SFltb s mx.
Proof.
  intros Hs.
  assert (H : holds (min_max_of_range SFltb s) (fun '(mn, mx) => smallest SFltb s mn /\ largest SFltb s mx)).
  { unfold min_max_of_range. destruct s as [|x t]; [congruence|]. set (s := x :: t).
    change (rd s 0) with (Ok x). cbn [bind].
    apply loop_rule with
      (I := fun '(itr, mn, mx) => itr < length s /\ smallest SFltb (firstn (S itr) s) mn /\ largest SFltb (firstn (S itr) s) mx)
      (mu := fun '(itr, _, _) => length s - itr).
    - intros [[itr mn] mx] (Hi & (A1 & A2) & (B1 & B2)). cbv zeta. destruct (Nat.eqb_spec (S itr) (length s)) as [E|Hne].
      + cbn [holds]. rewrite E, firstn_all in *. unfold smallest, largest. auto.
      + destruct (rd_ok s (S itr) ltac:(lia)) as (y & E & N). rewrite E. cbn [bind].
        pose proof (firstn_S_nth _ _ _ N) as F.
        destruct (SFltb y mn) eqn:E1; [|destruct (SFltb mx y) eqn:E2]; cbn [holds]; unfold smallest, largest; rewrite F;
          (split; [split; [lia|]|lia]); (split; split; [rewrite in_app_iff; cbn; auto| |rewrite in_app_iff; cbn; auto|]);
          intros z Hz; apply in_app_iff in Hz; cbn [In] in Hz; destruct Hz as [Hz|[<-|[]]]; auto using ltb_irrefl.
        * destruct (SFltb z y) eqn:E3; [|reflexivity]. rewrite <- (A2 z Hz). symmetry. now apply ltb_trans with y.
        * destruct (SFltb mx y) eqn:E3; [|reflexivity]. rewrite <- (A2 mx B1). symmetry. now apply ltb_trans with y.
        * destruct (SFltb y z) eqn:E3; [|reflexivity]. rewrite <- (B2 z Hz). symmetry. now apply ltb_trans with y.
    - split; [cbn; lia|]. cbn [firstn]. unfold smallest, largest. split; (split; [now left|intros z [<-|[]]; apply ltb_irrefl]).
    - lia. }
  apply holds_ex in H. destruct H as ([mn mx] & E & H1 & H2). eauto.
Qed.

(* ---------- sorting ---------- *)
Definition not_above (a b : spec_float) : Prop := SFltb b a = false.
Lemma insert_perm x l : Permutation (x :: l) (insert_value x l).
Proof.
  induction l as [|y l IH]; cbn [insert_value]; [reflexivity|]. destruct (SFltb y x); [|reflexivity].
  rewrite perm_swap. now constructor.
Qed.
Lemma sort_perm l : Permutation l (sort_values l).
Proof. induction l as [|x l IH]; cbn [sort_values]; [constructor|]. rewrite <- insert_perm. now constructor. Qed.
Lemma insert_sorted x l : is_nan x = false -> Forall (fun y => is_nan y = false) l -> StronglySorted not_above l -> StronglySorted not_above (insert_value x l).
Proof.
  intros Hx Hl H. induction H as [|y l H IH F]; cbn [insert_value]; [repeat constructor|].
  assert (Hy := Forall_inv Hl). specialize (IH (Forall_inv_tail Hl)). cbn beta in Hy. destruct (SFltb y x) eqn:E.
  - constructor; [exact IH|]. apply Forall_forall. intros z Hz. apply (Permutation_in z (Permutation_sym (insert_perm x l))) in Hz.
    destruct Hz as [<-|Hz]; [|now apply (proj1 (Forall_forall _ _) F)].
    unfold not_above. destruct (SFltb x y) eqn:E2; [|reflexivity]. rewrite <- (ltb_irrefl y). symmetry. now apply ltb_trans with x.
  - constructor; [now constructor|]. constructor; [exact E|]. apply Forall_forall. intros z Hz. apply (proj1 (Forall_forall _ _) F) in Hz.
    unfold not_above in *. destruct (SFltb z x) eqn:E2; [|reflexivity]. destruct (ltb_split z y x Hy E2); congruence.
Qed.
Lemma sort_sorted l : Forall (fun y => is_nan y = false) l -> StronglySorted not_above (sort_values l).
Proof.
  induction 1 as [|x l Hx H IH]; cbn [sort_values]; [constructor|]. apply insert_sorted; auto.
  apply Forall_forall. intros y Hy. apply (Permutation_in y (Permutation_sym (sort_perm l))) in Hy. now apply (proj1 (Forall_forall _ _) H).
Qed.

Lemma filter_perm {A} (p : A -> bool) l l' : Permutation l l' -> length (filter p l) = length (filter p l').
Proof.
  induction 1 as [|x l l' _ IH|x y l|l l' l'' _ IH1 _ IH2]; cbn [filter]; [reflexivity| | |congruence].
  - destruct (p x); cbn; congruence.
  - destruct (p x), (p y); reflexivity.
Qed.
Lemma filter_le {A} (p : A -> bool) l : length (filter p l) <= length l.
Proof. induction l as [|x l IH]; cbn; [lia|]. destruct (p x); cbn; lia. Qed.
Lemma filter_none {A} (p : A -> bool) l : (forall x, In x l -> p x = false) -> filter p l = [].
Proof. induction l as [|x l IH]; cbn; intros H; [reflexivity|]. rewrite (H x) by now left. apply IH. intros y Hy. apply H. now right. Qed.

Lemma nth_sorted l k m : StronglySorted not_above l -> nth_error l k = Some m ->
  length (filter (fun y => SFltb y m) l) <= k /\ length (filter (SFltb m) l) <= length l - S k.
Proof.
  intros H E. destruct (nth_error_split l k E) as (l1 & l2 & -> & <-).
  assert (S1 : forall z, In z l1 -> SFltb m z = false).
  { clear E. induction l1 as [|y l1 IH]; cbn [app] in H; [intros z []|]. inversion H as [|? ? H1 H2]; subst.
    intros z [<-|Hz]; [|now apply IH]. apply (proj1 (Forall_forall _ _) H2). apply in_app_iff. right. now left. }
  assert (S2 : forall z, In z l2 -> SFltb z m = false).
  { clear E S1. induction l1 as [|y l1 IH]; cbn [app] in H; inversion H as [|? ? H1 H2]; subst; [|now apply IH].
    intros z Hz. now apply (proj1 (Forall_forall _ _) H2). }
  rewrite !filter_app, !app_length. cbn [filter]. rewrite !ltb_irrefl. rewrite (filter_none (fun y => SFltb y m) l2), (filter_none (SFltb m) l1) by auto.
  pose proof (filter_le (fun y => SFltb y m) l1). pose proof (filter_le (SFltb m) l2). cbn [length]. lia.
Qed.

Lemma no_nans l : Forall (fun y => is_nan y = false) l -> existsb is_nan l = false.
Proof. induction 1 as [|x l Hx _ IH]; cbn [existsb]; [reflexivity|]. now rewrite Hx. Qed.

Lemma nth_element_ok l : l <> [] -> Forall (fun y => is_nan y = false) l ->
  exists m, nth_element l (length l / 2) = Ok m /\ median SFltb l m.
Proof.
  intros Hl Hn. unfold nth_element. rewrite no_nans by auto. cbn [andb]. assert (P := sort_perm l). assert (L := Permutation_length P).
  assert (D : 2 * (length l / 2) <= length l < 2 * (length l / 2) + 2).
  { pose proof (Nat.div_mod (length l) 2 ltac:(lia)). pose proof (Nat.mod_upper_bound (length l) 2 ltac:(lia)). lia. }
  assert (0 < length l) by (destruct l; [congruence|cbn; lia]).
  destruct (rd_ok (sort_values l) (length l / 2) ltac:(lia)) as (m & E & N). exists m. split; [exact E|].
  destruct (nth_sorted _ _ _ (sort_sorted l Hn) N) as [H1 H2]. rewrite <- L in H2. rewrite <- !(filter_perm _ _ _ P) in *.
  split; [apply (Permutation_in m (Permutation_sym P)); eapply nth_error_In; eauto|]. lia.
Qed.

(* ---------- pieces ---------- *)
Lemma pieces_skip d c s : is_delim d c = true -> pieces d (c :: s) = pieces d s.
Proof. intros H. cbn [pieces]. now rewrite H. Qed.
Lemma pieces_run d w s : w <> [] -> Forall (fun c => is_delim d c = false) w -> (forall c r, s = c :: r -> is_delim d c = true) ->
  pieces d (w ++ s) = w :: pieces d s.
Proof.
  intros Hw H Hs. induction H as [|c w Hc H IH]; [congruence|]. cbn [app pieces]. rewrite Hc. cbv zeta.
  destruct w as [|c' w]; cbn [app] in *.
  - destruct s as [|x s]; [reflexivity|]. now rewrite (Hs x s eq_refl).
  - rewrite (Forall_inv H). rewrite IH by discriminate. reflexivity.
Qed.
Lemma pieces_head d y l : is_delim d y = false -> exists w ws, pieces d (y :: l) = w :: ws.
Proof.
  intros H. cbn [pieces]. rewrite H. cbv zeta. destruct l as [|c l]; [eauto|]. destruct (is_delim d c); [eauto|].
  destruct (pieces d (c :: l)); eauto.
Qed.
Lemma pieces_app d l c s : is_delim d c = true -> pieces d (l ++ c :: s) = pieces d l ++ pieces d s.
Proof.
  intros Hc. induction l as [|x l IH]; cbn [app]; [now apply pieces_skip|].
  destruct (is_delim d x) eqn:Ex; [now rewrite !pieces_skip by auto|].
  assert (U : forall l, pieces d (x :: l) = match l with [] => [[x]] | c' :: _ => if is_delim d c' then [x] :: pieces d l else match pieces d l with [] => [[x]] | w :: ws => (x :: w) :: ws end end).
  { intros k. cbn [pieces]. now rewrite Ex. }
  rewrite !U, IH. destruct l as [|y l]; cbn [app]; [now rewrite Hc|]. destruct (is_delim d y) eqn:Ey; [reflexivity|].
  destruct (pieces_head d y l Ey) as (w & ws & ->). reflexivity.
Qed.

Definition holding (r : nat * nat) : bool := negb (fst r =? snd r).
Lemma pieces_cuts d s : forall toks a,
  cuts (is_delim d) s (fun f e => f) (fun f e => e) a toks ->
  pieces d (skipn a s) = map (sub s) (filter holding toks).
Proof.
  assert (AL : forall a b, a <= b -> b <= length s -> all_in s (fun x => negb (is_delim d x)) a b -> Forall (fun c => is_delim d c = false) (sub s (a, b))).
  { intros a b H1 H2 H. eapply Forall_impl; [|apply (all_in_forall s (fun x => negb (is_delim d x)) a b); eauto]. intros x Hx. cbn beta in Hx. now destruct (is_delim d x). }
  intros toks a H. induction H as [a Ha Hn|a f e toks Haf Hfe He Hn Hd Hx H IH].
  - assert (E : sub s (a, length s) = skipn a s) by (unfold sub; cbn [fst snd]; rewrite firstn_all2; [reflexivity|rewrite skipn_length; lia]).
    specialize (AL a (length s) Ha (Nat.le_refl _) Hn). rewrite E in AL. cbn [filter]. unfold holding. cbn [fst snd].
    destruct (Nat.eqb_spec a (length s)) as [->|N]; cbn [negb map].
    + now rewrite skipn_all.
    + rewrite E. rewrite <- (app_nil_r (skipn a s)) at 1. apply pieces_run; [|exact AL|discriminate].
      intros Z. apply (f_equal (@length _)) in Z. rewrite skipn_length in Z. cbn in Z. lia.
  - assert (E : skipn a s = sub s (a, f) ++ skipn f s).
    { unfold sub. cbn [fst snd]. rewrite <- (firstn_skipn (f - a) (skipn a s)) at 1. rewrite skipn_skipn. do 2 f_equal. lia. }
    assert (W : pieces d (skipn f s) = map (sub s) (filter holding toks)).
    { clear E AL Hn Haf. assert (K : forall k, f + k = e -> pieces d (skipn f s) = map (sub s) (filter holding toks)); [|apply (K (e - f)); lia].
      intros k. revert f Hfe Hd. induction k as [|k IHk]; intros f Hfe Hd Ek; [lia|].
      destruct (nth_error s f) as [c|] eqn:Ec; [|apply nth_error_None in Ec; lia].
      rewrite (skipn_nth_cons _ _ _ Ec). rewrite pieces_skip by (apply (Hd f c); [lia|exact Ec]).
      destruct k as [|k]; [replace (S f) with e by lia; exact IH|]. apply IHk; [lia| |lia].
      intros i x Hi Ex. apply (Hd i x); [lia|exact Ex]. }
    cbn [filter]. unfold holding at 1. cbn [fst snd]. rewrite E.
    destruct (Nat.eqb_spec a f) as [->|N]; cbn [negb map].
    + unfold sub. cbn [fst snd]. rewrite Nat.sub_diag. cbn [firstn app]. exact W.
    + rewrite <- W. apply pieces_run.
      * intros Z. apply (f_equal (@length _)) in Z. rewrite sub_length in Z by lia. cbn in Z. lia.
      * apply AL; [lia|lia|exact Hn].
      * intros c r Ec. destruct (nth_error s f) as [x|] eqn:Ex; [|apply nth_error_None in Ex; lia].
        rewrite (skipn_nth_cons _ _ _ Ex) in Ec. injection Ec as <- _. apply (Hd f x); [lia|exact Ex].
Qed.
Lemma cuts_within (p : ascii -> bool) s : forall toks a, cuts p s (fun f e => f) (fun f e => e) a toks ->
  Forall (fun t => fst t <= snd t /\ snd t <= length s) toks.
Proof. intros toks a H. induction H as [a Ha Hn|a f e toks Haf Hfe He Hn Hd Hx H IH]; constructor; cbn; auto; lia. Qed.
Lemma filter_texts s (toks : list (nat * nat)) : Forall (fun t => fst t <= snd t /\ snd t <= length s) toks ->
  filter nonempty (map (sub s) toks) = map (sub s : nat * nat -> list ascii) (filter holding toks).
Proof.
  induction 1 as [|[a b] toks [H1 H2] _ IH]; cbn [map filter]; [reflexivity|]. rewrite IH. cbn [fst snd] in *.
  assert (L := sub_length s a b H1 H2). assert (Hh : holding (a, b) = negb (a =? b)) by reflexivity. rewrite Hh.
  destruct (Nat.eqb_spec a b) as [->|N]; destruct (sub s _) eqn:E; cbn in L; cbn [nonempty negb map]; try lia; [reflexivity|].
  rewrite E. reflexivity.
Qed.
Lemma pieces_tokens d s toks : tokens_of (is_delim d) s (fun f e => f) (fun f e => e) toks ->
  filter nonempty (map (sub s) toks) = pieces d s.
Proof.
  intros [[-> ->]|[_ H]]; [reflexivity|]. rewrite (filter_texts s toks) by (eapply cuts_within; eauto).
  symmetry. exact (pieces_cuts d s toks 0 H).
Qed.

(* how many there are *)
Lemma cuts_count (p : ascii -> bool) s : forall toks a, cuts p s (fun f e => f) (fun f e => e) a toks -> length toks + a <= length s + 1.
Proof. intros toks a H. induction H as [a Ha Hn|a f e toks Haf Hfe He Hn Hd Hx H IH]; cbn [length]; lia. Qed.
Lemma cuts_room (p : ascii -> bool) s : forall toks a, cuts p s (fun f e => f) (fun f e => e) a toks ->
  list_sum (map (fun t => S (length (sub s t))) toks) + a <= length s + 1.
Proof.
  intros toks a H. induction H as [a Ha Hn|a f e toks Haf Hfe He Hn Hd Hx H IH]; cbn [map list_sum fold_right];
    rewrite sub_length by lia; [lia|]. unfold list_sum in IH. lia.
Qed.
Lemma sum_filter {A} (f : A -> nat) p l : list_sum (map f (filter p l)) <= list_sum (map f l).
Proof. induction l as [|x l IH]; cbn; [lia|]. destruct (p x); cbn; unfold list_sum in IH; lia. Qed.

Lemma cells_pieces rdl cdl buf cells : cells_of rdl cdl 1 buf cells ->
  map (filter nonempty) cells = map (pieces cdl) (pieces rdl buf) /\ length (concat cells) <= length buf + 1.
Proof.
  intros (lines & (toks & Ht & ->) & F). rewrite (pieces_tokens _ _ _ Ht) in F.
  assert (B : list_sum (map (fun l => S (length l)) (pieces rdl buf)) <= length buf + 1).
  { rewrite <- (pieces_tokens _ _ _ Ht). etransitivity; [apply sum_filter|]. rewrite map_map. destruct Ht as [[-> ->]|[_ H]]; [cbn; lia|].
    apply (cuts_room _ _ _ _) in H. lia. }
  split.
  - clear B. induction F as [|l texts ls cs H F IH]; cbn [map]; [reflexivity|]. rewrite IH. f_equal. destruct H as (ts & H & ->). now apply pieces_tokens.
  - etransitivity; [|exact B]. clear B. induction F as [|l texts ls cs H F IH]; cbn [concat map list_sum fold_right]; [cbn; lia|].
    rewrite app_length. assert (length texts <= S (length l)); [|unfold list_sum in IH; lia].
    destruct H as (ts & [[-> ->]|[_ H]] & ->); [cbn; lia|]. rewrite map_length. apply (cuts_count _ _ _ _) in H. lia.
Qed.

Definition breaks : list ascii := [newline; ascii_of_nat 13].
Lemma pieces_lines text ls : lines_of text ls -> pieces breaks (separated [newline] ls) = pieces breaks text.
Proof.
  induction 1 as [|l Hl Hn|l s ls Hn H IH]; [reflexivity|reflexivity|].
  rewrite pieces_app, <- IH by reflexivity. destruct ls as [|l' ls].
  - cbn [separated pieces]. now rewrite app_nil_r.
  - change (separated [newline] (l :: l' :: ls)) with (l ++ newline :: separated [newline] (l' :: ls)). now apply pieces_app.
Qed.
Lemma separated_length text ls : lines_of text ls -> length (separated [newline] ls) <= length text.
Proof.
  induction 1 as [|l Hl Hn|l s ls Hn H IH]; [cbn; lia|cbn; lia|].
  destruct ls as [|l' ls]; [cbn [separated]; rewrite app_length; lia|].
  change (separated [newline] (l :: l' :: ls)) with (l ++ newline :: separated [newline] (l' :: ls)). rewrite !app_length. cbn [length]. lia.
Qed.

(* ---------- reports ---------- *)
Section Show.
Variable show : spec_float -> list ascii.

Lemma compute_stats_ok vs : vs <> [] -> Forall (fun y => is_nan y = false) vs ->
  exists st, compute_stats show vs = Ok st /\ statistics show vs st.
Proof.
  intros Hv Hn. destruct (min_max_partial vs Hv) as (mn & mx & E1 & H1 & H2). destruct (nth_element_ok vs Hv Hn) as (md & E2 & H3).
  unfold compute_stats. rewrite E1. cbn [bind]. rewrite E2. cbn [bind]. eexists. split; [reflexivity|]. exists mn, mx, md.
  do 3 (split; [assumption|]). cbn [map concat]. unfold tab. rewrite <- !app_assoc, app_nil_r. reflexivity.
Qed.

Lemma all_defined_ok texts vs : Forall readable texts -> converted number texts vs ->
  exists os, converted conv_double texts os /\ all_defined os = Ok vs /\ (vs = [] <-> os = []).
Proof.
  intros Hr H. induction H as [|x v xs vs Hx H IH|x xs vs Hx H IH].
  - exists []. split; [constructor|]. split; [reflexivity|tauto].
  - destruct (IH (Forall_inv_tail Hr)) as (os & H1 & H2 & _). exists (Ok v :: os). split; [|split].
    + apply conv_take; [|exact H1]. unfold number in Hx. unfold conv_double. destruct (parse_real _ _ _) as [[[] w]| |]; try discriminate. injection Hx as ->. reflexivity.
    + cbn [all_defined bind]. rewrite H2. reflexivity.
    + split; discriminate.
  - destruct (IH (Forall_inv_tail Hr)) as (os & H1 & H2 & H3). exists os. split; [|auto].
    apply conv_skip; [|exact H1]. assert (R := Forall_inv Hr). destruct R as (b & w & R). unfold number in Hx. unfold conv_double. rewrite R in *.
    destruct b; [discriminate|reflexivity].
Qed.
Lemma converted_fun {T} (c : list ascii -> option T) xs vs : converted c xs vs -> forall ws, converted c xs ws -> vs = ws.
Proof. induction 1; intros ws K; inversion K; subst; try congruence; f_equal; try congruence; auto. Qed.


Lemma report_ok label i texts vs out : Forall readable texts -> converted number texts vs -> Forall (fun y => is_nan y = false) vs ->
  exists os t, converted conv_double texts os /\ report show label (N.of_nat i) os out = Ok (out ++ t) /\
    forall vss rest, report_of show label (S i) vss rest -> report_of show label i (vs :: vss) (t ++ rest).
Proof.
  intros Hr Hv Hn. destruct (all_defined_ok texts vs Hr Hv) as (os & H1 & H2 & H3). destruct vs as [|v vs].
  - exists os, []. split; [exact H1|]. rewrite (proj1 H3 eq_refl). cbn [report]. rewrite app_nil_r. split; [reflexivity|]. intros. now constructor.
  - destruct (compute_stats_ok (v :: vs) ltac:(discriminate) Hn) as (st & E & S). eexists os, _. split; [exact H1|]. unfold report.
    destruct os as [|o os]; [destruct H3 as [_ H3]; specialize (H3 eq_refl); discriminate|]. rewrite H2. cbn [bind]. rewrite E. cbn [bind].
    split; [reflexivity|]. intros vss rest H. pose proof (rep_line show label i (v :: vs) vss st rest ltac:(discriminate) S H) as K.
    unfold write_number, tab. rewrite <- !app_assoc. exact K.
Qed.

Lemma reports_ok label (get : nat -> outcome (list (outcome spec_float))) body :
  (forall k out, body (N.of_nat k) out = (os <- get k ;; report show label (N.of_nat k) os out)) ->
  forall textss vss i,
  Forall (Forall readable) textss -> Forall2 (converted number) textss vss -> Forall (Forall (fun y => is_nan y = false)) vss ->
  (forall k texts, nth_error textss k = Some texts -> exists os, get (i + k) = Ok os /\ converted conv_double texts os) ->
  forall out, exists t, for_up i (length textss) (fun i => body (N.of_nat i)) out = Ok (out ++ t) /\ report_of show label i vss t.
Proof.
  intros Hb textss. induction textss as [|x xs IH]; intros vss i Hr H Hn Hg out; inversion H as [|? vs ? vss' H1 H2]; subst; cbn [length for_up].
  - exists []. rewrite app_nil_r. split; [reflexivity|constructor].
  - destruct (Hg 0 x eq_refl) as (os & Eg & Co). rewrite Nat.add_0_r in Eg.
    destruct (report_ok label i x vs out (Forall_inv Hr) H1 (Forall_inv Hn)) as (os' & t & Co' & E & K).
    rewrite <- (converted_fun _ _ _ Co _ Co') in E. rewrite Hb, Eg. cbn [bind]. rewrite E. cbn [bind].
    destruct (IH vss' (S i) (Forall_inv_tail Hr) H2 (Forall_inv_tail Hn)) with (out := out ++ t) as (t' & E' & R').
    { intros k texts Hk. destruct (Hg (S k) texts Hk) as (os2 & G1 & G2). exists os2. split; [|exact G2]. rewrite <- G1. f_equal. lia. }
    exists (t ++ t'). rewrite E', app_assoc. split; [reflexivity|]. now apply K.
Qed.

Lemma max_length {A} (rs : list (list A)) n : greatest_length rs n -> n = list_max (map (@length _) rs).
Proof.
  intros ((r & Hr & <-) & H). apply Nat.le_antisymm.
  - pose proof (proj1 (list_max_le (map (@length _) rs) _) (Nat.le_refl _)) as F. rewrite Forall_forall in F. apply F. now apply in_map.
  - apply list_max_le. apply Forall_forall. intros x Hx. apply in_map_iff in Hx. destruct Hx as (r' & <- & Hr'). now apply H.
Qed.
Lemma column_map {A B} (f : A -> B) rs c : column (map (map f) rs) c = map f (column rs c).
Proof.
  induction rs as [|r rs IH]; cbn [map column]; [reflexivity|]. rewrite nth_error_map, IH. now destruct (nth_error r c).
Qed.

Lemma column_in {A} (rs : list (list A)) c x : In x (column rs c) -> exists r, In r rs /\ In x r.
Proof.
  induction rs as [|r rs IH]; cbn [column]; [intros []|]. destruct (nth_error r c) as [y|] eqn:E.
  - intros [<-|H]; [exists r; split; [now left|eapply nth_error_In; eauto]|]. destruct (IH H) as (r' & H1 & H2). exists r'. split; [now right|exact H2].
  - intros H. destruct (IH H) as (r' & H1 & H2). exists r'. split; [now right|exact H2].
Qed.
Lemma converted_in {T} (c : list ascii -> option T) xs vs : converted c xs vs -> forall v, In v vs <-> exists x, In x xs /\ c x = Some v.
Proof.
  induction 1 as [|x v xs vs Hx H IH|x xs vs Hx H IH]; intros w.
  - split; [intros []|intros (x & [] & _)].
  - cbn [In]. rewrite IH. split.
    + intros [<-|(y & H1 & H2)]; [exists x; auto|exists y; auto].
    + intros (y & [<-|H1] & H2); [left; congruence|right; eauto].
  - rewrite IH. split.
    + intros (y & H1 & H2). exists y. split; [now right|exact H2].
    + intros (y & [<-|H1] & H2); [congruence|eauto].
Qed.
Lemma forall2_in_r {A B} (P : A -> B -> Prop) l m : Forall2 P l m -> forall y, In y m -> exists x, In x l /\ P x y.
Proof.
  induction 1 as [|a b l m H _ IH]; intros y; [intros []|]. intros [<-|Hy]; [exists a; split; [now left|exact H]|].
  destruct (IH y Hy) as (x & H1 & H2). exists x. split; [now right|exact H2].
Qed.
Lemma forall2_in_l {A B} (P : A -> B -> Prop) l m : Forall2 P l m -> forall x, In x l -> exists y, In y m /\ P x y.
Proof.
  induction 1 as [|a b l m H _ IH]; intros x; [intros []|]. intros [<-|Hx]; [exists b; split; [now left|exact H]|].
  destruct (IH x Hx) as (y & H1 & H2). exists y. split; [now right|exact H2].
Qed.

Lemma stats_ok ls text rvals cvals : lines_of text ls -> (N.of_nat (length text) < 2 ^ 32 - 1)%N ->
  Forall (Forall readable) (number_rows text) ->
  Forall2 (converted number) (number_rows text) rvals -> Forall2 (converted number) (number_columns text) cvals ->
  Forall (Forall (fun y => is_nan y = false)) rvals ->
  exists t1 t2, stats_of_lines show ls = Ok (t1 ++ t2) /\ report_of show (str "C") 0 cvals t1 /\ report_of show (str "R") 0 rvals t2.
Proof.
  intros Hl Hs Hr Hrv Hcv Hn. unfold stats_of_lines. destruct ls as [|l0 ls0]; cbn [length Nat.eqb].
  { inversion Hl; subst. exists [], []. cbn in Hrv, Hcv. inversion Hrv. inversion Hcv. split; [reflexivity|]. split; constructor. }
  unfold join. rewrite (join_onto_ok _ _ _ []). cbn [app]. rewrite map_id. set (ls := l0 :: ls0) in *. set (buf := separated [newline] ls).
  destruct (load_ok (Options 1 [newline; ascii_of_nat 13] (str ", ") false false) buf eq_refl) as (cells & Hc & H). cbn [row_delimiters column_delimiters column_split_option] in Hc.
  destruct (cells_pieces _ _ _ _ Hc) as [Ec Hlen]. assert (Hb : length buf <= length text) by (apply separated_length; exact Hl).
  destruct H as (g0 & rs0 & E0 & Hg0 & Hc0 & Hw0 & Em); [unfold small; lia|]. rewrite E0. cbn [bind].
  destruct (Grid_Props.C34_remove_empty_tokens g0 rs0 Hg0 Hc0) as (n & g & E1 & Hg & Hcr). cbv zeta in Hg, Hcr. rewrite E1. cbn [bind].
  set (rs := filter nonempty (map (filter (fun t => negb (fst t =? snd t))) rs0)) in *.
  assert (ER : map (map (sub buf : nat * nat -> list ascii)) rs = number_rows text).
  { unfold number_rows. change (pieces [ascii_of_nat 10; ascii_of_nat 13] text) with (pieces breaks text). rewrite <- (pieces_lines _ _ Hl). fold buf.
    change [newline; ascii_of_nat 13] with breaks in Ec. rewrite <- Ec, <- Em. unfold rs.
    clear - Hw0. induction Hw0 as [|r rs0 Hr _ IH]; cbn [map filter]; [reflexivity|].
    pose proof (filter_texts buf r Hr) as F. unfold holding in F. rewrite F.
    destruct (filter (fun t : nat * nat => negb (fst t =? snd t)) r) as [|t l]; cbn [nonempty map]; [exact IH|]. now rewrite IH. }
  clearbody rs. clear E0 E1 Hg0 Hc0 Hw0 Em Ec Hc rs0 g0 n cells Hlen.
  assert (EM : max_c g = N.of_nat (list_max (map (@length _) (number_rows text)))).
  { rewrite <- ER. rewrite map_map. rewrite (map_ext (fun x => length (map (sub buf : nat * nat -> list ascii) x)) (@length _)) by (intros; apply map_length).
    unfold counts_right in Hcr. destruct rs as [|r0 rs]; [exact (proj2 Hcr)|]. destruct Hcr as (mn & mx & _ & -> & _ & H). f_equal. now apply max_length. }
  set (m := list_max (map (@length _) (number_rows text))) in *.
  assert (Lc : length (number_columns text) = m) by (unfold number_columns; now rewrite map_length, seq_length).
  unfold for_range. change (N.to_nat 0) with 0. rewrite EM, (row_count_ok _ _ Hg), !Nat2N.id, !Nat.sub_0_r.
  destruct (reports_ok (str "C") (fun k => ' (_, os) <- extract_column_checked conv_double buf g (all_rows g) (N.of_nat k) [] ;; Ok os)
    (fun column out => ' (_, value_list) <- extract_column_checked conv_double buf g (all_rows g) column [] ;; report show (str "C") column value_list out))
    with (textss := number_columns text) (vss := cvals) (i := 0) (out := @nil ascii) as (t1 & E1 & R1).
  - intros k out. destruct (extract_column_checked _ _ _ _ _ _) as [[? ?]| |]; reflexivity.
  - apply Forall_forall. intros xs Hx. apply in_map_iff in Hx. destruct Hx as (c & <- & _). apply Forall_forall. intros x Hx.
    apply column_in in Hx. destruct Hx as (r & Hr' & Hx). rewrite Forall_forall in Hr. specialize (Hr r Hr'). rewrite Forall_forall in Hr. now apply Hr.
  - exact Hcv.
  - apply Forall_forall. intros vs Hvs. apply Forall_forall. intros v Hv. destruct (forall2_in_r _ _ _ Hcv vs Hvs) as (xs & Hx & Cx).
    apply (converted_in _ _ _ Cx) in Hv. destruct Hv as (x & Hxx & Ex). apply in_map_iff in Hx. destruct Hx as (c & <- & _).
    apply column_in in Hxx. destruct Hxx as (r & Hr' & Hxr). destruct (forall2_in_l _ _ _ Hrv r Hr') as (ws & Hws & Cw).
    rewrite Forall_forall in Hn. specialize (Hn ws Hws). rewrite Forall_forall in Hn. apply Hn. apply (converted_in _ _ _ Cw). eauto.
  - intros k texts Hk. cbn [plus]. unfold number_columns in Hk. rewrite nth_error_map in Hk. fold m in Hk.
    destruct (nth_error (seq 0 m) k) as [c|] eqn:Ek; [|discriminate]. injection Hk as <-.
    assert (Hkm : k < m) by (apply nth_error_some_lt in Ek; now rewrite seq_length in Ek).
    assert (c = k) by (apply (nth_error_nth _ _ 0) in Ek; now rewrite seq_nth in Ek by lia). subst c.
    pose proof (Grid_Props.C63_extract_column_checked _ buf g rs conv_double 0 (length rs) k [] Hg) as X.
    rewrite (proj2 (N.leb_le _ _)) in X by lia. rewrite Nat.leb_refl in X. cbn [Nat.leb andb] in X. destruct X as (os & X & C).
    exists os. rewrite (all_rows_ok _ _ Hg). unfold tok. rewrite X. cbn [bind app]. split; [reflexivity|].
    rewrite slice_all in C. rewrite <- ER, column_map. exact C.
  - rewrite Lc in E1. rewrite E1. cbn [bind app].
    destruct (reports_ok (str "R") (fun k => rw <- row g (N.of_nat k) ;; parse_checked conv_double buf g rw [])
      (fun i out => rw <- row g i ;; value_list <- parse_checked conv_double buf g rw [] ;; report show (str "R") i value_list out))
      with (textss := number_rows text) (vss := rvals) (i := 0) (out := t1) as (t2 & E2 & R2); auto.
    + intros k out. destruct (row g (N.of_nat k)); reflexivity.
    + intros k texts Hk. cbn [plus]. rewrite <- ER, nth_error_map in Hk. destruct (nth_error rs k) as [r|] eqn:Ek; [|discriminate]. injection Hk as <-.
      destruct (row_ok g rs k r Hg Ek) as (rw & Er & _ & Hrow). rewrite Er. cbn [bind].
      destruct (Grid_Props.C62_parse_checked _ buf g rw r conv_double [] Hrow) as (os & X & C). exists os. split; [exact X|exact C].
    + rewrite <- ER, map_length in E2. exists t1, t2. auto.
Qed.
End Show.
