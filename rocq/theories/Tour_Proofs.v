From Coq Require Import Sorting.Sorted.
From Verif Require Import Base Split_Model Split_Spec Split_Proofs Num_Model Num_Spec Num_Proofs Num_Proofs2 Num_Props Parse_Model Parse_Spec Parse_Spec2 Parse_Proofs Parse_Proofs2
  Parse_Props Text_Model Text_Spec Text_Spec2 Text_Proofs Text_Props Stl_Model Tour_Model Tour_Spec.
Local Open Scope nat_scope.

Lemma app_parts {A} (a b c d : list A) : length a = length b -> a ++ c = b ++ d -> a = b /\ c = d.
Proof.
  revert b. induction a as [|x a IH]; intros [|y b] Hl E; cbn in *; try discriminate; auto.
  injection E as -> E. apply IH in E as [-> ->]; auto.
Qed.

(* ---- copies, each with a newline ---- *)
Lemma interleaved_copies base v : forall n ys, 0 < length base ->
  interleaved (length base) v (copies n base) ys -> ys = concat (repeat (base ++ [v]) n).
Proof.
  induction n as [|n IH]; intros ys Hb H.
  - change (copies 0 base) with (@nil ascii) in H. inversion H as [xs Hl|b xs ys' Hl Hi E]; subst; [reflexivity|].
    destruct b; [cbn in Hl; lia|discriminate].
  - change (copies (S n) base) with (base ++ copies n base) in H. inversion H as [xs Hl|b xs ys' Hl Hi E]; subst.
    + rewrite app_length in Hl. lia.
    + apply app_parts in E as [-> ->]; [|exact Hl]. cbn [repeat concat]. rewrite <- (IH ys' Hb Hi). now rewrite <- app_assoc.
Qed.

Lemma inserter_ok n base : base <> [] -> (N.of_nat (length base) < 2 ^ 64)%N ->
  inserter_example n base = concat (repeat (base ++ [ascii_of_nat 10]) n) ++ [ascii_of_nat 10].
Proof.
  intros Hb Hl. assert (Hb' : 0 < length base) by (destruct base; [congruence|cbn; lia]).
  unfold inserter_example. destruct (C57_replicate n base []) as (-> & _).
  destruct (C57_interval_inserter ascii (length base) newline (copies n base) Hb' Hl) as (ys & Hi & ->).
  now rewrite (interleaved_copies _ _ _ _ Hb' Hi).
Qed.

(* ---- rotations ---- *)
Definition rotated {A} (k : nat) (s x : list A) : Prop :=
  length x = length s /\ forall j, j < length s -> nth_error x j = nth_error s ((j + k) mod length s).

Lemma rotate_nth {A} i (x : list A) j : i < length x -> j < length x ->
  nth_error (skipn i x ++ firstn i x) j = nth_error x ((j + i) mod length x).
Proof.
  intros Hi Hj. destruct (Nat.lt_ge_cases j (length x - i)) as [H|H].
  - rewrite nth_error_app1 by (rewrite skipn_length; lia). rewrite nth_error_skipn.
    rewrite Nat.mod_small by lia. f_equal. lia.
  - rewrite nth_error_app2 by (rewrite skipn_length; lia). rewrite skipn_length, nth_error_firstn.
    replace (j + i) with (j + i - length x + 1 * length x) by lia. rewrite Nat.mod_add by lia.
    rewrite Nat.mod_small by lia. destruct (Nat.ltb_spec (j - (length x - i)) i); [f_equal; lia|lia].
Qed.

Lemma rotate_ok {A} k i (s x : list A) : i < length s -> rotated k s x ->
  exists y, rotate i x = Ok y /\ rotated (k + i) s y.
Proof.
  intros Hi [Hl H]. unfold rotate. destruct (Nat.ltb_spec (length x) i); [lia|].
  exists (skipn i x ++ firstn i x). split; [reflexivity|]. split.
  - rewrite app_length, skipn_length, firstn_length. lia.
  - intros j Hj. rewrite rotate_nth by lia. rewrite Hl, H by (apply Nat.mod_upper_bound; lia).
    f_equal. rewrite Nat.add_mod_idemp_l by lia. f_equal. lia.
Qed.

Lemma rotations_ok {A} (s : list A) : exists l, rotations s = Ok l /\ length l = length s /\
  forall i x, nth_error l i = Some x -> rotated (i * (i + 1) / 2) s x.
Proof.
  assert (H : holds (for_up 0 (length s) (fun i '(s, str_list) => s <- rotate i s ;; Ok (s, str_list ++ [s])) (s, []))
    (fun st => length (snd st) = length s /\ forall i x, nth_error (snd st) i = Some x -> rotated (i * (i + 1) / 2) s x)).
  { eapply holds_weaken;
    [apply (for_up_rule (fun i (st : list A * list (list A)) => length (snd st) = i /\
       (exists k, k + k = i * i - i /\ rotated k s (fst st)) /\
       forall j x, nth_error (snd st) j = Some x -> rotated (j * (j + 1) / 2) s x) _ (length s) 0)|].
    - intros i [x l] Hi (Hl & (k & Hk & Hr) & Hx). cbn [fst snd] in *.
      destruct (rotate_ok k i s x ltac:(lia) Hr) as (y & -> & Hy). cbn [bind holds fst snd].
      split; [rewrite app_length; cbn; lia|]. split.
      + exists (k + i). split; [|exact Hy]. destruct i; cbn in *; lia.
      + intros j z Hz. destruct (Nat.lt_ge_cases j i) as [Hj|Hj].
        * rewrite nth_error_app1 in Hz by lia. now apply Hx.
        * rewrite nth_error_app2 in Hz by lia. assert (j = i) by (apply nth_error_some_lt in Hz; cbn in Hz; lia). subst j.
          rewrite Hl, Nat.sub_diag in Hz. injection Hz as <-.
          replace (i * (i + 1) / 2) with (k + i); [exact Hy|].
          apply (Nat.div_unique _ _ _ 0); [lia|]. destruct i; cbn in *; lia.
    - cbn [fst snd]. split; [reflexivity|]. split; [exists 0; split; [reflexivity|]|intros [|j] x; discriminate].
      split; [reflexivity|]. intros j Hj. rewrite Nat.add_0_r, Nat.mod_small by lia. reflexivity.
    - cbn [plus]. intros [x l] (H1 & _ & H2). auto. }
  unfold rotations. destruct (for_up _ _ _ _) as [[x l]| |]; cbn [holds] in H; try contradiction.
  cbn [bind fst snd] in *. exists l. split; [reflexivity|exact H].
Qed.

(* ---- searches ---- *)
Lemma size_text_ok n : (Z.of_nat n < 10 ^ 20)%Z -> exists x, size_text n = Ok x /\ canonical x (Z.of_nat n).
Proof.
  intros H. unfold size_text. pose proof (format_unsigned_ok (Z.of_nat n) ltac:(lia)) as F.
  destruct (format_unsigned (Z.of_nat n)) as [x| |]; cbn [holds] in F; try contradiction. exists x. split; [reflexivity|apply F].
Qed.

Lemma found_line_ok s n r : (Z.of_nat n < 10 ^ 20)%Z -> (Z.of_nat (fst r) < 10 ^ 20)%Z -> snd r = fst r + n ->
  exists l, found_line s n r = Ok l /\ result_line n (fst r) (sub s r) l.
Proof.
  intros Hn Hr Es. unfold found_line. destruct (size_text_ok n Hn) as (tn & E1 & C1). destruct (size_text_ok (fst r) Hr) as (tk & E2 & C2).
  rewrite Es. replace (fst r + n - fst r) with n by lia. rewrite E1, E2. cbn [bind]. eexists. split; [reflexivity|].
  exists tn, tk. split; [exact C1|]. split; [exact C2|]. unfold right_align.
  destruct (Nat.leb_spec 2 (length tn)) as [H|H].
  - replace (2 - length tn) with 0 by lia. reflexivity.
  - rewrite <- !app_assoc. reflexivity.
Qed.

Lemma find_lines_ok t s : (N.of_nat (length s) < 2 ^ 31)%N -> forall ns a, a <= length s ->
  Forall (fun n => 1 <= n /\ (Z.of_nat n < 10 ^ 20)%Z) ns ->
  exists rs ls w, searches (type_pred t) s a ns rs /\ find_lines t s ns a = Ok (concat ls ++ w) /\ length ls = length rs /\
    (forall i n r, nth_error ns i = Some n -> nth_error rs i = Some r ->
       exists l, nth_error ls i = Some l /\ result_line n (fst r) (sub s r) l) /\
    match nth_error ns (length rs) with Some n => missing_line n w | None => w = [] end.
Proof.
  intros Hs. induction ns as [|n ns IH]; intros a Ha Hf.
  - exists [], [], []. split; [constructor|]. split; [reflexivity|]. split; [reflexivity|]. split; [intros [|i]; discriminate|reflexivity].
  - inversion Hf as [|? ? [Hn Hb] Hf']; subst. cbn [find_lines]. unfold find_n_consecutive, find_n_values.
    pose proof (find_exactly_ok (type_pred t) n s a Hn Ha ltac:(lia)) as F.
    destruct (find_exactly_n _ _ _ _ _) as [r| |]; cbn [holds] in F; try contradiction. cbn [bind].
    destruct F as [F|[-> F]].
    + pose proof (first_window_in _ _ _ _ _ Hn F) as (H1 & H2 & H3).
      destruct (Nat.eqb_spec (length s) (fst r)); [lia|]. cbn [andb].
      destruct (found_line_ok s n r Hb ltac:(lia) (proj1 (proj2 F))) as (l & -> & Hl). cbn [bind].
      destruct (IH (snd r) H3 Hf') as (rs & ls & w & S1 & S2 & S3 & S4 & S5). rewrite S2. cbn [bind].
      exists (r :: rs), (l :: ls), w. split; [now apply search_found|]. split; [cbn [concat]; now rewrite app_assoc|].
      split; [cbn; now rewrite S3|]. split; [|exact S5].
      intros [|i] n' r' E1 E2; cbn [nth_error] in *; [|now apply (S4 i)]. injection E1 as <-. injection E2 as <-. eauto.
    + cbn [fst snd]. rewrite Nat.eqb_refl. cbn [andb]. destruct (size_text_ok n Hb) as (tn & -> & Ct). cbn [bind].
      eexists [], [], _. split; [now apply search_none|]. split; [cbn [concat app]; reflexivity|]. split; [reflexivity|].
      split; [intros i ? ? _; destruct i; discriminate|]. cbn [length nth_error]. exists tn. split; [exact Ct|reflexivity].
Qed.

(* words of the class, with gaps without such characters between them *)
Definition gap_word (gw : list ascii * list ascii) : list ascii := fst gw ++ snd gw.
Definition tail_text (gws : list (list ascii * list ascii)) : list ascii := concat (map gap_word gws).

Lemma sat_at {A} (p : A -> bool) a x b : sat p (a ++ x :: b) (length a) <-> p x = true.
Proof. apply sat_nth. rewrite nth_error_app2, Nat.sub_diag by lia. reflexivity. Qed.
Lemma window_here {A} (p : A -> bool) a w b : Forall (fun x => p x = true) w -> window p (a ++ w ++ b) (length w) (length a).
Proof.
  intros Hw j Hj. rewrite Forall_forall in Hw. destruct (nth_error w (j - length a)) as [x|] eqn:E; [|apply nth_error_None in E; lia].
  exists x. split; [|apply Hw; eapply nth_error_In; eauto]. rewrite nth_error_app2 by lia. rewrite nth_error_app1 by lia. exact E.
Qed.
Lemma first_here {A} (p : A -> bool) a w b : Forall (fun x => p x = true) w -> first_window p (a ++ w ++ b) (length w) (length a) (length a, length a + length w).
Proof.
  intros Hw. split; [cbn; lia|]. split; [reflexivity|]. split; [now apply window_here|]. cbn [fst]. intros k Hk. lia.
Qed.
Lemma first_after {A} (p : A -> bool) a g w b : Forall (fun x => p x = true) w -> w <> [] -> Forall (fun x => p x = false) g ->
  first_window p (a ++ (g ++ w) ++ b) (length w) (length a) (length (a ++ g), length (a ++ g) + length w).
Proof.
  intros Hw Hne Hg. destruct (first_here p (a ++ g) w b Hw) as (_ & _ & H & _).
  cbn [fst] in H. rewrite <- app_assoc in H. rewrite <- (app_assoc g w b).
  split; [cbn [fst]; rewrite app_length; lia|]. split; [reflexivity|]. split; [exact H|]. cbn [fst]. intros k Hk W.
  rewrite app_length in Hk. destruct (nth_error g (k - length a)) as [x|] eqn:E; [|apply nth_error_None in E; lia].
  assert (S0 : sat p (a ++ g ++ w ++ b) k) by (apply W; destruct w; [congruence|cbn; lia]).
  apply (sat_nth p _ k x) in S0.
  - rewrite Forall_forall in Hg. rewrite (Hg x) in S0; [discriminate|]. eapply nth_error_In; eauto.
  - rewrite nth_error_app2 by lia. rewrite nth_error_app1 by lia. exact E.
Qed.

Lemma searches_tail (p : ascii -> bool) : forall gws pre rs,
  Forall (fun gw => Forall (fun x => p x = false) (fst gw) /\ snd gw <> [] /\ Forall (fun x => p x = true) (snd gw)) gws ->
  searches p (pre ++ tail_text gws) (length pre) (map (fun gw => length (snd gw)) gws) rs ->
  map (sub (pre ++ tail_text gws)) rs = map snd gws.
Proof.
  induction gws as [|[g w] gws IH]; intros pre rs Hf H.
  - inversion H. reflexivity.
  - inversion Hf as [|? ? (Hg & Hw1 & Hw2) Hf']; subst. cbn [fst snd] in *.
    change (tail_text ((g, w) :: gws)) with ((g ++ w) ++ tail_text gws) in *.
    pose proof (first_after p pre g w (tail_text gws) Hw2 Hw1 Hg) as F.
    cbn [map snd] in H. inversion H as [|? ? ? N|? ? ? r rs' F' H']; subst; [exfalso; eapply N; exact F|].
    assert (E0 := first_window_unique _ _ _ _ _ _ F' F); subst r; clear F'. cbn [map snd] in *. f_equal.
    + replace (pre ++ (g ++ w) ++ tail_text gws) with ((pre ++ g) ++ w ++ tail_text gws) by now rewrite <- !app_assoc.
      apply sub_here.
    + rewrite app_assoc in *. apply IH; [exact Hf'|]. replace (length (pre ++ g ++ w)) with (length (pre ++ g) + length w); [exact H'|].
      rewrite !app_length. lia.
Qed.

Lemma searches_words (p : ascii -> bool) gws rs :
  Forall (fun gw => Forall (fun x => p x = false) (fst gw) /\ snd gw <> [] /\ Forall (fun x => p x = true) (snd gw)) gws ->
  searches p (tail_text gws) 0 (map (fun gw => length (snd gw)) gws) rs -> map (sub (tail_text gws)) rs = map snd gws.
Proof. intros Hf H. exact (searches_tail p gws [] rs Hf H). Qed.

(* ---- pieces ---- *)
Lemma first_shift {A} (p : A -> bool) s n a a' r : a <= a' -> (forall k, a <= k < a' -> ~ window p s n k) ->
  (first_window p s n a r <-> first_window p s n a' r).
Proof.
  intros Ha Hn. unfold first_window. split; intros (H1 & H2 & H3 & H4).
  - split; [|split; [exact H2|split; [exact H3|]]].
    + destruct (Nat.le_gt_cases a' (fst r)) as [|Hg]; [assumption|exfalso]. apply (Hn (fst r)); [lia|exact H3].
    + intros k Hk. apply H4. lia.
  - split; [lia|]. split; [auto|]. split; [auto|]. intros k Hk. destruct (Nat.lt_ge_cases k a'); [apply Hn; lia|apply H4; lia].
Qed.
Lemma successive_shift {A} (p : A -> bool) s n a a' l : a <= a' -> (forall k, a <= k < a' -> ~ window p s n k) ->
  successive (first_window p s n) a l -> successive (first_window p s n) a' l.
Proof.
  intros Ha Hn H. inversion H as [? N|? r l' F S']; subst.
  - apply succ_none. intros r Hr. apply (N r). now apply (first_shift p s n a a').
  - apply succ_more; auto. now apply (first_shift p s n a a').
Qed.

Lemma word_pieces (p : ascii -> bool) n : 1 <= n -> forall m w pre rest l, length w <= m -> Forall (fun x => p x = true) w ->
  (rest = [] \/ exists c r, rest = c :: r /\ p c = false) ->
  successive (first_window p (pre ++ w ++ rest) n) (length pre) l ->
  exists ps l', pieces n w ps /\ successive (first_window p (pre ++ w ++ rest) n) (length (pre ++ w)) l' /\
    map (sub (pre ++ w ++ rest)) l = ps ++ map (sub (pre ++ w ++ rest)) l'.
Proof.
  intros Hn. induction m as [|m IH]; intros w pre rest l Hm Hw Hr H.
  - exists [], l. destruct w; [|cbn in Hm; lia]. split; [exists []; split; [reflexivity|split; [constructor|cbn; lia]]|].
    rewrite app_nil_r. split; [exact H|reflexivity].
  - destruct (Nat.lt_ge_cases (length w) n) as [Hl|Hl].
    + exists [], l. split; [exists w; split; [reflexivity|split; [constructor|lia]]|]. split; [|reflexivity].
      apply successive_shift with (a := length pre); auto; [rewrite app_length; lia|].
      intros k Hk W. rewrite app_length in Hk.
      assert (S0 : sat p (pre ++ w ++ rest) (length (pre ++ w))) by (apply W; rewrite app_length; lia).
      rewrite app_assoc in S0. destruct Hr as [->|(c & r & -> & Hc)].
      * rewrite app_nil_r in S0. apply sat_lt in S0. lia.
      * apply sat_at in S0. congruence.
    + rewrite <- (firstn_skipn n w) in Hw. apply Forall_app in Hw as [Hw1 Hw2].
      set (u := firstn n w) in *. set (v := skipn n w) in *.
      assert (Ew : w = u ++ v) by (symmetry; apply firstn_skipn).
      assert (Hu : length u = n) by (unfold u; rewrite firstn_length; lia).
      assert (Hv : length v <= m) by (unfold v; rewrite skipn_length; lia).
      clearbody u v. subst w. rewrite <- app_assoc in *.
      pose proof (first_here p pre u (v ++ rest) Hw1) as F. rewrite Hu in F.
      inversion H as [? N|? r l' F' S']; subst; [exfalso; eapply N; exact F|].
      assert (E0 := first_window_unique _ _ _ _ _ _ F' F); subst r; clear F'. cbn [snd map] in *.
      assert (Es : pre ++ u ++ v ++ rest = (pre ++ u) ++ v ++ rest) by now rewrite <- app_assoc.
      rewrite Es in S' |- *. destruct (IH v (pre ++ u) rest l' Hv Hw2 Hr) as (ps & l2 & P1 & P2 & P3).
      { now rewrite app_length. }
      exists (u :: ps), l2. split.
      { destruct P1 as (r & -> & Hp & Hrl). exists r. split; [cbn [concat]; now rewrite <- app_assoc|]. split; [constructor; auto|exact Hrl]. }
      rewrite <- (app_assoc pre u v) in P2. split; [exact P2|]. cbn [app]. f_equal; [|exact P3].
      rewrite <- Es. apply sub_here.
Qed.

Lemma runs_pieces (p : ascii -> bool) n : 1 <= n -> forall s ws, runs p s ws -> forall pre l,
  successive (first_window p (pre ++ s) n) (length pre) l ->
  exists pss, Forall2 (pieces n) ws pss /\ map (sub (pre ++ s)) l = concat pss.
Proof.
  intros Hn s ws R. induction R as [w Hw|w c s ws Hw Hc R IH]; intros pre l H.
  - destruct (word_pieces p n Hn (length w) w pre [] l ltac:(lia) Hw (or_introl eq_refl)) as (ps & l' & P1 & P2 & P3).
    { now rewrite app_nil_r. }
    rewrite app_nil_r in P2, P3. exists [ps]. split; [constructor; auto|]. rewrite P3. cbn [concat]. f_equal.
    inversion P2 as [? N|? r l2 F S']; subst; [reflexivity|].
    destruct (first_window_in _ _ _ _ _ Hn F) as (H1 & H2 & H3). lia.
  - destruct (word_pieces p n Hn (length w) w pre (c :: s) l ltac:(lia) Hw) as (ps & l' & P1 & P2 & P3); [|exact H|].
    { right. eauto. }
    assert (Es : pre ++ w ++ c :: s = (pre ++ w ++ [c]) ++ s) by (rewrite <- !app_assoc; reflexivity).
    assert (P4 : successive (first_window p (pre ++ w ++ c :: s) n) (length (pre ++ w ++ [c])) l').
    { apply successive_shift with (a := length (pre ++ w)); auto; [rewrite !app_length; lia|].
      intros k Hk W. rewrite !app_length in Hk. cbn in Hk. assert (k = length (pre ++ w)) by (rewrite app_length; lia). subst k.
      assert (S0 : sat p (pre ++ w ++ c :: s) (length (pre ++ w))) by (apply W; lia).
      rewrite app_assoc in S0. apply sat_at in S0. congruence. }
    rewrite Es in P4. destruct (IH _ _ P4) as (pss & Q1 & Q2).
    exists (ps :: pss). split; [constructor; auto|]. rewrite P3. cbn [concat]. f_equal. now rewrite Es.
Qed.

Lemma runs_exist (p : ascii -> bool) : forall s, exists ws, runs p s ws.
Proof.
  induction s as [|c s (ws & R)]; [exists [[]]; apply runs_end; constructor|].
  destruct (p c) eqn:E.
  - inversion R as [w Hw|w d s' ws' Hw Hd R']; subst.
    + exists [c :: s]. apply runs_end. now constructor.
    + exists ((c :: w) :: ws'). apply (runs_more p (c :: w) d s' ws'); auto.
  - exists ([] :: ws). apply (runs_more p [] c s ws); auto.
Qed.
Lemma runs_unique (p : ascii -> bool) s ws : runs p s ws -> forall us, runs p s us -> ws = us.
Proof.
  assert (G : forall w c s v d t, Forall (fun x => p x = true) w -> Forall (fun x => p x = true) v -> p c = false -> p d = false ->
    w ++ c :: s = v ++ d :: t -> w = v /\ s = t).
  { induction w as [|x w IH]; intros c0 s0 [|y v] d t Hw Hv Hc Hd E; cbn in E.
    - injection E as _ ->. auto.
    - injection E as -> _. inversion Hv; congruence.
    - injection E as -> _. inversion Hw; congruence.
    - injection E as -> E. inversion Hw; inversion Hv; subst. destruct (IH c0 s0 v d t) as [-> ->]; auto. }
  assert (N : forall w v d t, Forall (fun x => p x = true) w -> p d = false -> w <> v ++ d :: t).
  { intros w v d t Hw Hd ->. apply Forall_app in Hw as [_ Hw]. inversion Hw; congruence. }
  induction 1 as [w Hw|w c s ws Hw Hc R IH]; intros us H.
  - inversion H as [v Hv E|v d t us' Hv Hd R']; subst; [reflexivity|]. exfalso. now apply (N (v ++ d :: t) v d t).
  - inversion H as [v Hv E|v d t us' Hv Hd R' E]; subst.
    + exfalso. now apply (N (w ++ c :: s) w c s).
    + destruct (G v d t w c s Hv Hw Hd Hc E) as [-> ->]. f_equal. now apply IH.
Qed.

Lemma pieces_unique {A} n (w : list A) ps qs : pieces n w ps -> pieces n w qs -> ps = qs.
Proof.
  intros (r & E1 & F1 & L1) (r' & E2 & F2 & L2). rewrite E1 in E2. clear E1. revert qs E2 F2. induction F1 as [|x ps Hx F1 IH]; intros qs E F2.
  - destruct F2 as [|y qs Hy F2]; [reflexivity|]. exfalso. cbn in E. subst r. rewrite !app_length in L1. lia.
  - destruct F2 as [|y qs Hy F2].
    + exfalso. cbn in E. subst r'. rewrite !app_length in L2. lia.
    + cbn [concat] in E. rewrite <- !app_assoc in E. apply app_parts in E as [-> E]; [|congruence]. f_equal. now apply IH.
Qed.
Lemma pieces_length {A} n (w : list A) ps : 1 <= n -> pieces n w ps -> length ps = length w / n.
Proof.
  intros Hn (r & -> & F & L). apply (Nat.div_unique _ _ _ (length r)); [exact L|]. rewrite app_length. f_equal.
  induction F as [|x ps Hx F IH]; [cbn; lia|]. cbn [concat length]. rewrite app_length, IH, Hx. lia.
Qed.
