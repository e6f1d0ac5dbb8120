(* Programs of strtk_examples.cpp for all texts: C152 to C156. *)
From Coq Require Import Sorting.Sorted.
From Verif Require Import Base Num_Model Num_Spec Num_Proofs Num_Props Parse_Model Parse_Spec Parse_Proofs2 Text_Model Text_Spec Text_Proofs Text_Props Tour_Model Tour_Spec Tour_Proofs Tour_Proofs2.
Local Open Scope nat_scope.
Definition eol : list ascii := [ascii_of_nat 10].

(* ---- C152 ---- *)
Theorem C152_lines : forall n base, base <> [] -> (N.of_nat (length base) < 2 ^ 64)%N ->
  inserter_example n base = concat (repeat (base ++ [ascii_of_nat 10]) n) ++ [ascii_of_nat 10].
Proof. exact inserter_ok. Qed.
Print Assumptions C152_lines.
Example C152_lines_example : inserter_example 3 (str "a b") = str "a b" ++ eol ++ str "a b" ++ eol ++ str "a b" ++ eol ++ eol.
Proof. reflexivity. Qed.

(* no line at all for an empty text, whatever their number *)
Theorem C152_empty_refuted : forall n, inserter_example n [] = [ascii_of_nat 10].
Proof.
  intros n. unfold inserter_example. destruct (Parse_Props.C57_replicate n [] []) as (-> & _).
  replace (copies n []) with (@nil ascii); [reflexivity|]. unfold copies. induction n as [|n IH]; [reflexivity|exact IH].
Qed.
Print Assumptions C152_empty_refuted.
Example C152_empty_example : inserter_example 3 [] = eol /\ concat (repeat ([] ++ eol) 3) ++ eol = eol ++ eol ++ eol ++ eol.
Proof. split; reflexivity. Qed.

(* ---- C153 ---- *)
Theorem C153_rotations : forall A (s : list A), exists l, rotations s = Ok l /\ length l = length s /\
  forall i x, nth_error l i = Some x -> length x = length s /\
    forall j, j < length s -> nth_error x j = nth_error s ((j + i * (i + 1) / 2) mod length s).
Proof. intros A s. exact (rotations_ok s). Qed.
Print Assumptions C153_rotations.
Example C153_rotations_example : rotations (str "0123") = Ok [str "0123"; str "1230"; str "3012"; str "2301"].
Proof. reflexivity. Qed.

Theorem C153_output : forall r0 r1 s, r0 <= r1 -> r1 <= length s -> (N.of_nat (length s) < 2 ^ 64)%N ->
  exists ls, cut_example r0 r1 s = Ok (separated [ascii_of_nat 10] ls ++ [ascii_of_nat 10]) /\ length ls = length s /\
    forall i l, nth_error ls i = Some l -> length l = r1 - r0 /\
      forall j, j < r1 - r0 -> nth_error l j = nth_error s ((r0 + j + i * (i + 1) / 2) mod length s).
Proof.
  intros r0 r1 s H0 H1 Hl. destruct (cut_example_ok r0 r1 s H0 Hl) as (l & E & ->). destruct (C153_rotations ascii s) as (l' & E' & Hll & H).
  rewrite E in E'. injection E' as <-.
  assert (Ef : filter (fun x => r0 <=? length x) l = l).
  { assert (G : Forall (fun x : list ascii => r0 <= length x) l).
    { apply Forall_forall. intros x Hx. apply In_nth_error in Hx as (i & Hi). destruct (H i x Hi) as [-> _]. lia. }
    clear -G. induction G as [|x l Hx G IH]; [reflexivity|]. cbn [filter]. destruct (Nat.leb_spec r0 (length x)); [now rewrite IH|lia]. }
  rewrite Ef. eexists. split; [reflexivity|]. split; [now rewrite map_length|].
  intros i y Hy. rewrite nth_error_map in Hy. destruct (nth_error l i) as [x|] eqn:Ex; [|discriminate]. injection Hy as <-.
  destruct (H i x Ex) as [Hx Hn]. rewrite Hx, Nat.min_l by lia. unfold sub. cbn [fst snd]. split.
  - rewrite firstn_length, skipn_length. lia.
  - intros j Hj. rewrite nth_error_firstn. destruct (Nat.ltb_spec j (r1 - r0)); [|lia]. rewrite nth_error_skipn. apply Hn. lia.
Qed.
Print Assumptions C153_output.
Example C153_output_example : cut_example 1 3 (str "01234") = Ok (str "12" ++ eol ++ str "23" ++ eol ++ str "40" ++ eol ++ str "23" ++ eol ++ str "12" ++ eol).
Proof. reflexivity. Qed.

(* ---- C154 ---- *)
Theorem C154_output : forall t s ns, (N.of_nat (length s) < 2 ^ 31)%N -> Forall (fun n => 1 <= n /\ (Z.of_nat n < 10 ^ 20)%Z) ns ->
  exists rs ls w, searches (type_pred t) s 0 ns rs /\ find_lines t s ns 0 = Ok (concat ls ++ w) /\ length ls = length rs /\
    (forall i n r, nth_error ns i = Some n -> nth_error rs i = Some r ->
       exists l, nth_error ls i = Some l /\ result_line n (fst r) (sub s r) l) /\
    match nth_error ns (length rs) with Some n => missing_line n w | None => w = [] end.
Proof. intros t s ns Hs Hf. apply find_lines_ok; auto. lia. Qed.
Print Assumptions C154_output.
Example C154_output_example : find_lines digits (str "1 22 x") [1; 2; 3] 0 =
  Ok (str "Result-01: [1] Location: [0]] Length: [1]" ++ eol ++ str "Result-02: [22] Location: [2]] Length: [2]" ++ eol ++
      str "No strings found for 3 consecutive values!" ++ eol).
Proof. reflexivity. Qed.

(* the searches are determined *)
Theorem C154_unique : forall A (p : A -> bool) s a ns rs, searches p s a ns rs -> forall rs', searches p s a ns rs' -> rs = rs'.
Proof.
  intros A p s a ns rs H. induction H as [a|a n ns N|a n ns r rs F H IH]; intros rs' H'; inversion H' as [|? ? ? N'|? ? ? r' rs0 F' H0]; subst; auto.
  - exfalso. eapply N; eauto.
  - exfalso. eapply N'; eauto.
  - assert (E := first_window_unique _ _ _ _ _ _ F F'). subst r'. f_equal. now apply IH.
Qed.
Print Assumptions C154_unique.
Example C154_unique_example : forall rs, searches is_digit (str "7a") 0 [1] rs -> rs = [(0, 1)].
Proof.
  intros rs H. refine (C154_unique _ _ _ _ _ _ H _ _). refine (search_found _ _ 0 1 [] (0, 1) [] _ (search_end _ _ _)).
  apply (first_here is_digit [] (str "7") (str "a")). repeat constructor.
Qed.

(* words of the class with gaps before them: asked for the lengths of the words, all words are found *)
Theorem C154_words : forall (p : ascii -> bool) gws rs,
  Forall (fun gw => Forall (fun x => p x = false) (fst gw) /\ snd gw <> [] /\ Forall (fun x => p x = true) (snd gw)) gws ->
  searches p (concat (map (fun gw => fst gw ++ snd gw) gws)) 0 (map (fun gw => length (snd gw)) gws) rs ->
  map (sub (concat (map (fun gw => fst gw ++ snd gw) gws))) rs = map snd gws.
Proof. exact searches_words. Qed.
Print Assumptions C154_words.
Example C154_words_example : let gws := [([], str "1"); (str " ", str "22"); (str " - ", str "333")] in
  concat (map (fun gw => fst gw ++ snd gw) gws) = str "1 22 - 333" /\
  find_lines digits (str "1 22 - 333") [1; 2; 3] 0 =
  Ok (str "Result-01: [1] Location: [0]] Length: [1]" ++ eol ++ str "Result-02: [22] Location: [2]] Length: [2]" ++ eol ++
      str "Result-03: [333] Location: [7]] Length: [3]" ++ eol).
Proof. split; reflexivity. Qed.

(* a search may use up the beginning of a longer run: exactly n does not mean that the run ends there *)
Theorem C154_missed_refuted : window is_digit (str "22 1") 2 0 /\
  find_lines digits (str "22 1") [1; 2] 0 =
  Ok (str "Result-01: [2] Location: [0]] Length: [1]" ++ eol ++ str "No strings found for 2 consecutive values!" ++ eol).
Proof. split; [|reflexivity]. intros [|[|j]] H; try lia; eexists; split; reflexivity. Qed.
Print Assumptions C154_missed_refuted.

(* ---- C155 ---- *)
Theorem C155_output : forall t word data is ws, (N.of_nat (length data) < 2 ^ 31)%N -> Forall (fun i => (Z.of_nat i < 10 ^ 20)%Z) is ->
  runs (type_pred t) data ws ->
  exists ls, split_lines t word data is = Ok (concat ls) /\ length ls = length is /\
    forall k i, nth_error is k = Some i -> exists l, nth_error ls k = Some l /\
      (i = 0 -> l = []) /\
      (1 <= i -> exists pss, Forall2 (pieces i) ws pss /\ group_line word i (concat pss) l).
Proof.
  intros t word data is ws Hd Hf R. destruct (split_lines_ok t word data Hd is Hf) as (ls & E & El & H).
  exists ls. split; [exact E|]. split; [exact El|]. intros k i Hk. destruct (H k i Hk) as (l & H1 & H2 & H3).
  exists l. split; [exact H1|]. split; [exact H2|]. intros Hi. destruct (H3 Hi) as (r & Hs & Hg).
  destruct (runs_pieces (type_pred t) i Hi data ws R [] r Hs) as (pss & P1 & P2). exists pss. split; [exact P1|]. cbn [app] in P2. now rewrite <- P2.
Qed.
Print Assumptions C155_output.
Example C155_output_example : runs is_digit (str "7 333ab22") [str "7"; str "333"; []; str "22"] /\
  split_lines digits (str "digits") (str "7 333ab22") [0; 1; 2; 3; 4] =
  Ok (str "1 Consecutive digits: 7 3 3 3 2 2" ++ eol ++ str "2 Consecutive digits: 33 22" ++ eol ++ str "3 Consecutive digits: 333" ++ eol).
Proof.
  split; [|reflexivity]. apply (runs_more is_digit (str "7") " "%char); [repeat constructor|reflexivity|].
  apply (runs_more is_digit (str "333") "a"%char); [repeat constructor|reflexivity|].
  apply (runs_more is_digit [] "b"%char); [repeat constructor|reflexivity|]. apply runs_end. repeat constructor.
Qed.

(* every text has exactly one such decomposition, and a word of m characters gives m / i pieces *)
Theorem C155_decomposition : (forall (p : ascii -> bool) s, exists ws, runs p s ws /\ forall us, runs p s us -> us = ws) /\
  (forall A n (w : list A) ps, 1 <= n -> pieces n w ps -> length ps = length w / n /\ forall qs, pieces n w qs -> qs = ps).
Proof.
  split.
  - intros p s. destruct (runs_exist p s) as (ws & R). exists ws. split; [exact R|]. intros us U. symmetry. now apply (runs_unique p s ws R).
  - intros A n w ps Hn H. split; [now apply pieces_length|]. intros qs Q. now apply (pieces_unique n w).
Qed.
Print Assumptions C155_decomposition.
Example C155_decomposition_example : pieces 2 (str "abcde") [str "ab"; str "cd"] /\ length (str "abcde") / 2 = 2.
Proof. split; [|reflexivity]. exists (str "e"). split; [reflexivity|]. split; [repeat constructor|cbn; lia]. Qed.

(* ---- C156 ---- *)
Theorem C156_output : forall xs texts words, Forall in_int xs -> Forall2 canonical texts xs ->
  Forall (fun w => w <> [] /\ ~ In " "%char w) words ->
  exists c ts, StronglySorted Z.lt c /\ (forall x, In x c <-> In x xs) /\ Forall2 canonical ts c /\
    bracketize_example (separated (str ",") texts) (separated (str " ") words) =
    Ok (concat (map (fun t => str "{" ++ t ++ str "}") ts) ++ [ascii_of_nat 10] ++
        concat (map (fun w => str "<" ++ w ++ str ">") words) ++ [ascii_of_nat 10]).
Proof. exact bracketize_example_ok. Qed.
Print Assumptions C156_output.
Example C156_output_example : bracketize_example (str "10,-2,7,10") (str "the quick the") =
  Ok (str "{-2}{7}{10}" ++ eol ++ str "<the><quick><the>" ++ eol).
Proof. reflexivity. Qed.

(* the integers in another order give the same line *)
Theorem C156_order : forall xs ys texts texts' words, Forall in_int xs -> Forall2 canonical texts xs -> Forall2 canonical texts' ys ->
  (forall x, In x xs <-> In x ys) -> Forall (fun w => w <> [] /\ ~ In " "%char w) words ->
  bracketize_example (separated (str ",") texts) (separated (str " ") words) =
  bracketize_example (separated (str ",") texts') (separated (str " ") words).
Proof.
  intros xs ys texts texts' words Hx Ht Ht' He Hw.
  assert (Hy : Forall in_int ys) by (apply Forall_forall; intros y Hy; rewrite Forall_forall in Hx; apply Hx, He, Hy).
  destruct (C156_output xs texts words Hx Ht Hw) as (c & ts & S1 & I1 & C1 & ->).
  destruct (C156_output ys texts' words Hy Ht' Hw) as (c' & ts' & S2 & I2 & C2 & ->).
  assert (c = c') as <-.
  { assert (I : forall x, In x c <-> In x c') by (intros x; rewrite I1, I2; apply He).
    clear -S1 S2 I. revert c' S2 I. induction S1 as [|a l S1 IH F1]; intros c' S2 I.
    - destruct c' as [|b c']; [reflexivity|]. exfalso. apply (I b). now left.
    - destruct S2 as [|b l' S2 F2]; [exfalso; apply (I a); now left|]. rewrite Forall_forall in F1, F2.
      assert (a = b) as <-.
      { destruct (proj1 (I a) (or_introl eq_refl)) as [E|E]; [auto|]. destruct (proj2 (I b) (or_introl eq_refl)) as [E'|E']; [auto|].
        specialize (F1 _ E'). specialize (F2 _ E). lia. }
      f_equal. apply IH; [exact S2|]. intros x. split; intros Hx.
      + destruct (proj1 (I x) (or_intror Hx)) as [<-|E]; [|exact E]. specialize (F1 _ Hx). lia.
      + destruct (proj2 (I x) (or_intror Hx)) as [<-|E]; [|exact E]. specialize (F2 _ Hx). lia. }
  assert (ts = ts') as <-; [|reflexivity].
  clear -C1 C2. revert ts' C2. induction C1 as [|t v ts vs Hc C1 IH]; intros ts' C2; inversion C2 as [|? ? ? ? Hc' C2']; subst; [reflexivity|].
  f_equal; [eapply C20_canonical_unique; eauto|now apply IH].
Qed.
Print Assumptions C156_order.
Example C156_order_example : bracketize_example (str "3,1,2") (str "a") = bracketize_example (str "2,2,1,3") (str "a").
Proof. reflexivity. Qed.
