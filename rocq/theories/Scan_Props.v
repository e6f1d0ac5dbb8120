(* Properties C46, C67, C68, C69: offset splitting, range summaries, the first character
   occurring once, canonical rotation. *)
From Verif Require Import Base Num_Model Scan_Model Scan_Spec Scan_Proofs.
Local Open Scope nat_scope.

(* what the examples work with *)
Definition char_ltb (a b : ascii) : bool := nat_of_ascii a <? nat_of_ascii b.
Lemma nat_order : strict_order Nat.ltb.
Proof.
  split; [apply Nat.ltb_irrefl|]. split.
  - intros x y z H1 H2. apply Nat.ltb_lt in H1. apply Nat.ltb_lt in H2. apply Nat.ltb_lt. lia.
  - intros x y H1 H2. apply Nat.ltb_ge in H1. apply Nat.ltb_ge in H2. lia.
Qed.

(* ---- C46 ---- *)
(* a fresh or reset predicate: the cuts are the ones requested; there is only one such list of
   cuts (C46_determined), the count is its length, and reset restores the predicate *)
Theorem C46_slices : forall l rotating n, exists cuts o,
  offset_splitter n (make_offsets l rotating) = Ok (cuts, length cuts, o) /\
  sliced (offset_at l rotating) n cuts /\ reset_offsets o = make_offsets l rotating.
Proof.
  intros l r n. destruct (offset_splitter_ok l r n) as (cuts & o & H1 & H2 & H3 & _). eauto.
Qed.
Print Assumptions C46_slices.

Example C46_ex_slices : offset_splitter 5 (make_offsets [2; 1]%Z false) = Ok ([(0, 2); (2, 3)], 2, Offsets [2; 1]%Z false 3) /\
  sliced (offset_at [2; 1]%Z false) 5 [(0, 2); (2, 3)] /\ reset_offsets (Offsets [2; 1]%Z false 3) = make_offsets [2; 1]%Z false.
Proof.
  split; [reflexivity|]. split; [|reflexivity]. split; [|right; cbn; lia].
  intros [|[|k]] a b H; cbn in H; [injection H as <- <-|injection H as <- <-|destruct k; discriminate]; cbn; lia.
Qed.

Theorem C46_determined : forall request n cuts cuts',
  sliced request n cuts -> sliced request n cuts' -> cuts = cuts'.
Proof. exact sliced_unique. Qed.
Print Assumptions C46_determined.

(* other cuts are not what was asked for: a piece too short, a piece left out *)
Example C46_ex_determined : ~ sliced (offset_at [2; 1]%Z false) 5 [(0, 1); (1, 2)] /\ ~ sliced (offset_at [2; 1]%Z false) 5 [(0, 2)].
Proof.
  split; intros [H L].
  - destruct (H 0 0 1 eq_refl) as (_ & _ & _ & E). discriminate.
  - cbn in L. lia.
Qed.

(* the slices put together are a prefix of the text: nothing lost, doubled or reordered *)
Theorem C46_prefix : forall (A : Type) (s : list A) l rotating cuts c o,
  offset_splitter (length s) (make_offsets l rotating) = Ok (cuts, c, o) ->
  exists k, k <= length s /\ concat (map (sub s) cuts) = firstn k s.
Proof.
  intros A s l r cuts c o H. destruct (offset_splitter_ok l r (length s)) as (cuts' & o' & H1 & H2 & _).
  rewrite H in H1. injection H1 as <- _ _.
  destruct (sliced_text s _ cuts H2 (length cuts) (le_n _)) as (H3 & H4). rewrite firstn_all in H4. eauto.
Qed.
Print Assumptions C46_prefix.

Example C46_ex_prefix : let s := str "abcdef" in offset_splitter (length s) (make_offsets [2; 1; 0; 4]%Z false) = Ok ([(0, 2); (2, 3)], 2, Offsets [2; 1; 0; 4]%Z false 3) /\
  map (sub s) [(0, 2); (2, 3)] = [str "ab"; str "c"] /\ concat (map (sub s) [(0, 2); (2, 3)]) = firstn 3 s.
Proof. auto. Qed.

(* with rotation and positive offsets they are the whole text *)
Theorem C46_rotating_covers : forall (A : Type) (s : list A) l cuts c o,
  l <> [] -> Forall (fun z => (0 < z)%Z) l ->
  offset_splitter (length s) (make_offsets l true) = Ok (cuts, c, o) ->
  concat (map (sub s) cuts) = s.
Proof.
  intros A s l cuts c o Hl Hp H. destruct (offset_splitter_ok l true (length s)) as (cuts' & o' & H1 & H2 & _).
  rewrite H in H1. injection H1 as <- _ _.
  destruct (sliced_text s _ cuts H2 (length cuts) (le_n _)) as (H3 & H4). rewrite firstn_all in H4. rewrite H4.
  destruct H2 as (_ & [He|He]).
  - fold (cut_end cuts (length cuts)) in He. rewrite He. apply firstn_all.
  - exfalso. unfold offset_at in He. rewrite Forall_forall in Hp.
    assert (Hin : In (nth (length cuts mod length l) l 0%Z) l).
    { apply nth_In. apply Nat.mod_upper_bound. destruct l; cbn; congruence. }
    apply Hp in Hin. lia.
Qed.
Print Assumptions C46_rotating_covers.

Example C46_ex_rotating : let s := str "abcdefg" in offset_splitter (length s) (make_offsets [2; 1]%Z true) =
  Ok ([(0, 2); (2, 3); (3, 5); (5, 6); (6, 7)], 5, Offsets [2; 1]%Z true 1) /\
  concat (map (sub s) [(0, 2); (2, 3); (3, 5); (5, 6); (6, 7)]) = s.
Proof. vm_compute. auto. Qed.

(* without reset: a predicate that ran out of offsets before the text ended reads beyond its
   array on the next non-empty text *)
Theorem C46_reuse_refuted : forall l n m cuts c o,
  offset_splitter n (make_offsets l false) = Ok (cuts, c, o) ->
  length cuts = length l -> snd (last cuts (0, 0)) < n -> 0 < m ->
  offset_splitter m o = UB.
Proof.
  intros l n m cuts c o H Hc Hl Hm. destruct (offset_splitter_ok l false n) as (cuts' & o' & H1 & H2 & H3 & H4).
  rewrite H in H1. injection H1 as <- _ <-.
  assert (Hend : cut_end cuts (length cuts) < n).
  { clear - Hl. destruct cuts as [|x cuts] using rev_ind; [exact Hl|].
    rewrite last_last in Hl. rewrite app_length, Nat.add_1_r. cbn [cut_end].
    rewrite app_nth2 by lia. now rewrite Nat.sub_diag. }
  specialize (H4 eq_refl Hend). injection H3 as Ho1 Ho2.
  unfold offset_splitter. destruct (Nat.eqb_spec m 0); [lia|]. cbn [loop].
  destruct (Nat.eqb_spec m 0); [lia|]. unfold next_offset. rewrite Ho1, H4.
  rewrite rd_ub; [reflexivity|]. rewrite app_length. cbn [length]. lia.
Qed.
Print Assumptions C46_reuse_refuted.

Example C46_example :
  offset_splitter 10 (make_offsets [2; 3; 1]%Z false) = Ok ([(0, 2); (2, 5); (5, 6)], 3, Offsets [2; 3; 1]%Z false 4) /\
  offset_splitter 10 (make_offsets [2; 3]%Z true) = Ok ([(0, 2); (2, 5); (5, 7); (7, 10)], 4, Offsets [2; 3]%Z true 0) /\
  offset_splitter 4 (make_offsets [3; 3]%Z false) = Ok ([(0, 3); (3, 4)], 2, Offsets [3; 3]%Z false 2) /\
  offset_splitter 3 (Offsets [2; 3; 1]%Z false 4) = UB.
Proof. vm_compute. auto. Qed.

(* ---- C67 ---- *)
Theorem C67_duplicates : forall (A : Type) (eqb : A -> A -> bool) (s : list A),
  (forall x y, eqb x y = true <-> x = y) -> count_consecutive_duplicates eqb s = Ok (adjacent_equal eqb s).
Proof. intros A eqb s H. now apply count_duplicates_ok. Qed.
Print Assumptions C67_duplicates.

Example C67_ex_duplicates : count_consecutive_duplicates Nat.eqb [1; 1; 2; 1; 1; 1] = Ok 3 /\ adjacent_equal Nat.eqb [1; 1; 2; 1; 1; 1] = 3 /\
  count_consecutive_duplicates Nat.eqb [] = Ok 0.
Proof. auto. Qed.

Theorem C67_min_max : forall (A : Type) (ltb : A -> A -> bool) (s : list A), strict_order ltb -> s <> [] ->
  exists mn mx, min_max_of_range ltb s = Ok (mn, mx) /\ smallest ltb s mn /\ largest ltb s mx.
Proof.
  intros A ltb s Ho Hs. pose proof (min_max_ok ltb Ho s Hs) as H. apply holds_ex in H.
  destruct H as ([mn mx] & E & H). exists mn, mx. tauto.
Qed.
Print Assumptions C67_min_max.

Example C67_ex_min_max : min_max_of_range Nat.ltb [5; 9; 2; 9] = Ok (2, 9) /\ smallest Nat.ltb [5; 9; 2; 9] 2 /\ largest Nat.ltb [5; 9; 2; 9] 9.
Proof.
  split; [reflexivity|]. split; (split; [cbn; tauto|]); intros x H; cbn in H;
    repeat (destruct H as [<-|H]; [reflexivity|]); contradiction.
Qed.

Theorem C67_min_and_max : forall (A : Type) (ltb : A -> A -> bool) (s : list A), strict_order ltb -> s <> [] ->
  (exists mn, min_element ltb s = Ok mn /\ smallest ltb s mn) /\
  (exists mx, max_element ltb s = Ok mx /\ largest ltb s mx).
Proof.
  intros A ltb s Ho Hs. split.
  - pose proof (min_element_ok ltb Ho s Hs) as H. now apply holds_ex in H.
  - pose proof (max_element_ok ltb Ho s Hs) as H. now apply holds_ex in H.
Qed.
Print Assumptions C67_min_and_max.

Example C67_ex_min_and_max : min_element Nat.ltb [5; 9; 2; 9] = Ok 2 /\ max_element Nat.ltb [5; 9; 2; 9] = Ok 9 /\ min_element Nat.ltb [4] = Ok 4.
Proof. auto. Qed.

(* there is one smallest and one largest element, so all versions agree *)
Theorem C67_extremes_unique : forall (A : Type) (ltb : A -> A -> bool) (s : list A) x y, strict_order ltb ->
  (smallest ltb s x -> smallest ltb s y -> x = y) /\ (largest ltb s x -> largest ltb s y -> x = y).
Proof.
  intros A ltb s x y (_ & _ & H). split; intros (H1 & H2) (H3 & H4); apply H; auto.
Qed.
Print Assumptions C67_extremes_unique.

(* the order has to be total: with an order that compares nothing every element is smallest *)
Example C67_ex_unique : strict_order Nat.ltb /\ smallest (fun _ _ => false) [1; 2] 1 /\ smallest (fun _ _ => false) [1; 2] 2.
Proof. split; [exact nat_order|]. split; (split; [cbn; tauto|auto]). Qed.

Theorem C67_empty_refuted : forall (A : Type) (ltb : A -> A -> bool),
  min_max_of_range ltb [] = UB /\ min_element ltb [] = UB /\ max_element ltb [] = UB.
Proof. intros A ltb. split; [|split]; reflexivity. Qed.
Print Assumptions C67_empty_refuted.

Example C67_example :
  count_consecutive_duplicates Nat.eqb [7; 7; 7; 3; 3; 7] = Ok 3 /\
  min_max_of_range Nat.ltb [5; 9; 2; 9; 4] = Ok (2, 9) /\
  strict_order Nat.ltb.
Proof.
  split; [reflexivity|]. split; [reflexivity|]. split; [intros; apply Nat.ltb_irrefl|]. split.
  - intros x y z. rewrite !Nat.ltb_lt. lia.
  - intros x y. rewrite !Nat.ltb_ge. lia.
Qed.

(* ---- C68 ---- *)
Theorem C68_first_non_repeated : forall s, (N.of_nat (length s) < 18446744073709551614)%N ->
  Forall (fun c => nat_of_ascii c < 128) s ->
  exists o, first_non_repeated_char s = Ok o /\
    match o with
    | Some i => occurs_once s i /\ forall j, j < i -> ~ occurs_once s j
    | None => forall j, ~ occurs_once s j
    end.
Proof. exact first_non_repeated_ok. Qed.
Print Assumptions C68_first_non_repeated.

Example C68_ex_once : first_non_repeated_char (str "abcab") = Ok (Some 2) /\ occurs_once (str "abcab") 2 /\ ~ occurs_once (str "abcab") 0.
Proof.
  split; [reflexivity|]. split.
  - exists "c"%char. split; [reflexivity|]. intros [|[|[|[|[|[|j]]]]]] H; cbn in H; try discriminate; auto.
  - intros (c & E & H). injection E as <-. discriminate (H 3 eq_refl).
Qed.

(* a byte of 128 or more is a negative char and indexes outside the table *)
Theorem C68_high_byte_refuted : forall s, (exists c, In c s /\ 128 <= nat_of_ascii c) -> first_non_repeated_char s = UB.
Proof. exact first_non_repeated_ub. Qed.
Print Assumptions C68_high_byte_refuted.

Example C68_example :
  first_non_repeated_char (str "abacbd") = Ok (Some 3) /\ first_non_repeated_char (str "xyxy") = Ok None /\
  first_non_repeated_char [] = Ok None.
Proof. vm_compute. auto. Qed.

(* ---- C69 ---- *)
(* the result is a rotation of the text: it starts where the suffix is smallest (the end of the
   text counting as larger than every element) *)
Theorem C69_rotation : forall (A : Type) (eqb ltb : A -> A -> bool) (s : list A),
  (forall x y, eqb x y = true <-> x = y) -> strict_order ltb -> s <> [] ->
  exists p, p < length s /\ lexicographically_canonicalize eqb ltb s = Ok (rotation s p) /\
    forall j, j < length s -> j <> p -> precedes ltb s p j.
Proof.
  intros A eqb ltb s He Ho Hs. pose proof (canon_ok eqb ltb He Ho s Hs) as H. apply holds_ex in H.
  destruct H as (t & E & p & H1 & -> & H2). eauto.
Qed.
Print Assumptions C69_rotation.

Example C69_ex_rotation : lexicographically_canonicalize Ascii.eqb char_ltb (str "baab") = Ok (str "aabb") /\ rotation (str "baab") 1 = str "aabb" /\
  precedes char_ltb (str "baab") 1 2.
Proof.
  split; [vm_compute; reflexivity|]. split; [reflexivity|]. exists 1, "a"%char. split; [reflexivity|].
  split; [intros [|i] H; [reflexivity|lia]|]. right. exists "b"%char. auto.
Qed.

Theorem C69_unique_smallest : forall (A : Type) (eqb ltb : A -> A -> bool) a m b,
  (forall x y, eqb x y = true <-> x = y) -> strict_order ltb -> (forall x, In x (a ++ b) -> ltb m x = true) ->
  lexicographically_canonicalize eqb ltb (a ++ m :: b) = Ok (m :: b ++ a).
Proof.
  intros A eqb ltb a m b He Ho Hm.
  destruct (C69_rotation A eqb ltb (a ++ m :: b) He Ho) as (p & Hp & -> & Hpr).
  { destruct a; discriminate. }
  destruct (Nat.eq_dec p (length a)) as [->|Hne].
  - f_equal. unfold rotation. now rewrite skipn_app_len, firstn_app_len.
  - exfalso. rewrite app_length in *. cbn [length] in *. specialize (Hpr (length a) ltac:(lia) ltac:(auto)).
    destruct Hpr as (k & x & H1 & H2 & H3).
    assert (Hm0 : nth_error (a ++ m :: b) (length a) = Some m).
    { rewrite nth_error_app2, Nat.sub_diag by lia. reflexivity. }
    assert (Hx : forall y, nth_error (a ++ m :: b) p = Some y -> ltb m y = true).
    { intros y Hy. apply Hm. apply in_or_app. destruct (Nat.lt_ge_cases p (length a)) as [Hlt|Hge].
      - rewrite nth_error_app1 in Hy by lia. left. eapply nth_error_In; eauto.
      - rewrite nth_error_app2 in Hy by lia. destruct (p - length a) as [|q] eqn:Eq; [lia|]. right.
        eapply nth_error_In; eauto. }
    destruct Ho as (Hirr & Htr & _).
    destruct k as [|k].
    + rewrite Nat.add_0_r in *. specialize (Hx x H1). destruct H3 as [H3|(y & Hy & Hlt)].
      * rewrite app_length in H3; cbn [length] in H3; lia.
      * replace y with m in Hlt by congruence. pose proof (Htr _ _ _ Hx Hlt) as X. rewrite Hirr in X. discriminate.
    + specialize (H2 0 ltac:(lia)). rewrite !Nat.add_0_r, Hm0 in H2. apply Hx in H2. rewrite Hirr in H2. discriminate.
Qed.
Print Assumptions C69_unique_smallest.

Example C69_ex_smallest : lexicographically_canonicalize Nat.eqb Nat.ltb [3; 2; 1; 3; 2] = Ok [1; 3; 2; 3; 2].
Proof. vm_compute. reflexivity. Qed.

(* then it is the least rotation, and the same for every rotation of the text *)
Theorem C69_least : forall (A : Type) (eqb ltb : A -> A -> bool) a m b,
  (forall x y, eqb x y = true <-> x = y) -> strict_order ltb -> (forall x, In x (a ++ b) -> ltb m x = true) ->
  forall k, k < length (a ++ m :: b) ->
    lex_le ltb (m :: b ++ a) (rotation (a ++ m :: b) k) /\
    lexicographically_canonicalize eqb ltb (rotation (a ++ m :: b) k) =
    lexicographically_canonicalize eqb ltb (a ++ m :: b).
Proof.
  intros A eqb ltb a m b He Ho Hm k Hk. rewrite (C69_unique_smallest A eqb ltb a m b He Ho Hm).
  assert (X : exists c d, rotation (a ++ m :: b) k = c ++ m :: d /\ d ++ c = b ++ a).
  { unfold rotation. destruct (Nat.le_gt_cases k (length a)) as [H|H].
    - exists (skipn k a), (b ++ firstn k a). split.
      + rewrite skipn_app, firstn_app. replace (k - length a) with 0 by lia. cbn [firstn skipn]. rewrite app_nil_r.
        rewrite <- app_assoc. reflexivity.
      + rewrite <- app_assoc, firstn_skipn. reflexivity.
    - exists (skipn (k - length a - 1) b ++ a), (firstn (k - length a - 1) b). split.
      + rewrite skipn_app, firstn_app, (skipn_all2 a), (firstn_all2 a) by lia. cbn [app].
        destruct (k - length a) as [|j] eqn:Ej; [lia|]. cbn [skipn firstn]. rewrite Nat.sub_succ, Nat.sub_0_r.
        rewrite <- app_assoc. reflexivity.
      + rewrite app_assoc, firstn_skipn. reflexivity. }
  destruct X as (c & d & -> & E). split.
  - destruct c as [|x c]; cbn [app lex_le].
    + rewrite app_nil_r in E. subst d. right. split; auto.
      assert (R : forall l, lex_le ltb l l) by (induction l; cbn; auto). apply R.
    + left. apply Hm. apply in_or_app. assert (Hin : In x (b ++ a)) by (rewrite <- E; apply in_or_app; right; now left).
      apply in_app_or in Hin. tauto.
  - rewrite (C69_unique_smallest A eqb ltb c m d He Ho); [now rewrite E|].
    intros x Hx. apply Hm. apply in_or_app. assert (Hin : In x (b ++ a)).
    { rewrite <- E. apply in_or_app. apply in_app_or in Hx. tauto. }
    apply in_app_or in Hin. tauto.
Qed.
Print Assumptions C69_least.

Example C69_ex_least : let s := [3; 2; 1; 3] in map (rotation s) [0; 1; 2; 3] = [[3; 2; 1; 3]; [2; 1; 3; 3]; [1; 3; 3; 2]; [3; 3; 2; 1]] /\
  map (fun k => lexicographically_canonicalize Nat.eqb Nat.ltb (rotation s k)) [0; 1; 2; 3] = repeat (Ok [1; 3; 3; 2]) 4.
Proof. vm_compute. auto. Qed.

(* when the smallest element occurs twice it is neither: two rotations of one word get
   different results, and "aba" is not the least rotation of itself *)
Theorem C69_not_canonical_refuted :
  rotation (str "aba") 1 = str "baa" /\ rotation (str "aba") 2 = str "aab" /\
  lexicographically_canonicalize Ascii.eqb char_ltb (str "aba") = Ok (str "aba") /\
  lexicographically_canonicalize Ascii.eqb char_ltb (str "baa") = Ok (str "aab") /\
  ~ lex_le char_ltb (str "aba") (str "aab").
Proof.
  repeat split; try (vm_compute; reflexivity).
  cbn. intros [H|(_ & [H|(H & _)])]; vm_compute in H; discriminate.
Qed.
Print Assumptions C69_not_canonical_refuted.
Theorem C69_empty_refuted : forall (A : Type) (eqb ltb : A -> A -> bool),
  lexicographically_canonicalize eqb ltb [] = UB.
Proof. reflexivity. Qed.
Print Assumptions C69_empty_refuted.

Example C69_example :
  lexicographically_canonicalize Ascii.eqb char_ltb (str "cdabce") = Ok (str "abcecd") /\
  lexicographically_canonicalize Ascii.eqb char_ltb (str "xabaab") = Ok (str "aabxab") /\
  strict_order char_ltb.
Proof.
  split; [reflexivity|]. split; [reflexivity|]. unfold char_ltb. split; [intros; apply Nat.ltb_irrefl|]. split.
  - intros x y z. rewrite !Nat.ltb_lt. lia.
  - intros x y. rewrite !Nat.ltb_ge. intros. rewrite <- (ascii_nat_embedding x), <- (ascii_nat_embedding y).
    f_equal. lia.
Qed.
