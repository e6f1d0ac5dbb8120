(* Properties C41, C42, C65, C66: alignment, runs of consecutive values, small text edits,
   and the field checkers used with parse. *)
From Verif Require Import Base Split_Model Split_Proofs Edit_Model Edit_Spec Edit_Props Codec_Model Codec_Spec
  Codec_Props Match_Model Match_Props Num_Model Num_Spec Num_Props Parse_Model Parse_Spec Parse_Proofs Parse_Props
  Text_Model Text_Spec Text_Proofs.
Local Open Scope nat_scope.

(* ---- C41 ---- *)
Theorem C41_wide_text : forall width pad s, width <= length s ->
  left_align width pad s = s /\ right_align width pad s = s /\ center width pad s = s.
Proof.
  intros w c s H. unfold left_align, right_align, center.
  destruct (Nat.leb_spec w (length s)); [auto|lia].
Qed.
Print Assumptions C41_wide_text.

Example C41_wide_example : left_align 3 "." (str "abcd") = str "abcd" /\ right_align 4 "." (str "abcd") = str "abcd" /\ center 0 "." (str "abcd") = str "abcd".
Proof. auto. Qed.

Theorem C41_left_right : forall width pad s, length s <= width -> exists k, k + length s = width /\
  left_align width pad s = s ++ repeat pad k /\ right_align width pad s = repeat pad k ++ s.
Proof.
  intros w c s H. exists (w - length s). split; [lia|]. unfold left_align, right_align.
  destruct (Nat.leb_spec w (length s)); auto.
  replace (w - length s) with 0 by lia. cbn [repeat]. now rewrite app_nil_r.
Qed.
Print Assumptions C41_left_right.

Example C41_left_right_example : left_align 6 "." (str "abc") = str "abc..." /\ right_align 6 "." (str "abc") = str "...abc" /\ left_align 2 "." [] = str "..".
Proof. auto. Qed.

Theorem C41_center : forall width pad s, length s <= width -> exists a b,
  center width pad s = repeat pad a ++ s ++ repeat pad b /\ a + length s + b = width /\ a <= b <= a + 1.
Proof.
  intros w c s H. unfold center. destruct (Nat.leb_spec w (length s)).
  - exists 0, 0. cbn [repeat app]. rewrite app_nil_r. repeat split; auto; lia.
  - pose proof (half_split (w - length s)).
    exists (Nat.div2 (w - length s)), (Nat.div2 (w - length s) + (if Nat.odd (w - length s) then 1 else 0)).
    split; auto. destruct (Nat.odd (w - length s)); lia.
Qed.
Print Assumptions C41_center.

Example C41_center_example : center 7 "." (str "abc") = str "..abc.." /\ center 8 "." (str "abc") = str "..abc...".
Proof. auto. Qed.

(* hence the width is exact *)
Theorem C41_width : forall width pad s,
  length (left_align width pad s) = Nat.max width (length s) /\
  length (right_align width pad s) = Nat.max width (length s) /\
  length (center width pad s) = Nat.max width (length s).
Proof.
  intros w c s. destruct (Nat.le_gt_cases (length s) w) as [H|H].
  - destruct (C41_left_right w c s H) as (k & Hk & -> & ->).
    destruct (C41_center w c s H) as (a & b & -> & Hab & _).
    rewrite !app_length, !repeat_length. lia.
  - destruct (C41_wide_text w c s ltac:(lia)) as (-> & -> & ->). lia.
Qed.
Print Assumptions C41_width.

Example C41_example :
  center 6 "*" (str "abc") = str "*abc**" /\ left_align 5 "." (str "ab") = str "ab..." /\
  right_align 5 "." (str "ab") = str "...ab" /\ center 2 "*" (str "abc") = str "abc".
Proof. repeat split; reflexivity. Qed.

(* ---- C42 ---- *)
Theorem C42_find_exactly : forall (A : Type) (p : A -> bool) n s a,
  1 <= n -> a <= length s -> (N.of_nat (length s) < 2 ^ 32)%N ->
  exists r, find_exactly_n p (N.of_nat n) s a false = Ok r /\
    (first_window p s n a r \/ (r = (length s, length s) /\ forall r', ~ first_window p s n a r')).
Proof. intros A p n s a H1 H2 H3. apply holds_ex. now apply find_exactly_ok. Qed.
Print Assumptions C42_find_exactly.

Example C42_find_exactly_example : find_exactly_n is_digit 2 (str "1a2345") 0 false = Ok (2, 4) /\ first_window is_digit (str "1a2345") 2 0 (2, 4) /\
  find_exactly_n is_digit 5 (str "1a2345") 0 false = Ok (6, 6).
Proof.
  split; [vm_compute; reflexivity|]. split; [|vm_compute; reflexivity].
  split; [cbn; lia|]. split; [reflexivity|]. split.
  - intros [|[|[|[|j]]]] H; cbn in H; try lia; eexists; split; reflexivity.
  - intros k H W. cbn in H. destruct (W 1) as (x & E & D); [lia|]. injection E as <-. discriminate.
Qed.

Theorem C42_find_atleast : forall (A : Type) (p : A -> bool) n s a,
  1 <= n -> a <= length s -> (N.of_nat (length s) < 2 ^ 31)%N ->
  exists r, find_atleast_n p (N.of_nat n) s a = Ok r /\
    (first_run p s n a r \/ (r = (length s, length s) /\ forall r', ~ first_run p s n a r')).
Proof. intros A p n s a H1 H2 H3. apply holds_ex. now apply find_atleast_ok. Qed.
Print Assumptions C42_find_atleast.

Example C42_find_atleast_example : find_atleast_n is_digit 2 (str "1a234b56") 0 = Ok (2, 5) /\ find_atleast_n is_digit 4 (str "1a234b56") 0 = Ok (8, 8).
Proof. vm_compute. auto. Qed.

(* "none" really means none: a window (a run that is long enough) gives a first one *)
Theorem C42_spec_adequate : forall (A : Type) (p : A -> bool) n s a, 1 <= n ->
  ((exists i, a <= i /\ window p s n i) <-> exists r, first_window p s n a r) /\
  ((exists i, a <= i /\ window p s n i) <-> exists r, first_run p s n a r).
Proof.
  intros A p n s a Hn.
  assert (Dsat : forall j, sat p s j \/ ~ sat p s j).
  { intros j. destruct (nth_error s j) as [x|] eqn:E.
    - rewrite (sat_nth p s j x E). destruct (p x); [now left|now right].
    - right. intros (y & Hy & _). congruence. }
  assert (Dwin : forall k i, window p s k i \/ ~ window p s k i).
  { induction k as [|k IH]; intros i.
    - left. intros j Hj. lia.
    - destruct (Dsat i) as [Hi|Hi].
      + destruct (IH (S i)) as [Hk|Hk].
        * left. intros j Hj. destruct (Nat.eq_dec j i) as [->|]; auto. apply Hk. lia.
        * right. intros Hw. apply Hk. intros j Hj. apply Hw. lia.
      + right. intros Hw. apply Hi, Hw. lia. }
  assert (W : (exists i, a <= i /\ window p s n i) -> exists r, first_window p s n a r).
  { intros (i & Hai & Hw).
    assert (Hk : forall d, (exists k, a <= k < a + d /\ window p s n k /\ forall k', a <= k' < k -> ~ window p s n k') \/
                           (forall k, a <= k < a + d -> ~ window p s n k)).
    { induction d as [|d IHd]; [right; intros; lia|]. destruct IHd as [(k & Hk & H1 & H2)|Hno].
      - left. exists k. split; [lia|auto].
      - destruct (Dwin n (a + d)) as [Hd|Hd].
        + left. exists (a + d). split; [lia|]. split; auto.
        + right. intros k Hk. destruct (Nat.eq_dec k (a + d)) as [->|]; auto. apply Hno; lia. }
    destruct (Hk (S (i - a))) as [(k & Hk1 & H1 & H2)|Hno].
    - exists (k, k + n). unfold first_window. cbn [fst snd]. repeat split; auto; lia.
    - exfalso. apply (Hno i); auto. lia. }
  split; split.
  - exact W.
  - intros (r & H1 & _ & H2 & _). eauto.
  - intros Hex. destruct (W Hex) as ([i j] & H1 & H2 & H3 & H4). cbn [fst snd] in *.
    (* the run around the first window starts there *)
    assert (Hend : exists e, i + n <= e /\ (forall k, i <= k < e -> sat p s k) /\ ~ sat p s e).
    { assert (Hd : forall d e, length s - e <= d -> i + n <= e -> (forall k, i <= k < e -> sat p s k) ->
        exists e, i + n <= e /\ (forall k, i <= k < e -> sat p s k) /\ ~ sat p s e).
      { induction d as [|d IHd]; intros e Hde Hie Hall.
        - exists e. split; auto. split; auto. intros Hs. apply sat_lt in Hs. lia.
        - destruct (Dsat e) as [Hs|Hs]; [|exists e; auto].
          pose proof (sat_lt p s e Hs).
          apply (IHd (S e)); try lia. intros k Hk. destruct (Nat.eq_dec k e) as [->|]; auto. apply Hall; lia. }
      apply (Hd (length s) (i + n)); try lia. exact H3. }
    destruct Hend as (e & He & Hall & Hne). exists (i, e). unfold first_run. cbn [fst snd]. split; [|split; [lia|]].
    + unfold run. repeat split; auto; try lia.
      * intros k Hk. apply Hall. lia.
      * destruct (Nat.eq_dec i a) as [|Hia]; [now left|right]. intros Hs. apply (H4 (i - 1)); [lia|].
        intros k Hk. destruct (Nat.eq_dec k (i - 1)) as [->|]; auto. apply Hall. lia.
    + intros i' j' (Hr1 & _ & Hr2 & _) Hij. destruct (Nat.le_gt_cases i i'); auto. exfalso.
      apply (H4 i'); [lia|]. intros k Hk. apply Hr2. lia.
  - intros (r & (H1 & _ & H2 & _) & H3 & _). exists (fst r). split; auto. intros k Hk. apply H2. lia.
Qed.
Print Assumptions C42_spec_adequate.

Example C42_adequate_example : window is_digit (str "a12") 2 1 /\ ~ window is_digit (str "a12") 2 0.
Proof.
  split.
  - intros [|[|[|j]]] H; try lia; eexists; split; reflexivity.
  - intros W. destruct (W 0) as (x & E & D); [lia|]. injection E as <-. discriminate.
Qed.

Theorem C42_split_on_consecutive : forall (A : Type) (p : A -> bool) n s,
  1 <= n -> (N.of_nat (length s) < 2 ^ 32)%N ->
  exists l, successive (first_window p s n) 0 l /\
    split_on_consecutive (N.of_nat n) p s false = Ok (l, length l).
Proof.
  intros A p n s Hn Hl. unfold split_on_consecutive.
  destruct (N.eqb_spec (N.of_nat n) 0); [lia|]. apply split_found_ok.
  - intros a Ha. now apply find_exactly_ok.
  - intros a r Hr. eapply first_window_in; eauto.
  - intros a. apply first_window_unique.
Qed.
Print Assumptions C42_split_on_consecutive.

Example C42_consecutive_example : split_on_consecutive 2 is_digit (str "123x45678") false = Ok ([(0, 2); (4, 6); (6, 8)], 3).
Proof. vm_compute. reflexivity. Qed.

Theorem C42_split_on_consecutive_type : forall n t m s,
  1 <= n -> (N.of_nat (length s) < 2 ^ 31)%N ->
  exists l, successive (first_found m (type_pred t) s n) 0 l /\
    split_on_consecutive_type (N.of_nat n) t m s = Ok (l, length l).
Proof.
  intros n t m s Hn Hl. unfold split_on_consecutive_type.
  destruct (N.eqb_spec (N.of_nat n) 0); [lia|]. apply split_found_ok.
  - intros a Ha. now apply find_n_values_ok.
  - intros a r Hr. eapply first_found_in; eauto.
  - intros a. apply first_found_unique.
Qed.
Print Assumptions C42_split_on_consecutive_type.

Example C42_type_example : split_on_consecutive_type 2 digits atleast_n (str "123x45678") = Ok ([(0, 3); (4, 9)], 2) /\
  split_on_consecutive_type 2 digits exactly_n (str "123x45678") = Ok ([(0, 2); (4, 6); (6, 8)], 3).
Proof. vm_compute. auto. Qed.

(* the bounded versions stop after n + 1 results *)
Theorem C42_split_on_consecutive_nm : forall (A : Type) (p : A -> bool) n m s,
  1 <= n -> 1 <= m -> (N.of_nat (length s) < 2 ^ 32)%N ->
  exists l, successive (first_window p s m) 0 l /\
    split_on_consecutive_nm (N.of_nat n) (N.of_nat m) p s = Ok (firstn (n + 1) l, Nat.min (n + 1) (length l)).
Proof.
  intros A p n m s Hn Hm Hl. unfold split_on_consecutive_nm.
  destruct (N.eqb_spec (N.of_nat n) 0); [lia|]. rewrite Nat.add_1_r. apply split_found_n_ok.
  - intros a Ha. now apply find_exactly_ok.
  - intros a r Hr. eapply first_window_in; eauto.
  - intros a. apply first_window_unique.
Qed.
Print Assumptions C42_split_on_consecutive_nm.

Example C42_nm_example : split_on_consecutive_nm 2 2 is_digit (str "11x22y33z44") = Ok ([(0, 2); (3, 5); (6, 8)], 3) /\
  split_on_consecutive_nm 9 2 is_digit (str "11x22") = Ok ([(0, 2); (3, 5)], 2).
Proof. vm_compute. auto. Qed.

Theorem C42_split_on_consecutive_n : forall n m t mode s,
  1 <= n -> 1 <= m -> (N.of_nat (length s) < 2 ^ 31)%N ->
  exists l, successive (first_found mode (type_pred t) s m) 0 l /\
    split_on_consecutive_n (N.of_nat n) (N.of_nat m) t mode s = Ok (firstn (n + 1) l, Nat.min (n + 1) (length l)).
Proof.
  intros n m t mode s Hn Hm Hl. unfold split_on_consecutive_n.
  destruct (N.eqb_spec (N.of_nat n) 0); [lia|]. rewrite Nat.add_1_r. apply split_found_n_ok.
  - intros a Ha. now apply find_n_values_ok.
  - intros a r Hr. eapply first_found_in; eauto.
  - intros a. apply first_found_unique.
Qed.
Print Assumptions C42_split_on_consecutive_n.

Example C42_n_example : split_on_consecutive_n 1 2 digits atleast_n (str "111x22y33") = Ok ([(0, 3); (4, 6)], 2).
Proof. vm_compute. reflexivity. Qed.

(* so asking for at most one result can produce two *)
Theorem C42_at_most_n_refuted :
  split_on_consecutive_nm 1 2 is_digit (str "12a34b56") = Ok ([(0, 2); (3, 5)], 2).
Proof. reflexivity. Qed.
Print Assumptions C42_at_most_n_refuted.

Theorem C42_match_exactly : forall (A : Type) (p : A -> bool) n s a,
  1 <= n -> a <= length s -> (N.of_nat (length s) < 2 ^ 32)%N ->
  exists b, match_exactly_n p (N.of_nat n) s a = Ok b /\ (b = true <-> window p s n a).
Proof. intros A p n s a H1 H2 H3. apply holds_ex. now apply match_exactly_ok. Qed.
Print Assumptions C42_match_exactly.

Example C42_match_exactly_example : match_exactly_n is_digit 2 (str "a12b") 1 = Ok true /\ match_exactly_n is_digit 3 (str "a12b") 1 = Ok false.
Proof. vm_compute. auto. Qed.

Theorem C42_match_atleast : forall (A : Type) (p : A -> bool) n s a,
  a <= length s -> (N.of_nat (length s) < 2 ^ 32)%N ->
  exists b, match_atleast_n p (N.of_nat n) s a = Ok b /\
    (b = true <-> exists k, n <= k /\ a + k < length s /\ window p s k a /\ ~ sat p s (a + k)).
Proof. intros A p n s a H2 H3. apply holds_ex. now apply match_atleast_ok. Qed.
Print Assumptions C42_match_atleast.

Example C42_match_atleast_example : match_atleast_n is_digit 2 (str "a123b") 1 = Ok true /\ match_atleast_n is_digit 4 (str "a123b") 1 = Ok false.
Proof. vm_compute. auto. Qed.

(* match_atleast refuses a range that consists of matching elements only *)
Theorem C42_match_atleast_refuted : forall (A : Type) (p : A -> bool) s n,
  (N.of_nat (length s) < 2 ^ 32)%N -> Forall (fun x => p x = true) s ->
  match_atleast_n p (N.of_nat n) s 0 = Ok false.
Proof.
  intros A p s n Hl Hp. destruct (C42_match_atleast A p n s 0 ltac:(lia) Hl) as (b & E & Hb).
  rewrite E. f_equal. destruct b; auto. exfalso.
  destruct (proj1 Hb eq_refl) as (k & _ & Hk & _ & Hns). apply Hns.
  destruct (nth_error s (0 + k)) as [x|] eqn:En.
  - exists x. split; auto. rewrite Forall_forall in Hp. apply Hp. eapply nth_error_In; eauto.
  - apply nth_error_None in En. lia.
Qed.
Print Assumptions C42_match_atleast_refuted.

Example C42_match_atleast_refuted_ex : match_atleast_n (Nat.eqb 1) 2 [1; 1; 1] 0 = Ok false.
Proof. vm_compute. reflexivity. Qed.

(* stateful_predicate = true: the iterator is moved past the end when nothing matches *)
Theorem C42_stateful_refuted : forall (A : Type) (p : A -> bool) n s a,
  1 <= n -> a < length s -> (N.of_nat (length s) < 2 ^ 32)%N -> n <= length s - a ->
  (forall j, a <= j -> ~ sat p s j) -> find_exactly_n p (N.of_nat n) s a true = UB.
Proof. exact @find_exactly_stateful_ub. Qed.
Print Assumptions C42_stateful_refuted.

Example C42_stateful_refuted_ex : find_exactly_n (Nat.eqb 1) 2 [3; 4; 5] 0 true = UB.
Proof. vm_compute. reflexivity. Qed.

(* a distance of 2^32 is converted to 0: nothing is found in a range that long *)
Theorem C42_long_range_refuted : forall (A : Type) (p : A -> bool) n s,
  1 <= n -> N.of_nat (length s) = (2 ^ 32)%N ->
  find_exactly_n p (N.of_nat n) s 0 false = Ok (length s, length s) /\
  find_atleast_n p (N.of_nat n) s 0 = Ok (length s, length s).
Proof.
  intros A p n s Hn Hl. unfold find_exactly_n, find_atleast_n, distance32.
  rewrite Nat.sub_0_r, Hl, N.mod_same by discriminate.
  destruct (N.ltb_spec 0 (N.of_nat n)); [auto|lia].
Qed.
Print Assumptions C42_long_range_refuted.

Example C42_example :
  split_on_consecutive 3 is_digit (str "12ab3456c78901234") false = Ok ([(4, 7); (9, 12); (12, 15)], 3) /\
  split_on_consecutive_type 3 digits atleast_n (str "12ab3456c789012") = Ok ([(4, 8); (9, 15)], 2) /\
  find_n_consecutive 2 lowercase_letters atleast_n (str "aBcdE") 0 = Ok (2, 4) /\
  match_n_consecutive 2 digits exactly_n (str "12a") 0 = Ok true /\
  match_n_consecutive 2 digits atleast_n (str "12") 0 = Ok false.
Proof. repeat split; reflexivity. Qed.

(* ---- C65 ---- *)
Theorem C65_character_classes : forall c,
  (is_lowercase_letter c = true <-> In c lower_letters) /\
  (is_uppercase_letter c = true <-> In c upper_letters) /\
  (is_letter c = true <-> In c (upper_letters ++ lower_letters)) /\
  (is_digit c = true <-> In c decimal_digits) /\
  (is_letter_or_digit c = true <-> In c (upper_letters ++ lower_letters ++ decimal_digits)) /\
  (is_hex_digit c = true <-> In c (decimal_digits ++ str "abcdef" ++ str "ABCDEF")).
Proof.
  assert (M : forall c l, In c l <-> existsb (Ascii.eqb c) l = true).
  { intros c l. rewrite existsb_exists. split.
    - intros H. exists c. split; auto. apply Ascii.eqb_refl.
    - intros (d & H & E). apply Ascii.eqb_eq in E. now subst. }
  assert (D : forall f l, forallb (fun c => Bool.eqb (f c) (existsb (Ascii.eqb c) l)) (map ascii_of_nat (seq 0 256)) = true ->
              forall c, f c = true <-> In c l).
  { intros f l H c. rewrite M. rewrite forallb_forall in H. specialize (H c).
    assert (Hc : In c (map ascii_of_nat (seq 0 256))).
    { rewrite <- (ascii_nat_embedding c). apply in_map, in_seq. pose proof (nat_ascii_bounded c). lia. }
    specialize (H Hc). apply eqb_prop in H. now rewrite H. }
  intros c. repeat split; try apply D; try reflexivity; apply D; reflexivity.
Qed.
Print Assumptions C65_character_classes.

Example C65_classes_example : is_letter "Q" = true /\ is_letter "@" = false /\ is_hex_digit "f" = true /\ is_hex_digit "g" = false /\
  is_letter_or_digit "_" = false /\ is_letter (ascii_of_nat 228) = false.
Proof. vm_compute. auto 9. Qed.

Theorem C65_is_all : forall p s, exists b, is_all p s = Ok b /\ (b = true <-> Forall (fun c => p c = true) s).
Proof.
  intros p s. apply holds_ex. unfold is_all.
  apply loop_rule with (I := fun i => i <= length s /\ Forall (fun c => p c = true) (firstn i s))
                       (mu := fun i => length s - i).
  - intros i (Hi & Hf). destruct (Nat.ltb_spec i (length s)) as [Hl|Hl].
    + destruct (rd_ok s i Hl) as (x & E & N). rewrite E. cbn [bind].
      destruct (p x) eqn:Px; cbn [negb holds].
      * split; [|lia]. split; [lia|]. rewrite (firstn_S_nth _ _ _ N). apply Forall_app. auto.
      * split; [discriminate|]. intros H. rewrite Forall_forall in H.
        rewrite (H x) in Px; [discriminate|]. eapply nth_error_In; eauto.
    + cbn [holds]. split; auto. intros _. now rewrite firstn_all2 in Hf.
  - split; [lia|constructor].
  - lia.
Qed.
Print Assumptions C65_is_all.

Example C65_is_all_example : is_all is_digit (str "0129") = Ok true /\ is_all is_digit (str "01x9") = Ok false /\ is_all is_digit [] = Ok true.
Proof. vm_compute. auto. Qed.

Theorem C65_remaining_string : forall i s,
  (i < length s -> forall e, exists a b, s = a ++ b /\ length a = i /\ remaining_string i s e = b) /\
  (length s <= i -> remaining_string i s true = [] /\ remaining_string i s false = s).
Proof.
  intros i s. unfold remaining_string. split; intros H; destruct (Nat.ltb_spec i (length s)); try lia; auto.
  intros _. exists (firstn i s), (skipn i s). rewrite firstn_skipn, firstn_length. repeat split; try lia.
  apply firstn_all2. rewrite skipn_length. lia.
Qed.
Print Assumptions C65_remaining_string.

Example C65_remaining_example : remaining_string 3 (str "abcde") true = str "de" /\ remaining_string 5 (str "abcde") true = [] /\
  remaining_string 5 (str "abcde") false = str "abcde".
Proof. auto. Qed.

Theorem C65_swap : forall s i j,
  (forall a b, nth_error s i = Some a -> nth_error s j = Some b -> exists t, swap_inplace s i j = Ok t /\
     nth_error t i = Some b /\ nth_error t j = Some a /\
     forall k, k <> i -> k <> j -> nth_error t k = nth_error s k) /\
  (length s <= i \/ length s <= j -> swap_inplace s i j = Ok s).
Proof.
  intros s i j. unfold swap_inplace. split.
  - intros a b Ha Hb. pose proof (nth_error_some_lt _ _ _ Ha). pose proof (nth_error_some_lt _ _ _ Hb).
    destruct (Nat.leb_spec (length s) i); [lia|]. destruct (Nat.leb_spec (length s) j); [lia|].
    rewrite (rd_nth _ _ _ Ha), (rd_nth _ _ _ Hb). cbn [bind]. rewrite wr_ok by lia. cbn [bind].
    rewrite wr_ok by (rewrite upd_length; lia). eexists. split; [reflexivity|].
    split; [|split].
    + destruct (Nat.eq_dec i j) as [->|Hij].
      * rewrite nth_error_upd_same by (rewrite upd_length; lia). congruence.
      * rewrite nth_error_upd_other by auto. now apply nth_error_upd_same.
    + apply nth_error_upd_same. rewrite upd_length. lia.
    + intros k Hi Hj. rewrite !nth_error_upd_other by auto. reflexivity.
  - intros [H|H]; destruct (Nat.leb_spec (length s) i); auto; destruct (Nat.leb_spec (length s) j); auto; lia.
Qed.
Print Assumptions C65_swap.

Example C65_swap_example : swap_inplace (str "abcd") 3 1 = Ok (str "adcb") /\ swap_inplace (str "abcd") 2 2 = Ok (str "abcd") /\
  swap_inplace (str "abcd") 1 4 = Ok (str "abcd").
Proof. vm_compute. auto. Qed.

(* remove: an index past the end changes nothing, the last character is removed *)
Theorem C65_remove_last : forall ov a x, remove_inplace ov (a ++ [x]) (length a) = Ok a.
Proof. intros ov a x. rewrite remove_inplace_ok by auto. now rewrite app_nil_r. Qed.
Print Assumptions C65_remove_last.

Example C65_remove_last_example : remove_inplace true (str "abc") 2 = Ok (str "ab").
Proof. vm_compute. reflexivity. Qed.
Theorem C65_remove_none : forall ov s i, length s <= i -> remove_inplace ov s i = Ok s.
Proof. intros ov s i H. unfold remove_inplace. destruct (Nat.leb_spec (length s) i); [auto|lia]. Qed.
Print Assumptions C65_remove_none.

Example C65_remove_none_example : remove_inplace true (str "abc") 3 = Ok (str "abc") /\ remove_inplace true [] 0 = Ok [].
Proof. vm_compute. auto. Qed.
(* anywhere else the two memcpy ranges overlap; it removes the character if memcpy behaves
   like memmove *)
Theorem C65_remove_refuted : forall a x b, b <> [] -> remove_inplace true (a ++ x :: b) (length a) = UB.
Proof. exact remove_inplace_ub. Qed.
Print Assumptions C65_remove_refuted.

Example C65_remove_refuted_ex : remove_inplace true (str "abc") 1 = UB.
Proof. vm_compute. reflexivity. Qed.
Theorem C65_remove_memmove : forall a x b, remove_inplace false (a ++ x :: b) (length a) = Ok (a ++ b).
Proof. intros a x b. apply remove_inplace_ok. discriminate. Qed.
Print Assumptions C65_remove_memmove.

Example C65_remove_memmove_example : remove_inplace false (str "abcd") 1 = Ok (str "acd").
Proof. vm_compute. reflexivity. Qed.

Theorem C65_insert_end : forall ov s c, insert_inplace ov s (length s) c = Ok (s ++ [c]).
Proof. intros ov s c. pose proof (insert_inplace_ok ov s [] c (fun _ => eq_refl)) as H. now rewrite app_nil_r in H. Qed.
Print Assumptions C65_insert_end.

Example C65_insert_end_example : insert_inplace true (str "ab") 2 "c" = Ok (str "abc") /\ insert_inplace true [] 0 "c" = Ok (str "c").
Proof. vm_compute. auto. Qed.
Theorem C65_insert_refuted :
  (forall a b c, b <> [] -> insert_inplace true (a ++ b) (length a) c = UB) /\
  (forall ov s i c, length s < i -> c <> zero -> insert_inplace ov s i c = UB).
Proof. split; [exact insert_inplace_ub|exact insert_beyond_ub]. Qed.
Print Assumptions C65_insert_refuted.

Example C65_insert_refuted_ex : insert_inplace true (str "ab") 1 "x"%char = UB /\ insert_inplace false (str "ab") 3 "x"%char = UB.
Proof. split; reflexivity. Qed.
Theorem C65_insert_memmove : forall a b c, insert_inplace false (a ++ b) (length a) c = Ok (a ++ c :: b).
Proof. intros a b c. apply insert_inplace_ok. discriminate. Qed.
Print Assumptions C65_insert_memmove.

Example C65_example :
  swap_inplace (str "abc") 0 2 = Ok (str "cba") /\ remaining_string 2 (str "abcde") false = str "cde" /\
  remove_inplace false (str "abc") 1 = Ok (str "ac") /\ remove_inplace true (str "abc") 1 = UB /\
  insert_inplace false (str "ac") 1 "b" = Ok (str "abc") /\ insert_inplace true (str "ab") 2 "c" = Ok (str "abc") /\
  is_all_digits (str "0129") = Ok true /\ is_all_letters (str "ab1") = Ok false.
Proof. repeat split; reflexivity. Qed.

(* ---- C66 ---- *)
Theorem C66_expect : forall s x t, exists b, expect s x t = Ok (b, t) /\ (b = true <-> x = s).
Proof. exact expect_ok. Qed.
Print Assumptions C66_expect.

Example C66_expect_example : expect (str "GET") (str "GET") tt = Ok (true, tt) /\ expect (str "GET") (str "GETX") tt = Ok (false, tt) /\
  expect (str "GET") (str "get") tt = Ok (false, tt).
Proof. vm_compute. auto. Qed.

(* a parse made of expect fields succeeds exactly on the expected fields *)
Theorem C66_parse_expected : forall delims s texts ws, compressed_tokens delims s texts ->
  ((exists ts, parse_values delims s (map (fun w => Target unit (expect w) tt) ws) = Ok (true, ts)) <->
   firstn (length ws) texts = ws).
Proof.
  intros delims s texts ws Hc.
  destruct (Nat.le_gt_cases (length ws) (length texts)) as [Hl|Hl].
  - set (ts := map _ ws). assert (Hts : length ts = length ws) by (unfold ts; apply map_length).
    assert (Hnth : forall i t, nth_error ts i = Some t <-> exists w, nth_error ws i = Some w /\ t = Target unit (expect w) tt).
    { intros i t. unfold ts. rewrite nth_error_map. destruct (nth_error ws i); cbn; split.
      - intros H. injection H as <-. eauto.
      - intros (w & H & ->). congruence.
      - discriminate.
      - intros (w & H & _). discriminate. }
    split.
    + intros (ts' & H). apply (proj1 (C06_success delims s ts texts ts' Hc ltac:(lia))) in H.
      destruct H as (_ & H). apply nth_error_ext. intros i. rewrite nth_error_firstn.
      destruct (Nat.ltb_spec i (length ws)) as [Hi|Hi].
      * destruct (nth_error ws i) as [w|] eqn:Ew; [|apply nth_error_None in Ew; lia].
        destruct (nth_error texts i) as [x|] eqn:Ex; [|apply nth_error_None in Ex; lia].
        destruct (H i _ x (proj2 (Hnth i _) (ex_intro _ w (conj Ew eq_refl))) Ex) as (v & Hv & _).
        cbn [t_conv t_val] in Hv. destruct (expect_ok w x tt) as (b & Eb & Hb). f_equal. apply Hb. congruence.
      * symmetry. now apply nth_error_None.
    + intros H. exists ts. apply (C06_success delims s ts texts ts Hc ltac:(lia)). split; auto.
      intros i t x Ht Hx. pose proof Ht as Ht'. apply Hnth in Ht. destruct Ht as (w & Ew & ->). exists tt.
      cbn [t_conv t_val]. split; [|exact Ht'].
      assert (Hxw : x = w).
      { pose proof (nth_error_firstn texts (length ws) i) as E. rewrite H in E.
        destruct (Nat.ltb_spec i (length ws)); [|apply nth_error_some_lt in Ew; lia]. congruence. }
      subst x. destruct (expect_ok w w tt) as (b & Eb & Hb). rewrite Eb. now rewrite (proj2 Hb eq_refl).
  - split.
    + intros (ts & H). rewrite (C06_too_few_tokens delims s _ texts Hc) in H by (rewrite map_length; lia). discriminate.
    + intros H. assert (length (firstn (length ws) texts) = length ws) by now rewrite H.
      rewrite firstn_length in H0. lia.
Qed.
Print Assumptions C66_parse_expected.

Example C66_parse_example : let w (l : list ascii) := Target unit (expect l) tt in
  parse_values (str " ") (str "GET  / HTTP") [w (str "GET"); w (str "/")] = Ok (true, [w (str "GET"); w (str "/")]) /\
  parse_values (str " ") (str "PUT  / HTTP") [w (str "GET"); w (str "/")] = Ok (false, [w (str "GET"); w (str "/")]).
Proof. repeat split; reflexivity. Qed.

Theorem C66_iexpect : forall s x t,
  Forall (fun c => nat_of_ascii c < 128) s -> Forall (fun c => nat_of_ascii c < 128) x ->
  exists b, iexpect s x t = Ok (b, t) /\ (b = true <-> map upper x = map upper s).
Proof.
  intros s x t Hs Hx. rewrite iexpect_imatch. destruct (C44_imatch s x Hs Hx) as (b & E & Hb).
  exists b. rewrite E. split; auto. rewrite Hb. split; congruence.
Qed.
Print Assumptions C66_iexpect.

Example C66_iexpect_example : iexpect (str "GeT") (str "gEt") tt = Ok (true, tt) /\ iexpect (str "GET") (str "GE") tt = Ok (false, tt).
Proof. vm_compute. auto. Qed.

(* like with a literal pattern is equality; what follows the field in the text plays no role *)
Theorem C66_like_literal : forall pt after x t, Forall (fun c => c <> "*"%char) pt ->
  exists b, like pt after x t = Ok (b, t) /\ (b = true <-> Match_Spec.one_each Ascii.eqb "?"%char pt x).
Proof.
  intros pt after x t H. unfold like.
  destruct (C12_no_star ascii Ascii.eqb Ascii.eqb "*"%char "?"%char Ascii.eqb_eq pt x after H) as (b & E & Hb).
  exists b. rewrite E. auto.
Qed.
Print Assumptions C66_like_literal.

Example C66_like_example : like (str "a?c") (str "|zzz") (str "abc") tt = Ok (true, tt) /\ like (str "a?c") (str "c|") (str "ab") tt = Ok (false, tt).
Proof. vm_compute. auto. Qed.
(* with a star the field's end is not respected *)
Theorem C66_like_refuted :
  like (str "*b") (str "|b") (str "a") tt = Ok (false, tt) /\
  like (str "*bc") [] (str "a") tt = UB /\ like (str "*b*") (str "|x") (str "a") tt = Ok (true, tt).
Proof. repeat split; reflexivity. Qed.
Print Assumptions C66_like_refuted.

(* inrange: accepted exactly when the field converts to a value in [low,hi]; the target is
   written only then *)
Theorem C66_inrange : forall (T : Type) (conv : converter T) (ltb : T -> T -> bool) temp low hi x t b v,
  conv x temp = Ok (b, v) ->
  inrange conv ltb temp low hi x t =
    Ok (if b && negb (ltb v low) && negb (ltb hi v) then (true, v) else (false, t)).
Proof.
  intros T conv ltb temp low hi x t b v E. unfold inrange. rewrite E. cbn [bind].
  destruct b; cbn [negb andb]; auto. destruct (ltb v low); cbn [negb andb]; auto. destruct (ltb hi v); auto.
Qed.
Print Assumptions C66_inrange.

Example C66_inrange_example : inrange (conv_signed t_int n_int) Z.ltb 0%Z (-5)%Z 5%Z (str "-5") 3%Z = Ok (true, (-5)%Z) /\
  inrange (conv_signed t_int n_int) Z.ltb 0%Z (-5)%Z 5%Z (str "6") 3%Z = Ok (false, 3%Z) /\
  inrange (conv_signed t_int n_int) Z.ltb 0%Z (-5)%Z 5%Z (str "x") 3%Z = Ok (false, 3%Z).
Proof. vm_compute. auto. Qed.

Theorem C66_inrange_uint : forall temp low hi x t, exists b v,
  inrange (conv_unsigned t_uint n_uint) Z.ltb temp low hi x t = Ok (b, v) /\
  (b = true <-> (unsigned_text x v /\ v <= 4294967295 /\ low <= v <= hi)%Z) /\ (b = false -> v = t) /\
  (b = false -> forall w, unsigned_text x w -> (w <= 4294967295)%Z -> ~ (low <= w <= hi)%Z).
Proof.
  intros temp low hi x t. destruct (C18_unsigned_exact x) as (_ & ((o & E) & Hv) & _).
  destruct o as [v|].
  - assert (C : conv_unsigned t_uint n_uint x temp = Ok (true, v)) by (unfold conv_unsigned; rewrite E; reflexivity).
    rewrite (C66_inrange _ _ Z.ltb temp low hi x t _ _ C). cbn [andb].
    destruct (proj1 (Hv v) E) as (Ht & Hm).
    destruct (Z.ltb_spec v low); cbn [negb andb].
    + exists false, t. split; auto. split; [|split; auto].
      * split; [discriminate|]. intros (Ht' & Hm' & Hr). assert (parse_unsigned t_uint n_uint x = Ok (Some t)) by (apply Hv; auto).
        rewrite E in H0. injection H0 as <-. lia.
      * intros _ w Hw Hwm Hr. assert (parse_unsigned t_uint n_uint x = Ok (Some w)) by (apply Hv; auto).
        rewrite E in H0. injection H0 as <-. lia.
    + destruct (Z.ltb_spec hi v); cbn [negb].
      * exists false, t. split; auto. split; [|split; auto].
        -- split; [discriminate|]. intros (Ht' & Hm' & Hr). assert (parse_unsigned t_uint n_uint x = Ok (Some t)) by (apply Hv; auto).
           rewrite E in H1. injection H1 as <-. lia.
        -- intros _ w Hw Hwm Hr. assert (parse_unsigned t_uint n_uint x = Ok (Some w)) by (apply Hv; auto).
           rewrite E in H1. injection H1 as <-. lia.
      * exists true, v. split; auto. split; [|split; discriminate]. split; auto.
  - assert (C : conv_unsigned t_uint n_uint x temp = Ok (false, temp)) by (unfold conv_unsigned; rewrite E; reflexivity).
    rewrite (C66_inrange _ _ Z.ltb temp low hi x t _ _ C). cbn [andb].
    exists false, t. split; auto. split; [|split; auto].
    + split; [discriminate|]. intros (Ht' & Hm' & Hr). assert (parse_unsigned t_uint n_uint x = Ok (Some t)) by (apply Hv; auto).
      congruence.
    + intros _ w Hw Hwm Hr. assert (parse_unsigned t_uint n_uint x = Ok (Some w)) by (apply Hv; auto). congruence.
Qed.
Print Assumptions C66_inrange_uint.

Example C66_inrange_uint_example : inrange (conv_unsigned t_uint n_uint) Z.ltb 0%Z 10%Z 4294967295%Z (str "4294967295") 3%Z = Ok (true, 4294967295%Z) /\
  inrange (conv_unsigned t_uint n_uint) Z.ltb 0%Z 0%Z 10%Z (str "4294967296") 3%Z = Ok (false, 3%Z).
Proof. vm_compute. auto. Qed.

Lemma trimmed_ext p q : (forall c, p c = q c) -> forall (s t : list ascii),
  (trimmed_left p s t -> trimmed_left q s t) /\ (trimmed_right p s t -> trimmed_right q s t).
Proof.
  intros H s t. split; intros (u & E & F & G); exists u; (split; [auto|split]).
  - eapply Forall_impl; [|exact F]. cbv beta. intros a. now rewrite H.
  - intros x t' Et. rewrite <- H. eauto.
  - eapply Forall_impl; [|exact F]. cbv beta. intros a. now rewrite H.
  - intros t' x Et. rewrite <- H. eauto.
Qed.

(* trim / trim_leading / trim_trailing: the target receives the converted trimmed text *)
Theorem C66_trim : forall (T : Type) (conv : converter T) rem x t, exists mid y,
  trimmed_left (is_delim rem) x mid /\ trimmed_right (is_delim rem) mid y /\
  trim_to conv 0 rem x t = conv y t /\ trim_to conv 1 rem x t = conv mid t /\
  trim_string 0 rem x = (fun _ => Ok (true, y)) /\ trim_string 1 rem x = (fun _ => Ok (true, mid)).
Proof.
  intros T conv rem x t.
  pose proof (trimmed_ext (multiple_char_delimiter_predicate rem) (is_delim rem) (mcdp_mem rem)) as He.
  destruct (C10_remove_leading ascii (multiple_char_delimiter_predicate rem) x) as (mid & E1 & H1).
  destruct (C10_remove_leading_trailing ascii (multiple_char_delimiter_predicate rem) x) as (mid' & y & E2 & H2 & H3).
  destruct (C10_spec_unique ascii (multiple_char_delimiter_predicate rem) x mid mid') as (U & _).
  specialize (U H1 H2). subst mid'.
  exists mid, y. split; [now apply He|]. split; [now apply He|].
  unfold trim_to, trim_string, trim_switch, conv_string. cbn [bind negb]. rewrite E1, E2. cbn [bind]. auto.
Qed.
Print Assumptions C66_trim.

Example C66_trim_example : trim_to (conv_signed t_int n_int) 0 (str " _") (str "_ 42 _") 0%Z = Ok (true, 42%Z) /\
  trim_to (conv_signed t_int n_int) 1 (str " _") (str "_ 42 _") 5%Z = Ok (false, 5%Z) /\ trim_string 1 (str " _") (str "_ 42 _") [] = Ok (true, str "42 _") /\
  trim_string 0 (str " ") (str "   ") (str "old") = Ok (true, []).
Proof. vm_compute. auto. Qed.

Theorem C66_trim_trailing : forall (T : Type) (conv : converter T) rem x t,
  (x = [] \/ exists c, In c x /\ is_delim rem c = false) -> exists y,
  trimmed_right (is_delim rem) x y /\ trim_to conv 2 rem x t = conv y t /\
  trim_string 2 rem x = (fun _ => Ok (true, y)).
Proof.
  intros T conv rem x t Hx.
  pose proof (trimmed_ext (multiple_char_delimiter_predicate rem) (is_delim rem) (mcdp_mem rem)) as He.
  destruct (C10_remove_trailing ascii (multiple_char_delimiter_predicate rem) x) as (y & E & H).
  { destruct Hx as [->|(c & Hc & Hd)]; [now left|right]. exists c. rewrite mcdp_mem. auto. }
  exists y. split; [now apply He|].
  unfold trim_to, trim_string, trim_switch, conv_string. cbn [bind negb]. rewrite E. cbn [bind]. auto.
Qed.
Print Assumptions C66_trim_trailing.

Example C66_trim_trailing_example : trim_to (conv_signed t_int n_int) 2 (str " ") (str "42  ") 0%Z = Ok (true, 42%Z) /\
  trim_string 2 (str " ") (str " a ") [] = Ok (true, str " a").
Proof. vm_compute. auto. Qed.
(* a field of trimmable characters only keeps its first character *)
Theorem C66_trim_trailing_refuted : forall rem c x t, Forall (fun c => is_delim rem c = true) (c :: x) ->
  trim_string 2 rem (c :: x) t = Ok (true, [c]).
Proof.
  intros rem c x t H.
  destruct (C10_remove_trailing_refuted ascii (multiple_char_delimiter_predicate rem) c x) as (E & _).
  { eapply Forall_impl; [|exact H]. cbv beta. intros a Ha. rewrite mcdp_mem. exact Ha. }
  unfold trim_string, trim_switch, conv_string. cbn [bind negb]. rewrite E. reflexivity.
Qed.
Print Assumptions C66_trim_trailing_refuted.

Example C66_trim_trailing_refuted_ex : trim_string 2 (str " ") (str "   ") [] = Ok (true, str " ").
Proof. vm_compute. reflexivity. Qed.
(* an invalid mode fails; the string version has overwritten its target by then *)
Theorem C66_trim_invalid_mode : forall (T : Type) (conv : converter T) mode rem x t u, 3 <= mode ->
  trim_to conv mode rem x t = Ok (false, t) /\ trim_string mode rem x u = Ok (false, x).
Proof.
  intros T conv mode rem x t u H. do 3 (destruct mode as [|mode]; [lia|]). split; reflexivity.
Qed.
Print Assumptions C66_trim_invalid_mode.

Example C66_trim_invalid_example : trim_to (conv_signed t_int n_int) 3 (str " ") (str " 42 ") 5%Z = Ok (false, 5%Z) /\
  trim_string 7 (str " ") (str " a ") (str "old") = Ok (false, str " a ").
Proof. vm_compute. auto. Qed.

Theorem C66_case : forall x t, as_lcase x t = Ok (true, map lower x) /\ as_ucase x t = Ok (true, map upper x).
Proof.
  intros x t. unfold as_lcase, as_ucase. destruct (C44_case_conversion x) as (-> & -> & _). auto.
Qed.
Print Assumptions C66_case.

Example C66_case_example : as_lcase (str "aBc1") [] = Ok (true, str "abc1") /\ as_ucase (str "aBc1") (str "old") = Ok (true, str "ABC1").
Proof. vm_compute. auto. Qed.

Theorem C66_fill_array : forall size x data, size <= length data ->
  exists b d, fill_array size x data = Ok (b, d) /\ (b = true <-> length x = size) /\
    length d = length data /\ skipn size d = skipn size data /\
    (b = true -> firstn size d = x) /\ (b = false -> d = data).
Proof.
  intros size x data Hs. unfold fill_array. destruct (Nat.eqb_spec (length x) size) as [E|E]; cbn [negb].
  - destruct (Nat.ltb_spec (length data) size); [lia|]. exists true, (x ++ skipn size data). subst size.
    split; auto. split; [tauto|]. split; [rewrite app_length, skipn_length; lia|].
    split; [apply skipn_app_len|]. split; [intros; apply firstn_app_len|discriminate].
  - exists false, data. repeat split; auto; discriminate.
Qed.
Print Assumptions C66_fill_array.

Example C66_example :
  expect (str "GET") (str "GET") tt = Ok (true, tt) /\ iexpect (str "GET") (str "get") tt = Ok (true, tt) /\
  inrange (conv_signed t_int n_int) Z.ltb 0%Z 1%Z 10%Z (str "7") 3%Z = Ok (true, 7%Z) /\
  inrange (conv_signed t_int n_int) Z.ltb 0%Z 1%Z 10%Z (str "11") 3%Z = Ok (false, 3%Z) /\
  trim_to (conv_signed t_int n_int) 0 (str " ") (str "  42 ") 0%Z = Ok (true, 42%Z) /\
  trim_string 2 (str " ") (str "  ab ") [] = Ok (true, str "  ab") /\
  fill_array 2 (str "xy") (str "abc") = Ok (true, str "xyc").
Proof. repeat split; reflexivity. Qed.

(* is_all_letters and is_all_digits *)
Theorem C65_all_letters_digits : forall s,
  (exists b, is_all_letters s = Ok b /\ (b = true <-> Forall (fun c => In c (upper_letters ++ lower_letters)) s)) /\
  (exists b, is_all_digits s = Ok b /\ (b = true <-> Forall (fun c => In c decimal_digits) s)).
Proof.
  intros s. split.
  - destruct (C65_is_all is_letter s) as (b & E & H). exists b. split; [exact E|]. rewrite H. split; apply Forall_impl; intros c; apply C65_character_classes.
  - destruct (C65_is_all is_digit s) as (b & E & H). exists b. split; [exact E|]. rewrite H. split; apply Forall_impl; intros c; apply C65_character_classes.
Qed.
Print Assumptions C65_all_letters_digits.
Example C65_all_letters_digits_example : is_all_letters (str "aZ") = Ok true /\ is_all_letters (str "a-Z") = Ok false /\
  is_all_digits (str "0a") = Ok false /\ is_all_digits [] = Ok true.
Proof. repeat split. Qed.
