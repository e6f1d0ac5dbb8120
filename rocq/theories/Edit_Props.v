(* Properties C08-C11, C13, C49, C50: removal, trimming, replacement, searching. *)
From Verif Require Import Base Split_Model Edit_Model Edit_Spec Edit_Proofs Edit_Proofs2.

(* C08 *)
Theorem C08_remove_inplace :
  forall (A : Type) (p : A -> bool) (s : list A),
  let kept := filter (fun x => negb (p x)) s in
  exists junk,
    remove_inplace p s = Ok (kept ++ junk, length (filter p s)) /\
    length kept + length (filter p s) = length s /\ length junk = length (filter p s).
Proof.
  intros A p s kept. destruct (remove_inplace_ok p s) as (junk & E & Hj).
  exists junk. split; [exact E|]. split; [|exact Hj].
  unfold kept. clear. induction s as [|x s IH]; simpl; auto. destruct (p x); simpl; lia.
Qed.
Print Assumptions C08_remove_inplace.

Example C08_example_range : (* without the resize: what is left in the tail is not specified *)
  remove_inplace (fun c => Ascii.eqb c "a") (str "abacada") = Ok (str "bcd" ++ str "cada", 4).
Proof. reflexivity. Qed.

Theorem C08_remove_inplace_seq :
  forall (A : Type) (p : A -> bool) (s : list A),
  remove_inplace_seq p s = Ok (filter (fun x => negb (p x)) s, length (filter p s)).
Proof. exact (@remove_inplace_seq_ok). Qed.
Print Assumptions C08_remove_inplace_seq.

Example C08_example :
  remove_inplace_seq (fun c => Ascii.eqb c "a") (str "abacada") = Ok (str "bcd", 4).
Proof. reflexivity. Qed.

(* C09 *)
Theorem C09_remove_consecutives_pred :
  forall (A : Type) (p : A -> bool) (s : list A),
  let kept := drop_after (fun y x => p x && p y) s in
  (exists junk, remove_consecutives_inplace_pred p s = Ok (kept ++ junk, length s - length kept) /\
     length junk = length s - length kept) /\
  resized (remove_consecutives_inplace_pred p s) = Ok kept /\
  (forall i y x, nth_error kept i = Some y -> nth_error kept (S i) = Some x -> p x && p y = false) /\
  resized (remove_consecutives_inplace_pred p kept) = Ok kept.
Proof. exact (@remove_consecutives_pred_full). Qed.
Print Assumptions C09_remove_consecutives_pred.

Example C09_example_pred :
  resized (remove_consecutives_inplace_pred (fun c => Ascii.eqb c "a" || Ascii.eqb c "b") (str "abcabbca")) = Ok (str "acaca").
Proof. reflexivity. Qed.

Theorem C09_remove_consecutives_eq :
  forall (A : Type) (eqb : A -> A -> bool) (s : list A),
  (forall x y, eqb x y = true <-> x = y) ->
  let kept := drop_after eqb s in
  (exists junk, remove_consecutives_inplace_eq eqb s = Ok (kept ++ junk, length s - length kept) /\
     length junk = length s - length kept) /\
  resized (remove_consecutives_inplace_eq eqb s) = Ok kept /\
  (forall i y x, nth_error kept i = Some y -> nth_error kept (S i) = Some x -> y <> x) /\
  resized (remove_consecutives_inplace_eq eqb kept) = Ok kept.
Proof. exact (@remove_consecutives_eq_full). Qed.
Print Assumptions C09_remove_consecutives_eq.

Example C09_example :
  resized (remove_consecutives_inplace_eq Ascii.eqb (str "aabbbcaa")) = Ok (str "abca") /\
  resized (remove_consecutives_inplace_pred (fun c => Ascii.eqb c " " || Ascii.eqb c "_")
             (str " _a _ b__")) = Ok (str " a b_").
Proof. split; reflexivity. Qed.

(* C10 *)
Theorem C10_remove_leading :
  forall (A : Type) (p : A -> bool) (s : list A),
  exists t, remove_leading_str p s = Ok t /\ trimmed_left p s t.
Proof. exact (@remove_leading_str_trimmed). Qed.
Print Assumptions C10_remove_leading.

Example C10_example_leading : remove_leading_str (Ascii.eqb "0") (str "00700") = Ok (str "700") /\
  remove_leading_str (Ascii.eqb "0") (str "000") = Ok [].
Proof. split; reflexivity. Qed.

(* remove_trailing is right as soon as something survives ... *)
Theorem C10_remove_trailing :
  forall (A : Type) (p : A -> bool) (s : list A),
  (s = [] \/ exists x, In x s /\ p x = false) ->
  exists t, remove_trailing_str p s = Ok t /\ trimmed_right p s t.
Proof. exact (@remove_trailing_str_trimmed). Qed.
Print Assumptions C10_remove_trailing.

Example C10_example_trailing : remove_trailing_str (Ascii.eqb "0") (str "00700") = Ok (str "007") /\
  remove_trailing_str (Ascii.eqb "0") [] = Ok [].
Proof. split; reflexivity. Qed.

(* ... but a string of trimmable characters only always keeps its first one. *)
Theorem C10_remove_trailing_refuted :
  forall (A : Type) (p : A -> bool) (x0 : A) (s : list A),
  Forall (fun x => p x = true) (x0 :: s) ->
  remove_trailing_str p (x0 :: s) = Ok [x0] /\ ~ trimmed_right p (x0 :: s) [x0].
Proof.
  intros A p x0 s H. split; [now apply remove_trailing_str_all|].
  intros (suf & _ & _ & Hn). inversion H; subst. rewrite (Hn [] x0 eq_refl) in *. discriminate.
Qed.
Print Assumptions C10_remove_trailing_refuted.

Example C10_remove_trailing_refuted_ex : remove_trailing_str (Nat.eqb 0) [0; 0; 0] = Ok [0] /\ remove_trailing_str (Nat.eqb 0) [1; 0; 0] = Ok [1].
Proof. repeat split; reflexivity. Qed.

Theorem C10_remove_leading_trailing :
  forall (A : Type) (p : A -> bool) (s : list A),
  exists mid t, remove_leading_trailing p s = Ok t /\ trimmed_left p s mid /\ trimmed_right p mid t.
Proof. exact (@remove_leading_trailing_ok). Qed.
Print Assumptions C10_remove_leading_trailing.

Example C10_example_both : remove_leading_trailing (Ascii.eqb "0") (str "00700") = Ok (str "7") /\
  remove_leading_trailing (Ascii.eqb "0") (str "0000") = Ok [].
Proof. split; reflexivity. Qed.

Theorem C10_spec_unique :
  forall (A : Type) (p : A -> bool) s t t',
  (trimmed_left p s t -> trimmed_left p s t' -> t = t') /\
  (trimmed_right p s t -> trimmed_right p s t' -> t = t').
Proof. intros A p s t t'. split; [apply trimmed_left_unique|apply trimmed_right_unique]. Qed.
Print Assumptions C10_spec_unique.

Example C10_example :
  remove_leading_str (Ascii.eqb " ") (str "  a b ") = Ok (str "a b ") /\
  remove_trailing_str (Ascii.eqb " ") (str " a b  ") = Ok (str " a b") /\
  remove_leading_trailing (Ascii.eqb " ") (str "  a b  ") = Ok (str "a b") /\
  remove_leading_trailing (Ascii.eqb " ") (str "    ") = Ok [] /\
  remove_trailing_str (Ascii.eqb " ") (str "   ") = Ok (str " ").
Proof. repeat split. Qed.

(* C11 *)
Theorem C11_replace_pattern :
  forall (A : Type) (eqb : A -> A -> bool),
  (forall x y, eqb x y = true <-> x = y) ->
  forall (zero : A) (s p r : list A), p <> [] ->
  exists ks, leftmost_occs eqb p s 0 ks /\
    replace_pattern eqb zero s p r = Ok (splice s (length p) r 0 ks) /\
    replace_pattern_out eqb s p r
    = Ok (splice s (length p) r 0 ks, Z.of_nat (length (splice s (length p) r 0 ks))).
Proof.
  intros A eqb He zero s p r Hp.
  destruct (replace_pattern_ok eqb He zero s p r Hp) as (ks & H1 & H2).
  destruct (replace_pattern_out_ok eqb He s p r Hp) as (ks' & H1' & H2').
  rewrite <- (leftmost_unique eqb p s ks 0 H1 ks' H1') in H2'. eauto.
Qed.
Print Assumptions C11_replace_pattern.

Example C11_example_longer :
  replace_pattern Ascii.eqb "0"%char (str "a,b,,c") (str ",") (str "; ") = Ok (str "a; b; ; c") /\
  replace_pattern_out Ascii.eqb (str "a,b,,c") (str ",") (str "; ") = Ok (str "a; b; ; c", 9%Z).
Proof. split; reflexivity. Qed.

Theorem C11_pattern_absent_or_empty :
  forall (A : Type) (eqb : A -> A -> bool),
  (forall x y, eqb x y = true <-> x = y) ->
  forall (zero : A) (s p r : list A),
  (p = [] \/ ~ exists a b, s = a ++ p ++ b) ->
  replace_pattern eqb zero s p r = Ok s /\ remove_pattern eqb zero s p = Ok s.
Proof.
  intros A eqb He zero s p r [->|Hn]; [split; reflexivity|].
  assert (Hp : p = [] \/ p <> []) by (destruct p; [left; reflexivity|right; discriminate]).
  destruct Hp as [->|Hp]; [split; reflexivity|].
  assert (G : forall ks, leftmost_occs eqb p s 0 ks -> ks = []).
  { intros ks H. inversion H as [|a k ks' _ Ho]; subst a; auto. exfalso. apply Hn.
    apply (occurs_at_eq eqb He) in Ho. destruct Ho as (a & b & E & _). eauto. }
  unfold remove_pattern. split.
  - destruct (replace_pattern_ok eqb He zero s p r Hp) as (ks & H1 & ->).
    rewrite (G ks H1). reflexivity.
  - destruct (replace_pattern_ok eqb He zero s p [] Hp) as (ks & H1 & ->).
    rewrite (G ks H1). reflexivity.
Qed.
Print Assumptions C11_pattern_absent_or_empty.

Example C11_example_absent :
  replace_pattern Ascii.eqb "0"%char (str "abc") (str "cb") (str "-") = Ok (str "abc") /\
  replace_pattern Ascii.eqb "0"%char (str "abc") [] (str "-") = Ok (str "abc").
Proof. split; reflexivity. Qed.

(* The iterator version writes through a plain pointer wrongly: every std::copy
   starts again at the same place. *)
Theorem C11_pointer_output_refuted :
  exists (buf s p r : list ascii) out n,
    replace_pattern_ptr Ascii.eqb buf s p r = Ok (out, n) /\
    replace_pattern_out Ascii.eqb s p r = Ok (str "a--b", 4%Z) /\ n = 4%Z /\
    out = str "b-..".
Proof.
  exists (str "...."), (str "aXb"), (str "X"), (str "--"). do 2 eexists.
  split; [reflexivity|]. split; [reflexivity|]. split; [reflexivity|]. reflexivity.
Qed.
Print Assumptions C11_pointer_output_refuted.

Theorem C11_replace_char :
  forall (A : Type) (eqb : A -> A -> bool),
  (forall x y, eqb x y = true <-> x = y) ->
  forall c1 c2 s, replace eqb c1 c2 s = Ok (map (fun x => if eqb x c1 then c2 else x) s).
Proof. exact (@replace_ok). Qed.
Print Assumptions C11_replace_char.

Example C11_example :
  replace_pattern Ascii.eqb "0"%char (str "aXXbXXXc") (str "XX") (str "-") = Ok (str "a-b-Xc") /\
  leftmost_occs Ascii.eqb (str "XX") (str "aXXbXXXc") 0 [1; 4] /\
  remove_pattern Ascii.eqb "0"%char (str "aXXbXXXc") (str "XX") = Ok (str "abXc").
Proof.
  split; [reflexivity|]. split; [|reflexivity].
  destruct (delta_list_ok Ascii.eqb Ascii.eqb_eq (str "XX") (str "aXXbXXXc")) as (ks & H1 & H2); [discriminate|].
  cbv in H2. inversion H2; subst. exact H1.
Qed.

(* C13 *)
Theorem C13_find_all :
  forall (A : Type) (eqv : A -> A -> bool) (pat s : list A), pat <> [] ->
  exists ks, leftmost_occs eqv pat s 0 ks /\
    find_all eqv pat s = Ok (map (fun k => (k, k + length pat)) ks, length ks).
Proof. exact (@find_all_ok). Qed.
Print Assumptions C13_find_all.

Example C13_example_overlap : find_all Ascii.eqb (str "aba") (str "ababaXaba") = Ok ([(0,3); (6,9)], 2).
Proof. reflexivity. Qed.

(* what an occurrence is, for exact comparison *)
Theorem C13_occurrence_meaning :
  forall (A : Type) (eqb : A -> A -> bool),
  (forall x y, eqb x y = true <-> x = y) ->
  forall pat s k, occurs_at eqb pat s k <-> exists a b, s = a ++ pat ++ b /\ length a = k.
Proof. exact (@occurs_at_eq). Qed.
Print Assumptions C13_occurrence_meaning.

Example C13_example_occurrence : str "xaby" = str "x" ++ str "ab" ++ str "y" /\ occurs_at Ascii.eqb (str "ab") (str "xaby") 1.
Proof.
  split; [reflexivity|]. apply (proj2 (C13_occurrence_meaning _ Ascii.eqb Ascii.eqb_eq (str "ab") (str "xaby") 1)).
  exists (str "x"), (str "y"). split; reflexivity.
Qed.

Theorem C13_spec_unique :
  forall (A : Type) (eqv : A -> A -> bool) pat s ks a,
  leftmost_occs eqv pat s a ks -> forall ks', leftmost_occs eqv pat s a ks' -> ks = ks'.
Proof. exact (@leftmost_unique). Qed.
Print Assumptions C13_spec_unique.

Example C13_example_unique : forall ks, leftmost_occs Ascii.eqb (str "a") (str "aa") 0 ks -> ks = [0; 1].
Proof.
  intros ks H. destruct (C13_find_all ascii Ascii.eqb (str "a") (str "aa") ltac:(discriminate)) as (ks' & H' & E).
  rewrite (C13_spec_unique _ _ _ _ _ _ H _ H'). vm_compute in E. destruct ks' as [|k [|k' [|]]]; try discriminate E.
  injection E as E _ E' _. congruence.
Qed.

(* the empty pattern never finishes on non-empty data *)
Theorem C13_empty_pattern_refuted :
  forall (A : Type) (eqv : A -> A -> bool) (s : list A), s <> [] ->
  forall fuel out cnt, loop fuel (find_all_step eqv [] s) (0, out, cnt) = OutOfFuel.
Proof. exact (@find_all_empty_diverges). Qed.
Print Assumptions C13_empty_pattern_refuted.

Example C13_example :
  find_all Ascii.eqb (str "aa") (str "aaabaa") = Ok ([(0,2); (4,6)], 2).
Proof. reflexivity. Qed.

(* C49 *)
Theorem C49_remove_duplicates :
  forall (s : list ascii), Forall (fun c => nat_of_ascii c < 128) s ->
  remove_duplicates s = Ok (first_occurrences Ascii.eqb s).
Proof. exact remove_duplicates_ok. Qed.
Print Assumptions C49_remove_duplicates.

Example C49_example_order : remove_duplicates (str "banana") = Ok (str "ban").
Proof. reflexivity. Qed.

Theorem C49_remove_duplicates_refuted :
  forall (a b : list ascii) (c : ascii), 128 <= nat_of_ascii c ->
  Forall (fun c => nat_of_ascii c < 128) a ->
  remove_duplicates (a ++ c :: b) = UB.
Proof. exact remove_duplicates_ub. Qed.
Print Assumptions C49_remove_duplicates_refuted.

Example C49_example :
  remove_duplicates (str "mississippi") = Ok (str "misp").
Proof. reflexivity. Qed.

(* C50 *)
Theorem C50_begins_ends_index :
  forall (A : Type) (eqb : A -> A -> bool),
  (forall x y, eqb x y = true <-> x = y) ->
  forall pat s : list A,
  (exists b, begins_with eqb pat s = Ok b /\ (b = true <-> exists t, s = pat ++ t)) /\
  (exists b, ends_with eqb pat s = Ok b /\ (b = true <-> exists t, s = t ++ pat)) /\
  (pat <> [] -> forall k, index_of eqb pat s = Some k <->
     (exists a b, s = a ++ pat ++ b /\ length a = k) /\
     forall a b, s = a ++ pat ++ b -> k <= length a).
Proof. exact (@begins_ends_index). Qed.
Print Assumptions C50_begins_ends_index.

Example C50_example :
  begins_with Ascii.eqb (str "ab") (str "abc") = Ok true /\
  ends_with Ascii.eqb (str "ab") (str "abc") = Ok false /\
  index_of Ascii.eqb (str "bc") (str "abcbc") = Some 1.
Proof. repeat split. Qed.
