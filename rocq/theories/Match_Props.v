(* Properties C12 and C44 (comparison half), C52 (ifind, ifind_all). *)
From Verif Require Import Base Edit_Model Edit_Spec Codec_Spec Codec_Proofs Match_Model Match_Spec Match_Proofs.

(* C12.  The data is followed in memory by [extra]: one NUL for std::string, nothing for an
   exact array; the result does not depend on it for the patterns of the first two theorems. *)

(* patterns without zero-or-more: never undefined, and true exactly when every pattern
   character is met by one data character, a zero-or-one at the very end being optional *)
Theorem C12_no_star :
  forall (A : Type) (eqb cmp : A -> A -> bool) (zm zo : A),
  (forall x y, eqb x y = true <-> x = y) ->
  forall pt data extra, Forall (fun x => x <> zm) pt ->
  exists b, match_impl eqb cmp zm zo pt (data ++ extra) (length data) = Ok b /\
    (b = true <-> one_each cmp zo pt data).
Proof.
  intros A eqb cmp zm zo He pt data extra H. exists (walk eqb cmp zm zo pt data). split.
  - apply match_walk; auto. exists pt, []. rewrite app_nil_r. auto.
  - now apply walk_one_each.
Qed.
Print Assumptions C12_no_star.

Example C12_example_no_star : match_str (str "a?c?") (str "abcd") = Ok true /\ match_str (str "a?c?") (str "abc") = Ok true /\
  match_str (str "a?c?") (str "ac") = Ok false /\ one_each Ascii.eqb "?"%char (str "a?c?") (str "abc").
Proof.
  repeat split; try reflexivity. apply o_char; [discriminate|reflexivity|]. apply o_one.
  apply o_char; [discriminate|reflexivity|]. apply o_last.
Qed.

(* a literal pattern matches exactly the equal string *)
Theorem C12_literal :
  forall pt s, Forall (fun c => c <> "*"%char /\ c <> "?"%char) pt ->
  exists b, match_str pt s = Ok b /\ (b = true <-> pt = s).
Proof.
  intros pt s H.
  destruct (C12_no_star ascii Ascii.eqb Ascii.eqb "*"%char "?"%char Ascii.eqb_eq pt s [zero]) as (b & E & Hb).
  { eapply Forall_impl; [|exact H]. cbn. intros a Ha. tauto. }
  exists b. split; [exact E|]. rewrite Hb. clear E Hb b. split.
  - intros G. induction G; auto.
    + inversion H; subst. destruct H2 as [_ H2]. congruence.
    + inversion H; subst. destruct H2 as [_ H2]. congruence.
    + inversion H; subst. apply Ascii.eqb_eq in H1. subst. f_equal. auto.
  - intros <-. induction H as [|c pt (_ & Hc) Hp IH]; constructor; auto. apply Ascii.eqb_refl.
Qed.
Print Assumptions C12_literal.

Example C12_example_literal : match_str (str "abc") (str "abc") = Ok true /\ match_str (str "abc") (str "abcd") = Ok false /\
  match_str (str "abc") (str "ab") = Ok false.
Proof. repeat split; reflexivity. Qed.

(* literal prefix followed by one star: exactly the strings with that prefix *)
Theorem C12_prefix_star :
  forall l s, Forall (fun c => c <> "*"%char /\ c <> "?"%char) l ->
  exists b, match_str (l ++ ["*"%char]) s = Ok b /\ (b = true <-> exists t, s = l ++ t).
Proof.
  intros l s H. exists (walk Ascii.eqb Ascii.eqb "*"%char "?"%char (l ++ ["*"%char]) s). split.
  - apply match_walk; [exact Ascii.eqb_eq|]. exists l, ["*"%char]. split; auto. split.
    + eapply Forall_impl; [|exact H]. cbn. intros a Ha. tauto.
    + right. exists []. auto.
  - rewrite walk_prefix by (auto using Ascii.eqb_eq). split.
    + intros (_ & Hl & Hf). exists (skipn (length l) s). rewrite <- (firstn_skipn (length l) s) at 1. f_equal.
      symmetry. clear Hl H. remember (firstn (length l) s) as u. clear Hequ.
      induction Hf as [|c x l u Hc Hf IH]; auto. apply Ascii.eqb_eq in Hc. now subst.
    + intros (t & ->). split; auto. rewrite app_length. split; [lia|].
      rewrite firstn_app, firstn_all, Nat.sub_diag, app_nil_r. clear H.
      induction l; constructor; auto. apply Ascii.eqb_refl.
Qed.
Print Assumptions C12_prefix_star.

Example C12_example_prefix : match_str (str "ab*") (str "abba") = Ok true /\ match_str (str "ab*") (str "ab") = Ok true /\
  match_str (str "ab*") (str "ba") = Ok false.
Proof. repeat split; reflexivity. Qed.

(* on an exact array range, an answer "true" is always right, for every pattern and comparator *)
Theorem C12_sound_on_arrays :
  forall (A : Type) (eqb cmp : A -> A -> bool) (zm zo : A),
  (forall x y, eqb x y = true <-> x = y) ->
  forall pt data, match_array eqb cmp zm zo pt data = Ok true -> glob cmp zm zo pt data.
Proof. exact (@match_array_sound). Qed.
Print Assumptions C12_sound_on_arrays.

Example C12_example :
  match_str (str "a?c*") (str "abcdef") = Ok true /\ match_str (str "ab") (str "ac") = Ok false /\
  match_array Ascii.eqb Ascii.eqb "*"%char "?"%char (str "*b?d*") (str "aabcde") = Ok true /\
  glob Ascii.eqb "*"%char "?"%char (str "*b?d*") (str "aabcde").
Proof.
  repeat split; try reflexivity. apply C12_sound_on_arrays with (eqb := Ascii.eqb); [exact Ascii.eqb_eq|reflexivity].
Qed.

(* Refutations of "match decides the documented glob". *)
Lemma star_any {A} cmp (zm zo : A) p d d2 : glob cmp zm zo p d2 -> (exists u, d = u ++ d2) -> glob cmp zm zo (zm :: p) d.
Proof. intros H (u & ->). induction u; simpl; [now apply g_many0|now apply g_many]. Qed.

(* "*ab" does not match "aab", and "?a" does not match "a", although both should *)
Theorem C12_complete_refuted :
  match_str (str "*ab") (str "aab") = Ok false /\ glob Ascii.eqb "*"%char "?"%char (str "*ab") (str "aab") /\
  match_str (str "?a") (str "a") = Ok false /\ glob Ascii.eqb "*"%char "?"%char (str "?a") (str "a").
Proof.
  repeat split; try reflexivity.
  - apply star_any with (d2 := str "ab"); [|now exists (str "a")].
    repeat (apply g_char; [discriminate|discriminate|reflexivity|]). constructor.
  - apply g_one0. apply g_char; [discriminate|discriminate|reflexivity|constructor].
Qed.
Print Assumptions C12_complete_refuted.

(* "*b*" matches "a" as std::string: the scan for b leaves the string and the end test is missed *)
Theorem C12_sound_on_strings_refuted :
  match_str (str "*b*") (str "a") = Ok true /\ ~ glob Ascii.eqb "*"%char "?"%char (str "*b*") (str "a").
Proof.
  split; [reflexivity|]. intros H.
  assert (G : forall p d, glob Ascii.eqb "*"%char "?"%char p d -> In "b"%char p -> In "b"%char d).
  { clear H. intros p d H. induction H; cbn [In] in *; intros Hi; auto;
      try (destruct Hi as [Hi|Hi]; [discriminate|auto]).
    destruct Hi as [->|Hi]; auto. apply Ascii.eqb_eq in H1. auto. }
  apply G in H; [|simpl; auto]. simpl in H. destruct H as [H|[]]. discriminate.
Qed.
Print Assumptions C12_sound_on_strings_refuted.

(* "*bc" on "a" reads past the terminating NUL; on an array, "*b" already runs off the end *)
Theorem C12_memory_refuted :
  match_str (str "*bc") (str "a") = UB /\
  match_array Ascii.eqb Ascii.eqb "*"%char "?"%char (str "*b") (str "a") = UB.
Proof. split; reflexivity. Qed.
Print Assumptions C12_memory_refuted.

(* C44: for 7-bit strings imatch is equality up to case, hence an equivalence relation *)
Theorem C44_imatch :
  forall s1 s2, Forall (fun c => nat_of_ascii c < 128) s1 -> Forall (fun c => nat_of_ascii c < 128) s2 ->
  exists b, imatch s1 s2 = Ok b /\ (b = true <-> map upper s1 = map upper s2).
Proof. exact imatch_ok. Qed.
Print Assumptions C44_imatch.

Example C44_example_pair : imatch (str "Hello") (str "hELLO") = Ok true /\ imatch (str "Hello") (str "hELL0") = Ok false.
Proof. split; reflexivity. Qed.

Theorem C44_imatch_equivalence :
  forall a b c, Forall (fun c => nat_of_ascii c < 128) a -> Forall (fun c => nat_of_ascii c < 128) b ->
  Forall (fun c => nat_of_ascii c < 128) c ->
  imatch a a = Ok true /\ imatch a b = imatch b a /\
  (imatch a b = Ok true -> imatch b c = Ok true -> imatch a c = Ok true).
Proof.
  intros a b c Ha Hb Hc.
  destruct (imatch_ok a a Ha Ha) as (r & -> & Hr). destruct (imatch_ok a b Ha Hb) as (x & -> & Hx).
  destruct (imatch_ok b a Hb Ha) as (y & -> & Hy). destruct (imatch_ok b c Hb Hc) as (z & -> & Hz).
  destruct (imatch_ok a c Ha Hc) as (w & -> & Hw).
  split; [f_equal; tauto|]. split.
  - f_equal. destruct x, y; auto; exfalso.
    + destruct Hx as [Hx _]. destruct Hy as [_ Hy]. rewrite Hx in Hy by reflexivity. specialize (Hy eq_refl). discriminate.
    + destruct Hy as [Hy _]. destruct Hx as [_ Hx]. rewrite Hy in Hx by reflexivity. specialize (Hx eq_refl). discriminate.
  - intros E1 E2. injection E1 as ->. injection E2 as ->. f_equal. apply Hw.
    destruct Hx as [Hx _]. destruct Hz as [Hz _]. rewrite Hx, Hz; auto.
Qed.
Print Assumptions C44_imatch_equivalence.

Example C44_example_chain : imatch (str "ab1") (str "Ab1") = Ok true /\ imatch (str "Ab1") (str "AB1") = Ok true /\
  imatch (str "ab1") (str "AB1") = Ok true.
Proof. repeat split; reflexivity. Qed.

(* search in a sequence: the first element equal up to case, or the end *)
Theorem C44_imatch_any :
  forall s seq, Forall (fun c => nat_of_ascii c < 128) s ->
  Forall (Forall (fun c => nat_of_ascii c < 128)) seq ->
  exists i, imatch_any s seq = Ok i /\ i <= length seq /\
    (forall j t, j < i -> nth_error seq j = Some t -> map upper s <> map upper t) /\
    (forall t, nth_error seq i = Some t -> map upper s = map upper t).
Proof. exact imatch_any_ok. Qed.
Print Assumptions C44_imatch_any.

Example C44_example_any : imatch_any (str "two") [str "One"; str "TWO"; str "two"] = Ok 1 /\
  imatch_any (str "three") [str "One"; str "TWO"] = Ok 2.
Proof. split; reflexivity. Qed.

(* bytes 0x80..0xFE reach toupper as negative int: undefined *)
Theorem C44_imatch_high_bytes_refuted :
  forall p1 p2 c d r1 r2, Forall (fun c => nat_of_ascii c < 128) p1 -> Forall (fun c => nat_of_ascii c < 128) p2 ->
  map upper p1 = map upper p2 -> length r1 = length r2 -> 128 <= nat_of_ascii c < 255 ->
  imatch (p1 ++ c :: r1) (p2 ++ d :: r2) = UB.
Proof. exact imatch_ub. Qed.
Print Assumptions C44_imatch_high_bytes_refuted.

Example C44_example : imatch (str "StRtK 1") (str "sTrTk 1") = Ok true /\ imatch (str "a@") (str "A`") = Ok false.
Proof. split; reflexivity. Qed.

(* C52: position(s) of case-insensitive occurrences *)
Theorem C52_ifind :
  forall pt data, Forall (fun c => nat_of_ascii c < 128) pt -> Forall (fun c => nat_of_ascii c < 128) data ->
  pt <> [] ->
  match ifind pt data with
  | Ok (Some k) => occurs_at ieq pt data k /\ forall j, j < k -> ~ occurs_at ieq pt data j
  | Ok None => forall j, ~ occurs_at ieq pt data j
  | _ => False
  end.
Proof. exact ifind_ok. Qed.
Print Assumptions C52_ifind.

Example C52_example_ifind : ifind (str "Tk") (str "strtKTK") = Ok (Some 3) /\ ifind (str "q") (str "abc") = Ok None.
Proof. split; reflexivity. Qed.

Theorem C52_ifind_all :
  forall pt data, Forall (fun c => nat_of_ascii c < 128) pt -> Forall (fun c => nat_of_ascii c < 128) data ->
  pt <> [] ->
  exists ks, leftmost_occs ieq pt data 0 ks /\
    ifind_all pt data = Ok (map (fun k => (k, k + length pt)) ks, length ks).
Proof. exact ifind_all_ok. Qed.
Print Assumptions C52_ifind_all.

Example C52_example_all : ifind_all (str "aA") (str "AaAxaa") = Ok ([(0,2);(4,6)], 2).
Proof. reflexivity. Qed.

(* what a case-insensitive occurrence is *)
Theorem C52_occurrence_meaning :
  forall pt data k, occurs_at ieq pt data k <->
  exists a m b, data = a ++ m ++ b /\ length a = k /\ map upper m = map upper pt.
Proof.
  intros pt data k. split.
  - intros (Hl & H). exists (firstn k data), (firstn (length pt) (skipn k data)), (skipn (length pt) (skipn k data)).
    rewrite !firstn_skipn. split; auto. split; [rewrite firstn_length; lia|].
    apply nth_error_ext. intros i. rewrite !nth_error_map, nth_error_firstn, nth_error_skipn.
    destruct (nth_error pt i) as [y|] eqn:Ey.
    + pose proof (nth_error_some_lt _ _ _ Ey). destruct (Nat.ltb_spec i (length pt)); [|lia].
      destruct (nth_error data (k + i)) as [x|] eqn:Ex; [|apply nth_error_None in Ex; lia].
      specialize (H i x y Ey Ex). unfold ieq in H. apply Ascii.eqb_eq in H. simpl. congruence.
    + apply nth_error_None in Ey. destruct (Nat.ltb_spec i (length pt)); [lia|]. reflexivity.
  - intros (a & m & b & -> & <- & Hm).
    assert (Hlm : length m = length pt) by (apply (f_equal (@length ascii)) in Hm; now rewrite !map_length in Hm).
    split; [rewrite !app_length; lia|]. intros i x y Ey Ex.
    pose proof (nth_error_some_lt _ _ _ Ey).
    rewrite nth_error_app2 in Ex by lia. replace (length a + i - length a) with i in Ex by lia.
    rewrite nth_error_app1 in Ex by lia.
    apply (f_equal (fun l => nth_error l i)) in Hm. rewrite !nth_error_map, Ex, Ey in Hm. simpl in Hm.
    injection Hm as Hm. unfold ieq. rewrite Hm. apply Ascii.eqb_refl.
Qed.
Print Assumptions C52_occurrence_meaning.

Example C52_example : ifind (str "Tk") (str "strtKTK") = Ok (Some 3) /\ ifind (str "q") (str "abc") = Ok None /\
  ifind_all (str "aB") (str "abABxaB") = Ok ([(0,2);(2,4);(5,7)], 3).
Proof. repeat split; reflexivity. Qed.
