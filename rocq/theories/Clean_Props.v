(* C166: Cleaning a text in several passes. *)
From Verif Require Import Base Split_Model Edit_Model Edit_Spec Edit_Proofs Edit_Proofs2 Edit_Props Delim_Model Delim_Spec Delim_Proofs Delim_Props Parse_Model Clean_Model Clean_Proofs.
Local Open Scope nat_scope.

(* what the programs print *)
Theorem C166_lines : forall c chars s, let p := among Ascii.eqb chars in
  remove_inplace_example01 c s = Ok (s ++ str " -> " ++ filter (fun x => negb (Ascii.eqb c x)) s ++ [newline]) /\
  remove_consecutives_example01 s = Ok (s ++ str " -> " ++ drop_after Ascii.eqb s ++ [newline]) /\
  remove_consecutives_example02 c s = Ok (s ++ str " -> " ++ drop_after (fun y x => Ascii.eqb c x && Ascii.eqb c y) s ++ [newline]) /\
  remove_consecutives_example03 chars s = Ok (s ++ str " -> " ++ drop_after (fun y x => p x && p y) s ++ [newline]).
Proof.
  intros c chars s p. split; [|split; [|split]].
  - unfold remove_inplace_example01. rewrite C08_remove_inplace_seq. reflexivity.
  - unfold remove_consecutives_example01. destruct (C09_remove_consecutives_eq ascii Ascii.eqb s Ascii.eqb_eq) as (_ & E & _). now rewrite E.
  - unfold remove_consecutives_example02. destruct (C09_remove_consecutives_pred ascii (single_delimiter_predicate c) s) as (_ & E & _). now rewrite E.
  - unfold remove_consecutives_example03. destruct (C09_remove_consecutives_pred ascii (multiple_char_delimiter_predicate chars) s) as (_ & E & _). rewrite E.
    unfold arrow_line. cbn [bind]. do 4 f_equal. apply drop_after_ext. intros x y. now rewrite !among_multi.
Qed.
Print Assumptions C166_lines.

Example C166_lines_example :
  remove_inplace_example01 " " (str "aa abb cdd  ee fg") = Ok (str "aa abb cdd  ee fg -> aaabbcddeefg" ++ [newline]) /\
  remove_consecutives_example01 (str "aaabbcddeefg") = Ok (str "aaabbcddeefg -> abcdefg" ++ [newline]) /\
  remove_consecutives_example02 "a" (str "aaabbcaaaddeeafg") = Ok (str "aaabbcaaaddeeafg -> abbcaddeeafg" ++ [newline]) /\
  remove_consecutives_example03 (str "abcdefg") (str "aaabbcaaaddeeafg") = Ok (str "aaabbcaaaddeeafg -> a" ++ [newline]).
Proof. repeat split; reflexivity. Qed.

Theorem C166_ends : forall chars s, ~ In zero chars -> let p := among Ascii.eqb (firstn 256 chars) in
  let printed t := Ok (str "Before: [" ++ s ++ str "]" ++ [newline] ++ str "After:  [" ++ t ++ str "]" ++ [newline]) in
  (exists t, remove_leading_example chars s = printed t /\ trimmed_left p s t) /\
  ((s = [] \/ exists x, In x s /\ p x = false) -> exists t, remove_trailing_example chars s = printed t /\ trimmed_right p s t) /\
  (forall x s', s = x :: s' -> (forall y, In y s -> p y = true) -> remove_trailing_example chars s = printed [x]).
Proof.
  intros chars s Hz p printed. assert (Hc : c_text (chars ++ [zero]) chars) by (split; [exact Hz|exists []; reflexivity]).
  destruct (C108_remove_cstring _ _ s Hc) as (_ & (t & E & Ht) & Hr & Ha). unfold remove_leading_example, remove_trailing_example. split; [|split].
  - exists t. rewrite E. auto.
  - intros H. destruct (Hr H) as (u & F & Hu). exists u. rewrite F. auto.
  - intros x s' H G. rewrite (Ha x s' H G). reflexivity.
Qed.
Print Assumptions C166_ends.

Example C166_ends_example :
  remove_trailing_example (str " _,") (str "lazy dog  , _") = Ok (str "Before: [lazy dog  , _]" ++ [newline] ++ str "After:  [lazy dog]" ++ [newline]) /\
  remove_leading_example (str " _,") (str "_ ,  The quick") = Ok (str "Before: [_ ,  The quick]" ++ [newline] ++ str "After:  [The quick]" ++ [newline]) /\
  remove_trailing_example (str " _,") (str "_ ,") = Ok (str "Before: [_ ,]" ++ [newline] ++ str "After:  [_]" ++ [newline]).
Proof. repeat split; reflexivity. Qed.

(* trimming the two ends: the order does not matter, even for a text of nothing but trimmable
   elements, of which trimming the right end alone keeps one *)
Theorem C166_trim : forall (A : Type) (p : A -> bool) s, exists t, remove_leading_trailing p s = Ok t /\
  (x <- remove_leading_str p s ;; remove_trailing_str p x) = Ok t /\ (x <- remove_trailing_str p s ;; remove_leading_str p x) = Ok t /\
  remove_leading_str p t = Ok t /\ remove_trailing_str p t = Ok t.
Proof. exact (@trim_orders). Qed.
Print Assumptions C166_trim.

Example C166_trim_example : let p := Ascii.eqb "0" in
  (x <- remove_trailing_str p (str "0070") ;; remove_leading_str p x) = Ok (str "7") /\
  remove_trailing_str p (str "000") = Ok (str "0") /\ (x <- remove_trailing_str p (str "000") ;; remove_leading_str p x) = Ok [].
Proof. repeat split; reflexivity. Qed.

(* removing characters and then runs: no removed character, no run, and squeezing the runs
   before as well changes nothing *)
Theorem C166_remove_then_squeeze : forall (p : ascii -> bool) s, exists t,
  (' (x, _) <- remove_inplace_seq p s ;; resized (remove_consecutives_inplace_eq Ascii.eqb x)) = Ok t /\
  (y <- resized (remove_consecutives_inplace_eq Ascii.eqb s) ;; ' (x, _) <- remove_inplace_seq p y ;; resized (remove_consecutives_inplace_eq Ascii.eqb x)) = Ok t /\
  (forall x, In x t <-> In x s /\ p x = false) /\ (forall i y x, nth_error t i = Some y -> nth_error t (S i) = Some x -> y <> x).
Proof.
  assert (Hs : forall s, resized (remove_consecutives_inplace_eq Ascii.eqb s) = Ok (drop_after Ascii.eqb s)).
  { intros s. now destruct (C09_remove_consecutives_eq ascii Ascii.eqb s Ascii.eqb_eq) as (_ & E & _). }
  assert (Hin : forall l o x, In x (squeeze o l) -> In x l).
  { induction l as [|y l IH]; intros o x H; [exact H|]. cbn [squeeze] in H. destruct o as [z|]; [destruct (Ascii.eqb z y)|]; cbn [In] in *; try destruct H as [->|H]; eauto. }
  assert (Hni : forall l o x, In x l -> o = Some x \/ In x (squeeze o l)).
  { induction l as [|y l IH]; intros o x H; [destruct H|]. assert (G : In x (y :: squeeze (Some y) l)).
    { destruct H as [->|H]; [now left|]. destruct (IH (Some y) x H) as [E|E]; [injection E as ->; now left|now right]. }
    cbn [squeeze]. destruct o as [z|]; [|auto]. destruct (Ascii.eqb_spec z y) as [->|]; [|auto]. destruct H as [->|H]; [auto|]. apply IH, H. }
  intros p s. set (q := fun x => negb (p x)). exists (drop_after Ascii.eqb (filter q s)).
  rewrite C08_remove_inplace_seq, Hs. cbn [bind]. rewrite C08_remove_inplace_seq. cbn [bind]. rewrite !Hs. fold q.
  split; [reflexivity|]. split; [|split].
  - f_equal. rewrite !drop_squeeze. apply squeeze_filter. discriminate.
  - intros x. rewrite drop_squeeze. transitivity (In x (filter q s)).
    + split; [apply Hin|]. intros H. destruct (Hni _ None x H) as [E|E]; [discriminate|exact E].
    + rewrite filter_In. unfold q. rewrite negb_true_iff. reflexivity.
  - now destruct (C09_remove_consecutives_eq ascii Ascii.eqb (filter q s) Ascii.eqb_eq) as (_ & _ & E & _).
Qed.
Print Assumptions C166_remove_then_squeeze.

Example C166_remove_then_squeeze_example :
  (' (x, _) <- remove_inplace_seq (Ascii.eqb " ") (str "aa abb cdd  ee fg") ;; resized (remove_consecutives_inplace_eq Ascii.eqb x)) = Ok (str "abcdefg").
Proof. reflexivity. Qed.

(* in the other order runs can remain *)
Theorem C166_squeeze_then_remove_refuted : forall a b, a <> b ->
  (y <- resized (remove_consecutives_inplace_eq Ascii.eqb [a; b; a]) ;; ' (x, _) <- remove_inplace_seq (Ascii.eqb b) y ;; Ok x) = Ok [a; a].
Proof.
  intros a b H. destruct (C09_remove_consecutives_eq ascii Ascii.eqb [a; b; a] Ascii.eqb_eq) as (_ & E & _). rewrite E. cbn [bind]. rewrite drop_squeeze. cbn [squeeze].
  rewrite (proj2 (Ascii.eqb_neq a b) H), (proj2 (Ascii.eqb_neq b a) (not_eq_sym H)). rewrite C08_remove_inplace_seq. cbn [bind filter].
  rewrite Ascii.eqb_refl, (proj2 (Ascii.eqb_neq b a) (not_eq_sym H)). reflexivity.
Qed.
Print Assumptions C166_squeeze_then_remove_refuted.

Example C166_squeeze_then_remove_example :
  (y <- resized (remove_consecutives_inplace_eq Ascii.eqb (str "aa abb")) ;; ' (x, _) <- remove_inplace_seq (Ascii.eqb " ") y ;; Ok x) = Ok (str "aab").
Proof. reflexivity. Qed.

(* duplicates: for texts of 7-bit characters it does not matter whether characters are removed
   before or after, squeezing runs before or after changes nothing, nor does doing it twice *)
Theorem C166_duplicates : forall (p : ascii -> bool) s, Forall (fun c => nat_of_ascii c < 128) s -> exists t u,
  remove_duplicates s = Ok t /\
  (' (x, _) <- remove_inplace_seq p s ;; remove_duplicates x) = Ok u /\ (x <- remove_duplicates s ;; ' (x, _) <- remove_inplace_seq p x ;; Ok x) = Ok u /\
  (x <- resized (remove_consecutives_inplace_eq Ascii.eqb s) ;; remove_duplicates x) = Ok t /\ resized (remove_consecutives_inplace_eq Ascii.eqb t) = Ok t /\
  remove_duplicates t = Ok t.
Proof.
  intros p s H.
  assert (Hs : forall s, resized (remove_consecutives_inplace_eq Ascii.eqb s) = Ok (drop_after Ascii.eqb s)).
  { intros r. now destruct (C09_remove_consecutives_eq ascii Ascii.eqb r Ascii.eqb_eq) as (_ & E & _). }
  assert (Hd : forall s', incl s' s -> remove_duplicates s' = Ok (firsts [] s')).
  { intros s' Hi. rewrite <- occurrences_firsts. apply C49_remove_duplicates. apply Forall_forall. intros x Hx. rewrite Forall_forall in H. auto. }
  assert (Hf : forall l seen, incl (firsts seen l) l).
  { induction l as [|y l IH]; intros seen x Hx; [exact Hx|]. cbn [firsts] in Hx. destruct (in_dec ascii_dec y seen); [right; eapply IH; eassumption|].
    destruct Hx as [->|Hx]; [now left|right; eapply IH; eassumption]. }
  assert (Hq : forall l o, incl (squeeze o l) l).
  { induction l as [|y l IH]; intros o x Hx; [exact Hx|]. cbn [squeeze] in Hx. destruct o as [z|]; [destruct (Ascii.eqb z y)|]; cbn [In] in *; try destruct Hx as [->|Hx]; eauto; right; eapply IH; eassumption. }
  exists (firsts [] s), (filter (fun x => negb (p x)) (firsts [] s)).
  rewrite !C08_remove_inplace_seq, !Hs. cbn [bind]. rewrite (Hd s (incl_refl s)). cbn [bind]. rewrite !C08_remove_inplace_seq. cbn [bind].
  rewrite (Hd _ (incl_filter _ s)), !drop_squeeze, (Hd _ (Hq s None)), (Hd _ (Hf s [])).
  split; [reflexivity|]. split; [|split; [reflexivity|]]; [|split; [|split]]; f_equal.
  - now apply firsts_filter.
  - apply firsts_squeeze. discriminate.
  - apply squeeze_firsts. discriminate.
  - apply firsts_twice. apply incl_refl.
Qed.
Print Assumptions C166_duplicates.

Example C166_duplicates_example : remove_duplicates (str "aabbabca") = Ok (str "abc") /\
  (' (x, _) <- remove_inplace_seq (Ascii.eqb "b") (str "aabbabca") ;; remove_duplicates x) = Ok (str "ac").
Proof. split; reflexivity. Qed.
