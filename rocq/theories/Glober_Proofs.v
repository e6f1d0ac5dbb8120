From Verif Require Import Base Match_Model Match_Spec Parse_Model IO_Model IO_Spec IO_Proofs Wordfreq_Model Wordfreq_Spec Wordfreq_Proofs Glober_Model Glober_Spec.
From Coq Require Import Sorting.Sorted Sorting.Permutation.
Local Open Scope nat_scope.

(* ---- sorting ---- *)
Notation not_after := (fun a b : list ascii => a = b \/ before a b).
Lemma not_less a b : string_less b a = false -> a = b \/ before a b.
Proof.
  intros H. destruct (string_less a b) eqn:E; [right; now apply string_less_before|left; now apply string_less_total].
Qed.
Lemma insert_perm x l : Permutation (x :: l) (insert_string x l).
Proof.
  induction l as [|y l IH]; cbn [insert_string]; [auto|]. destruct (string_less y x); auto.
  eapply perm_trans; [apply perm_swap|]. now constructor.
Qed.
Lemma insert_sorted x l : StronglySorted not_after l -> StronglySorted not_after (insert_string x l).
Proof.
  induction 1 as [|y l H IH F]; cbn [insert_string]; [repeat constructor|]. destruct (string_less y x) eqn:E.
  - constructor; auto. apply Forall_forall. intros z Hz. apply (Permutation_in z (Permutation_sym (insert_perm x l))) in Hz.
    destruct Hz as [<-|Hz]; [right; now apply string_less_before|]. rewrite Forall_forall in F. auto.
  - apply not_less in E. constructor; [constructor; auto|]. constructor; [auto|]. eapply Forall_impl; [|exact F]. cbn beta.
    intros z [<-|Hz]; [auto|]. destruct E as [->|E]; [auto|]. right. exact (before_trans _ _ _ E Hz).
Qed.
Lemma sort_strings_ok l : sorted_list l (sort_strings l).
Proof.
  induction l as [|x l (IH1 & IH2)]; [split; constructor|]. cbn [sort_strings]. split.
  - eapply perm_trans; [|apply insert_perm]. now constructor.
  - now apply insert_sorted.
Qed.
Lemma sorted_unique xs l l' : sorted_list xs l -> sorted_list xs l' -> l = l'.
Proof.
  intros (P1 & S1) (P2 & S2). assert (P : Permutation l l') by (eapply perm_trans; [apply Permutation_sym|]; eauto).
  clear xs P1 P2. revert l' S2 P. induction S1 as [|x l S1 IH F]; intros l' S2 P; [now apply Permutation_nil in P|].
  destruct S2 as [|y l' S2 F']; [apply Permutation_sym, Permutation_nil in P; discriminate|].
  assert (x = y).
  { assert (Hx : In x (y :: l')) by (eapply Permutation_in; [exact P|now left]). assert (Hy : In y (x :: l)) by (eapply Permutation_in; [exact (Permutation_sym P)|now left]).
    destruct Hx as [->|Hx]; [auto|]. destruct Hy as [->|Hy]; [auto|]. rewrite Forall_forall in F, F'.
    destruct (F' _ Hx) as [->|A]; [auto|]. destruct (F _ Hy) as [->|B]; [auto|]. exfalso. apply (before_irrefl x). exact (before_trans _ _ _ B A). }
  subst y. f_equal. apply IH; auto. now apply Permutation_cons_inv in P.
Qed.

Lemma args_ok args : forall i n t c, parse_args_seq conv_string (fun c v => c ++ [v]) true args i n t c = Ok (c ++ args, n).
Proof.
  induction args as [|a args IH]; intros i n t c; cbn [parse_args_seq conv_string bind negb]; [now rewrite app_nil_r|].
  rewrite IH, <- app_assoc. reflexivity.
Qed.
Lemma line_glober_ok args : line_glober args = Ok (sort_strings args).
Proof. unfold line_glober. now rewrite args_ok. Qed.

(* ---- the report ---- *)
Lemma glob_line_ok (matches : list ascii -> list ascii -> Prop) s ps :
  (forall p, In p ps -> exists b, match_str p s = Ok b /\ (b = true <-> matches p s)) ->
  forall out, exists o, glob_line ps s out = Ok (out ++ o) /\ line_report matches s ps o.
Proof.
  induction ps as [|p ps IH]; intros H out; cbn [glob_line].
  - exists []. rewrite app_nil_r. split; [reflexivity|constructor].
  - destruct (H p (or_introl eq_refl)) as (b & -> & Hb). cbn [bind].
    assert (H' : forall p, In p ps -> exists b, match_str p s = Ok b /\ (b = true <-> matches p s)) by (intros; apply H; now right).
    destruct b.
    + destruct (IH H' (out ++ p ++ str " matched " ++ s ++ [newline])) as (o & E & Ho). rewrite E. eexists. split; [|apply lr_yes; [tauto|exact Ho]].
      rewrite <- !app_assoc. reflexivity.
    + destruct (IH H' out) as (o & E & Ho). rewrite E. exists o. split; [reflexivity|]. apply lr_no; [|exact Ho]. intros M. apply Hb in M. discriminate.
Qed.
Lemma glob_lines_ok (matches : list ascii -> list ascii -> Prop) ps ls :
  (forall p s, In p ps -> In s ls -> exists b, match_str p s = Ok b /\ (b = true <-> matches p s)) ->
  forall out, exists o, fold_left (fun out s => out <- out ;; glob_line ps s out) ls (Ok out) = Ok (out ++ o) /\ report matches ps ls o.
Proof.
  induction ls as [|s ls IH]; intros H out; cbn [fold_left bind].
  - exists []. rewrite app_nil_r. split; [reflexivity|]. exists []. split; [constructor|reflexivity].
  - destruct (glob_line_ok matches s ps (fun p Hp => H p s Hp (or_introl eq_refl)) out) as (o & -> & Ho).
    destruct (IH (fun p s Hp Hs => H p s Hp (or_intror Hs)) (out ++ o)) as (o' & E & outs & F & ->). exists (o ++ concat outs). rewrite E. split; [now rewrite app_assoc|].
    exists (o :: outs). split; [constructor; auto|reflexivity].
Qed.
Lemma glober_ok (matches : list ascii -> list ascii -> Prop) args input ls : args <> [] -> lines_of input ls ->
  (forall p s, In p args -> In s ls -> exists b, match_str p s = Ok b /\ (b = true <-> matches p s)) ->
  exists ps out, sorted_list args ps /\ report matches ps ls out /\ glober args input = Ok (out, 0).
Proof.
  intros Hne Hl H. unfold glober. destruct (Nat.eqb_spec (length args) 0) as [E|_]; [destruct args; [congruence|discriminate]|].
  rewrite line_glober_ok. cbn [bind]. rewrite (for_each_line_ok _ _ _ Hl). cbn [bind].
  destruct (glob_lines_ok matches (sort_strings args) ls) with (out := @nil ascii) as (o & E & R).
  { intros p s Hp. apply H. destruct (sort_strings_ok args) as (P & _). eapply Permutation_in; [exact (Permutation_sym P)|exact Hp]. }
  exists (sort_strings args), o. split; [apply sort_strings_ok|]. split; [exact R|]. rewrite E. reflexivity.
Qed.
(* ---- literal parts of patterns ---- *)
Fixpoint strip (l s : list ascii) : option (list ascii) :=
  match l, s with
  | [], _ => Some s
  | c :: l, x :: s => if Ascii.eqb c x then strip l s else None
  | _, [] => None
  end.
Lemma strip_some l : forall s t, strip l s = Some t <-> s = l ++ t.
Proof.
  induction l as [|c l IH]; intros s t; cbn [strip app]; [split; congruence|]. destruct s as [|x s]; [split; discriminate|].
  destruct (Ascii.eqb_spec c x) as [->|N]; [rewrite IH; split; congruence|split; [discriminate|congruence]].
Qed.
Notation step pt s := (match_step Ascii.eqb Ascii.eqb "*"%char "?"%char pt (s ++ [zero]) (length s)).
Lemma rd_mid {A} (a : list A) x b : rd (a ++ x :: b) (length a) = Ok x.
Proof. apply rd_nth. rewrite nth_error_app2, Nat.sub_diag by lia. reflexivity. Qed.
Lemma wild_false c : c <> "*"%char /\ c <> "?"%char -> Ascii.eqb "*" c = false /\ Ascii.eqb "?" c = false /\ Ascii.eqb c "*" = false /\ Ascii.eqb c "?" = false.
Proof. intros (H1 & H2). repeat split; apply Ascii.eqb_neq; congruence. Qed.
Lemma loop_S {S0 R0} f (body : S0 -> outcome (S0 + R0)) st : loop (S f) body st =
  (x <- body st ;; match x with inl st => loop f body st | inr r => Ok r end).
Proof. reflexivity. Qed.

Lemma lit_walk l : literal l -> forall pre post s1 s2 fuel, 0 < fuel ->
  loop (fuel + length l) (step (pre ++ l ++ post) (s1 ++ s2)) (length pre, length s1) =
  match strip l s2 with
  | Some t => loop fuel (step (pre ++ l ++ post) (s1 ++ s2)) (length pre + length l, length s1 + length l)
  | None => Ok false
  end.
Proof.
  induction 1 as [|c l Hc H IH]; intros pre post s1 s2 fuel Hf; cbn [strip length].
  - rewrite !Nat.add_0_r. reflexivity.
  - replace (fuel + S (length l)) with (S (fuel + length l)) by lia. rewrite loop_S. unfold match_step at 1.
    destruct (wild_false c Hc) as (W1 & W2 & W3 & W4).
    replace (length pre =? length (pre ++ (c :: l) ++ post)) with false by (symmetry; apply Nat.eqb_neq; rewrite !app_length; cbn [length]; lia).
    cbn [orb]. change (pre ++ (c :: l) ++ post) with (pre ++ c :: (l ++ post)). destruct s2 as [|x s2].
    + rewrite app_nil_r, Nat.eqb_refl. unfold match_end. rewrite Nat.eqb_refl. cbn [negb].
      replace (length pre =? length (pre ++ c :: l ++ post)) with false by (symmetry; apply Nat.eqb_neq; rewrite !app_length; cbn [length]; lia).
      rewrite rd_mid. cbn [bind]. rewrite W1, W2. cbn [orb].
      replace (length (pre ++ c :: l ++ post) =? length pre) with false by (symmetry; apply Nat.eqb_neq; rewrite !app_length; cbn [length]; lia).
      reflexivity.
    + replace (length s1 =? length (s1 ++ x :: s2)) with false by (symmetry; apply Nat.eqb_neq; rewrite !app_length; cbn [length]; lia).
      rewrite rd_mid. cbn [bind]. rewrite W1, W4.
      replace ((s1 ++ x :: s2) ++ [zero]) with (s1 ++ x :: (s2 ++ [zero])) by (now rewrite <- app_assoc). rewrite rd_mid. cbn [bind].
      destruct (Ascii.eqb c x); [|reflexivity].
      unfold advance. replace (length s1 <? length (s1 ++ x :: s2 ++ [zero])) with true by (symmetry; apply Nat.ltb_lt; rewrite !app_length; cbn [length]; lia).
      cbn [bind]. specialize (IH (pre ++ [c]) post (s1 ++ [x]) s2 fuel Hf). replace (length (pre ++ [c])) with (S (length pre)) in IH by (rewrite app_length; cbn [length]; lia).
      replace (length (s1 ++ [x])) with (S (length s1)) in IH by (rewrite app_length; cbn [length]; lia).
      replace ((pre ++ [c]) ++ l ++ post) with (pre ++ c :: l ++ post) in IH by (now rewrite <- app_assoc).
      replace ((s1 ++ [x]) ++ s2) with (s1 ++ x :: s2) in IH by (now rewrite <- app_assoc).
      replace (s1 ++ x :: s2 ++ [zero]) with ((s1 ++ x :: s2) ++ [zero]) by (now rewrite <- app_assoc).
      rewrite IH. destruct (strip l s2) eqn:Es; [|reflexivity].
      do 2 f_equal; lia.
Qed.
Lemma skip_wild_one pre c post : c <> "*"%char /\ c <> "?"%char ->
  skip_wild Ascii.eqb "*"%char "?"%char (pre ++ "*"%char :: c :: post) (length pre) = Ok (S (length pre)).
Proof.
  intros Hc. destruct (wild_false c Hc) as (W1 & W2 & W3 & W4). unfold skip_wild.
  replace (S (length (pre ++ "*"%char :: c :: post))) with (S (S (S (length pre + length post)))) by (rewrite app_length; cbn [length]; lia).
  rewrite loop_S. replace (length pre =? length (pre ++ "*"%char :: c :: post)) with false by (symmetry; apply Nat.eqb_neq; rewrite !app_length; cbn [length]; lia).
  rewrite rd_mid. cbn [bind]. change (Ascii.eqb "*" "*") with true. cbn [orb bind]. rewrite loop_S.
  replace (S (length pre) =? length (pre ++ "*"%char :: c :: post)) with false by (symmetry; apply Nat.eqb_neq; rewrite !app_length; cbn [length]; lia).
  replace (pre ++ "*"%char :: c :: post) with ((pre ++ ["*"%char]) ++ c :: post) by (now rewrite <- app_assoc).
  replace (S (length pre)) with (length (pre ++ ["*"%char])) by (rewrite app_length; cbn [length]; lia). rewrite rd_mid. cbn [bind].
  rewrite W3, W4. reflexivity.
Qed.
Fixpoint upto (c : ascii) (s : list ascii) : list ascii * option (list ascii) :=
  match s with
  | [] => ([], None)
  | x :: s' => if Ascii.eqb c x then ([], Some s') else let (a, r) := upto c s' in (x :: a, r)
  end.
Lemma upto_ok c s : let (a, r) := upto c s in ~ In c a /\ match r with Some t => s = a ++ c :: t | None => s = a end.
Proof.
  induction s as [|x s IH]; cbn [upto]; [split; auto|]. destruct (Ascii.eqb_spec c x) as [->|N]; [split; auto|].
  destruct (upto c s) as [a r]. destruct IH as (H1 & H2). split.
  - intros [E|E]; [congruence|auto].
  - destruct r; cbn [app]; congruence.
Qed.
Lemma skip_to_ok c s1 s2 : skip_to Ascii.eqb ((s1 ++ s2) ++ [zero]) (length (s1 ++ s2)) c (length s1) = Ok (length s1 + length (fst (upto c s2))).
Proof.
  unfold skip_to. match goal with |- context [loop _ ?f _] => set (body := f) end.
  assert (G : forall a b fuel, s2 = a ++ b -> length b < fuel -> loop fuel body (length s1 + length a) = Ok (length s1 + length a + length (fst (upto c b)))).
  { intros a b. revert a. induction b as [|x b IH]; intros a fuel -> Hf; (destruct fuel as [|fuel]; [lia|]); rewrite loop_S; unfold body at 1.
    - rewrite app_nil_r, app_length, Nat.eqb_refl. cbn. f_equal. lia.
    - replace (length s1 + length a =? length (s1 ++ a ++ x :: b)) with false by (symmetry; apply Nat.eqb_neq; rewrite !app_length; cbn [length]; lia).
      replace ((s1 ++ a ++ x :: b) ++ [zero]) with ((s1 ++ a) ++ x :: (b ++ [zero])) by (now rewrite <- !app_assoc).
      replace (length s1 + length a) with (length (s1 ++ a)) by (now rewrite app_length). rewrite rd_mid. cbn [bind upto].
      destruct (Ascii.eqb c x); [cbn [bind fst length]; f_equal; lia|].
      unfold advance. replace (length (s1 ++ a) <? length ((s1 ++ a) ++ x :: b ++ [zero])) with true by (symmetry; apply Nat.ltb_lt; rewrite !app_length; cbn [length]; lia).
      cbn [bind]. replace (S (length (s1 ++ a))) with (length s1 + length (a ++ [x])) by (rewrite !app_length; cbn [length]; lia).
      rewrite IH by (rewrite <- ?app_assoc; cbn [length] in *; auto; lia). destruct (upto c b). cbn [fst length]. rewrite !app_length. cbn [length]. f_equal. lia. }
  specialize (G [] s2 (S (length ((s1 ++ s2) ++ [zero]))) eq_refl). cbn [length] in G. rewrite Nat.add_0_r in G. apply G. rewrite !app_length. lia.
Qed.

(* a literal, a star and a literal that is not empty *)
Lemma match_star l1 c l2 s : literal l1 -> literal (c :: l2) ->
  match_str (l1 ++ "*"%char :: c :: l2) s =
  match strip l1 s with
  | None => Ok false
  | Some [] => Ok false
  | Some t =>
      match snd (upto c t) with
      | Some r => Ok (if list_eq_dec ascii_dec r l2 then true else false)
      | None => match l2 with [] => Ok false | _ => UB end
      end
  end.
Proof.
  intros H1 H2. inversion H2 as [|? ? Hc H2']; subst. unfold match_str, match_impl.
  set (pt := l1 ++ "*"%char :: c :: l2).
  replace (S (length pt)) with (S (S (S (length l2))) + length l1) by (unfold pt; rewrite app_length; cbn [length]; lia).
  pose proof (lit_walk l1 H1 [] ("*"%char :: c :: l2) [] s (S (S (S (length l2)))) ltac:(lia)) as E. cbn [app length Nat.add] in E. fold pt in E.
  cbn [Nat.add]. rewrite E. clear E. destruct (strip l1 s) as [t|] eqn:Et; [|reflexivity].
  apply strip_some in Et. subst s. rewrite loop_S. unfold match_step at 1.
  replace (length l1 =? length pt) with false by (symmetry; apply Nat.eqb_neq; unfold pt; rewrite !app_length; cbn [length]; lia). cbn [orb].
  assert (Hp : rd pt (length l1) = Ok "*"%char) by apply rd_mid.
  destruct t as [|x t].
  - rewrite app_nil_r, Nat.eqb_refl. unfold match_end. rewrite Nat.eqb_refl. cbn [negb].
    replace (length l1 =? length pt) with false by (symmetry; apply Nat.eqb_neq; unfold pt; rewrite !app_length; cbn [length]; lia).
    rewrite Hp. cbn [bind]. change (Ascii.eqb "*" "*") with true. cbn [orb].
    replace (length pt =? S (length l1)) with false by (symmetry; apply Nat.eqb_neq; unfold pt; rewrite !app_length; cbn [length]; lia). reflexivity.
  - replace (length l1 =? length (l1 ++ x :: t)) with false by (symmetry; apply Nat.eqb_neq; rewrite !app_length; cbn [length]; lia).
    rewrite Hp. cbn [bind]. change (Ascii.eqb "*" "*") with true. cbn iota. unfold pt at 1. rewrite skip_wild_one by auto. cbn [bind].
    replace (S (length l1) =? length pt) with false by (symmetry; apply Nat.eqb_neq; unfold pt; rewrite !app_length; cbn [length]; lia).
    assert (Hq : rd pt (S (length l1)) = Ok c).
    { unfold pt. replace (l1 ++ "*"%char :: c :: l2) with ((l1 ++ ["*"%char]) ++ c :: l2) by (now rewrite <- app_assoc).
      replace (S (length l1)) with (length (l1 ++ ["*"%char])) by (rewrite app_length; cbn [length]; lia). apply rd_mid. }
    rewrite Hq. cbn [bind]. rewrite skip_to_ok. cbn [bind].
    pose proof (upto_ok c (x :: t)) as Hu. destruct (upto c (x :: t)) as [a r]. cbn [fst snd]. destruct Hu as (Hn & Hr). unfold advance.
    assert (Hlen : length a <= length (x :: t)) by (destruct r; rewrite Hr; rewrite ?app_length; cbn [length]; lia).
    replace (length l1 + length a <? length ((l1 ++ x :: t) ++ [zero])) with true by (symmetry; apply Nat.ltb_lt; rewrite !app_length; cbn [length] in *; lia).
    cbn [bind]. destruct r as [r|].
    + rewrite Hr. pose proof (lit_walk l2 H2' (l1 ++ ["*"%char; c]) [] (l1 ++ a ++ [c]) r 2 ltac:(lia)) as E.
      replace ((l1 ++ ["*"%char; c]) ++ l2 ++ []) with pt in E by (rewrite app_nil_r, <- app_assoc; reflexivity).
      replace ((l1 ++ a ++ [c]) ++ r) with (l1 ++ a ++ c :: r) in E by (rewrite <- !app_assoc; reflexivity).
      replace (length (l1 ++ ["*"%char; c])) with (S (S (length l1))) in E by (rewrite app_length; cbn [length]; lia).
      replace (length (l1 ++ a ++ [c])) with (S (length l1 + length a)) in E by (rewrite !app_length; cbn [length]; lia).
      cbn [Nat.add] in E. rewrite E. clear E. destruct (strip l2 r) as [u|] eqn:Eu.
      * apply strip_some in Eu. subst r. rewrite loop_S. unfold match_step at 1.
        assert (Ep : length pt = S (S (length l1 + length l2))) by (unfold pt; rewrite app_length; cbn [length]; lia).
        rewrite Ep, Nat.eqb_refl. cbn [orb]. unfold match_end. rewrite Ep, Nat.eqb_refl.
        destruct u as [|y u].
        -- rewrite app_nil_r. destruct (list_eq_dec ascii_dec l2 l2) as [_|N]; [|congruence].
           replace (S (length l1 + length a + length l2) =? length (l1 ++ a ++ c :: l2)) with true by (symmetry; apply Nat.eqb_eq; rewrite !app_length; cbn [length]; lia). reflexivity.
        -- destruct (list_eq_dec ascii_dec (l2 ++ y :: u) l2) as [E|_]; [apply (f_equal (@length _)) in E; rewrite app_length in E; cbn [length] in E; lia|].
           replace (S (length l1 + length a + length l2) =? length (l1 ++ a ++ c :: l2 ++ y :: u)) with false by (symmetry; apply Nat.eqb_neq; rewrite !app_length; cbn [length]; rewrite app_length; cbn [length]; lia). reflexivity.
      * destruct (list_eq_dec ascii_dec r l2) as [->|_]; [|reflexivity]. assert (strip l2 l2 = Some []) by (apply strip_some; now rewrite app_nil_r). congruence.
    + rewrite <- Hr. rewrite loop_S. unfold match_step at 1.
      assert (Ep : length pt = S (S (length l1 + length l2))) by (unfold pt; rewrite app_length; cbn [length]; lia).
      replace (S (length l1 + length (x :: t)) =? length (l1 ++ x :: t)) with false by (symmetry; apply Nat.eqb_neq; rewrite !app_length; cbn [length]; lia).
      rewrite Ep. destruct l2 as [|y l2].
      * cbn [length]. rewrite Nat.add_0_r, Nat.eqb_refl. cbn [orb]. unfold match_end.
        replace (S (length l1 + S (length t)) =? length (l1 ++ x :: t)) with false by (symmetry; apply Nat.eqb_neq; rewrite !app_length; cbn [length]; lia). reflexivity.
      * replace (S (S (length l1)) =? S (S (length l1 + length (y :: l2)))) with false by (symmetry; apply Nat.eqb_neq; cbn [length]; lia). cbn [orb].
        assert (Hy : rd pt (S (S (length l1))) = Ok y).
        { unfold pt. replace (l1 ++ "*"%char :: c :: y :: l2) with ((l1 ++ ["*"%char; c]) ++ y :: l2) by (now rewrite <- app_assoc).
          replace (S (S (length l1))) with (length (l1 ++ ["*"%char; c])) by (rewrite app_length; cbn [length]; lia). apply rd_mid. }
        rewrite Hy. cbn [bind]. inversion H2' as [|? ? Hy2 _]; subst. destruct (wild_false y Hy2) as (W1 & W2 & W3 & W4). rewrite W1, W4.
        rewrite rd_ub by (rewrite !app_length; cbn [length]; lia). reflexivity.
Qed.

(* ---- the matcher never runs out of fuel ---- *)
Definition fuelled {A} (m : outcome A) : Prop := m <> OutOfFuel.
Lemma fuelled_bind {A B} (m : outcome A) (k : A -> outcome B) : fuelled m -> (forall a, m = Ok a -> fuelled (k a)) -> fuelled (bind m k).
Proof. unfold fuelled. destruct m; cbn [bind]; intros F G; [apply G; reflexivity|discriminate|congruence]. Qed.
Lemma fuelled_rd {A} (s : list A) i : fuelled (rd s i).
Proof. unfold fuelled, rd. destruct (nth_error s i); discriminate. Qed.
Lemma fuelled_ok {A} (a : A) : fuelled (Ok a).
Proof. discriminate. Qed.
Lemma fuelled_loop {S0 R0} (I : S0 -> Prop) (mu : S0 -> nat) (body : S0 -> outcome (S0 + R0)) :
  (forall st, I st -> fuelled (body st) /\ forall st', body st = Ok (inl st') -> I st' /\ mu st' < mu st) ->
  forall fuel st, I st -> mu st < fuel -> fuelled (loop fuel body st).
Proof.
  intros H fuel. induction fuel as [|fuel IH]; intros st Hi Hm; [lia|]. rewrite loop_S. destruct (H st Hi) as (F & G).
  apply fuelled_bind; [exact F|]. intros [st'|r] E; [|apply fuelled_ok]. destruct (G _ E). apply IH; [auto|lia].
Qed.
Lemma advance_fuelled {A} (buf : list A) d : fuelled (advance buf d).
Proof. unfold advance. destruct (d <? length buf); discriminate. Qed.
Lemma advance_some {A} (buf : list A) d e : advance buf d = Ok e -> e = S d /\ d < length buf.
Proof. unfold advance. destruct (Nat.ltb_spec d (length buf)); [|discriminate]. intros E. assert (e = S d) by congruence. auto. Qed.
Lemma skip_wild_fuelled pt p : fuelled (skip_wild Ascii.eqb "*"%char "?"%char pt p).
Proof.
  unfold skip_wild. destruct (Nat.leb_spec p (length pt)) as [Hp|Hp].
  - apply fuelled_loop with (I := fun p => p <= length pt) (mu := fun p => length pt - p); [|auto|lia].
    intros q Hq. destruct (Nat.eqb_spec q (length pt)) as [|N]; [split; [discriminate|intros ? [=]]|]. split.
    + apply fuelled_bind; [apply fuelled_rd|]. intros x _. destruct (Ascii.eqb x "*" || Ascii.eqb x "?"); discriminate.
    + intros q'. destruct (rd pt q) as [x| |]; cbn [bind]; try discriminate.
      destruct (Ascii.eqb x "*" || Ascii.eqb x "?"); [|discriminate]. intros [= <-]. lia.
  - rewrite loop_S. destruct (Nat.eqb_spec p (length pt)) as [|N]; [lia|]. rewrite rd_ub by lia. discriminate.
Qed.
Lemma skip_wild_ge pt p q : skip_wild Ascii.eqb "*"%char "?"%char pt p = Ok q -> p <= q.
Proof.
  unfold skip_wild. generalize (S (length pt)) as fuel. intros fuel. revert p. induction fuel as [|fuel IH]; intros p; [discriminate|].
  rewrite loop_S. destruct (p =? length pt); cbn [bind]; [intros [= <-]; lia|].
  destruct (rd pt p) as [x| |]; cbn [bind]; try discriminate. destruct (Ascii.eqb x "*" || Ascii.eqb x "?"); cbn [bind].
  - intros E. apply IH in E. lia.
  - intros [= <-]. lia.
Qed.
Lemma skip_to_fuelled buf dend c d : fuelled (skip_to Ascii.eqb buf dend c d).
Proof.
  unfold skip_to. apply fuelled_loop with (I := fun _ => True) (mu := fun d => length buf - d); [|auto|lia].
  intros e _. destruct (e =? dend); [split; [discriminate|intros ? [=]]|]. split.
  - apply fuelled_bind; [apply fuelled_rd|]. intros x _. destruct (Ascii.eqb c x); [discriminate|].
    apply fuelled_bind; [apply advance_fuelled|]. discriminate.
  - intros e'. destruct (rd buf e) as [x| |]; cbn [bind]; try discriminate. destruct (Ascii.eqb c x); [discriminate|].
    destruct (advance buf e) as [f| |] eqn:Ea; cbn [bind]; try discriminate. apply advance_some in Ea. destruct Ea as (-> & Ha). intros [= <-]. split; auto. lia.
Qed.
Lemma match_fuelled p s : match_str p s <> OutOfFuel.
Proof.
  unfold match_str, match_impl. set (buf := s ++ [zero]). set (dend := length s).
  apply (fuelled_loop (fun st => fst st <= length p) (fun st => length p - fst st)); [|cbn; lia|cbn; lia].
  intros (i, d) Hi. cbn [fst] in *. unfold match_step.
  destruct ((i =? length p) || (d =? dend)) eqn:E.
  { split.
    - apply fuelled_bind; [|discriminate]. unfold match_end. destruct (negb (d =? dend)); [discriminate|].
      destruct (i =? length p); [discriminate|]. apply fuelled_bind; [apply fuelled_rd|]. discriminate.
    - intros st'. destruct (match_end _ _ _ _ _ _ _); discriminate. }
  apply orb_false_iff in E. destruct E as (E & _). apply Nat.eqb_neq in E. split.
  - apply fuelled_bind; [apply fuelled_rd|]. intros x _. destruct (Ascii.eqb "*" x).
    + apply fuelled_bind; [apply skip_wild_fuelled|]. intros q _. destruct (q =? length p); [discriminate|].
      apply fuelled_bind; [apply fuelled_rd|]. intros c _. apply fuelled_bind; [apply skip_to_fuelled|]. intros e _.
      apply fuelled_bind; [apply advance_fuelled|]. discriminate.
    + destruct (Ascii.eqb x "?"); [apply fuelled_bind; [apply advance_fuelled|discriminate]|].
      apply fuelled_bind; [apply fuelled_rd|]. intros y _. destruct (Ascii.eqb x y); [|discriminate].
      apply fuelled_bind; [apply advance_fuelled|discriminate].
  - intros st'. destruct (rd p i) as [x| |] eqn:Er; cbn [bind]; try discriminate. destruct (Ascii.eqb "*" x).
    + destruct (skip_wild _ _ _ p i) as [q| |] eqn:Ew; cbn [bind]; try discriminate. destruct (q =? length p); [discriminate|].
      destruct (rd p q) as [c| |] eqn:Ec; cbn [bind]; try discriminate. destruct (skip_to _ _ _ _ _) as [e| |]; cbn [bind]; try discriminate.
      destruct (advance buf e) as [e'| |]; cbn [bind]; try discriminate. intros [= <-]. cbn [fst].
      apply skip_wild_ge in Ew. unfold rd in Ec. destruct (nth_error p q) eqn:En; [|discriminate]. apply nth_error_some_lt in En. lia.
    + destruct (Ascii.eqb x "?").
      * destruct (advance buf d) as [e'| |]; cbn [bind]; try discriminate. intros [= <-]. cbn [fst]. lia.
      * destruct (rd buf d) as [y| |]; cbn [bind]; try discriminate. destruct (Ascii.eqb x y); [|discriminate].
        destruct (advance buf d) as [e'| |]; cbn [bind]; try discriminate. intros [= <-]. cbn [fst]. lia.
Qed.
Lemma glob_line_ub p s ps : In p ps -> match_str p s = UB -> forall out, glob_line ps s out = UB.
Proof.
  intros Hp E. induction ps as [|q ps IH]; [destruct Hp|]. intros out. cbn [glob_line]. destruct Hp as [->|Hp]; [now rewrite E|].
  pose proof (match_fuelled q s). destruct (match_str q s); cbn [bind]; [auto|auto|congruence].
Qed.
Lemma glob_line_fuelled s ps : forall out, glob_line ps s out <> OutOfFuel.
Proof.
  induction ps as [|q ps IH]; intros out; cbn [glob_line]; [discriminate|]. pose proof (match_fuelled q s). destruct (match_str q s); cbn [bind]; [auto|discriminate|congruence].
Qed.
Lemma glob_lines_ub p s ps ls : In p ps -> In s ls -> match_str p s = UB -> forall out,
  fold_left (fun out s => out <- out ;; glob_line ps s out) ls (Ok out) = UB.
Proof.
  intros Hp Hs E. assert (U : forall ls, fold_left (fun out s => out <- out ;; glob_line ps s out) ls UB = UB) by (induction ls0; cbn; auto).
  induction ls as [|t ls IH]; [destruct Hs|]. intros out. cbn [fold_left bind]. destruct Hs as [->|Hs]; [rewrite (glob_line_ub _ _ _ Hp E); apply U|].
  pose proof (glob_line_fuelled t ps out). destruct (glob_line ps t out); [auto|apply U|congruence].
Qed.
Lemma glober_ub p s args input ls : lines_of input ls -> In p args -> In s ls -> match_str p s = UB -> glober args input = UB.
Proof.
  intros Hl Hp Hs E. unfold glober. destruct (Nat.eqb_spec (length args) 0) as [E0|_]; [destruct args; [destruct Hp|discriminate]|].
  rewrite line_glober_ok. cbn [bind]. rewrite (for_each_line_ok _ _ _ Hl). cbn [bind]. rewrite (glob_lines_ub p s); auto.
  destruct (sort_strings_ok args) as (P & _). eapply Permutation_in; eauto.
Qed.

(* ---- globs ---- *)
Lemma glob_literal l : literal l -> forall s, glob Ascii.eqb "*"%char "?"%char l s <-> s = l.
Proof.
  induction 1 as [|c l (H1 & H2) H IH]; intros s; split.
  - intros G. now inversion G.
  - intros ->. constructor.
  - intros G. inversion G; subst; try congruence. f_equal; [symmetry; now apply Ascii.eqb_eq|now apply IH].
  - intros ->. apply g_char; auto; [apply Ascii.eqb_refl|now apply IH].
Qed.
Lemma glob_prefix l : literal l -> forall s, glob Ascii.eqb "*"%char "?"%char (l ++ ["*"%char]) s <-> exists t, s = l ++ t.
Proof.
  induction 1 as [|c l (H1 & H2) H IH]; intros s; split.
  - intros _. now exists s.
  - intros _. cbn [app]. induction s; [apply g_many0; constructor|now apply g_many].
  - cbn [app]. intros G. inversion G; subst; try congruence. match goal with G' : glob _ _ _ (l ++ _) ?d |- _ => apply IH in G'; destruct G' as (t & ->) end.
    exists t. f_equal. symmetry. now apply Ascii.eqb_eq.
  - intros (t & ->). cbn [app]. apply g_char; auto; [apply Ascii.eqb_refl|]. apply IH. eauto.
Qed.
Lemma upto_none c a : ~ In c a -> upto c a = (a, None).
Proof. induction a as [|x a IH]; intros H; cbn [upto]; [reflexivity|]. destruct (Ascii.eqb_spec c x) as [->|_]; [exfalso; apply H; now left|]. rewrite IH; [reflexivity|]. intros Hi. apply H. now right. Qed.
Lemma upto_some c a t : ~ In c a -> upto c (a ++ c :: t) = (a, Some t).
Proof. induction a as [|x a IH]; intros H; cbn [upto app]; [now rewrite Ascii.eqb_refl|]. destruct (Ascii.eqb_spec c x) as [->|_]; [exfalso; apply H; now left|]. rewrite IH; [reflexivity|]. intros Hi. apply H. now right. Qed.
