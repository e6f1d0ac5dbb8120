From Verif Require Import Base Codec_Spec Match_Model Match_Spec Match_Proofs Filter_Model Filter_Spec Cont_Spec.
From Coq Require Import Sorted.
Local Open Scope nat_scope.

(* a filter that keeps what P says, token by token *)
Lemma for_tokens_selects {R} (f : R -> list R -> outcome (list R)) (P : R -> Prop) toks :
  Forall (fun r => exists b : bool, (b = true <-> P r) /\ forall out, f r out = Ok (if b then out ++ [r] else out)) toks ->
  forall out, exists kept, for_tokens f toks out = Ok (out ++ kept) /\ selects P toks kept.
Proof.
  induction 1 as [|r toks (b & Hb & Hf) _ IH]; intros out.
  - exists []. rewrite app_nil_r. split; [reflexivity|constructor].
  - cbn [for_tokens]. rewrite Hf. cbn [bind]. destruct b.
    + destruct (IH (out ++ [r])) as (kept & E & Hs). exists (r :: kept).
      rewrite E, <- app_assoc. split; [reflexivity|]. constructor; auto. now apply Hb.
    + destruct (IH out) as (kept & E & Hs). exists kept. split; [exact E|]. constructor; auto.
      intros Hp. apply Hb in Hp. discriminate.
Qed.

(* three-iterator std::equal: the outcome as a function of what is left *)
Fixpoint eq3 (p m : list ascii) : outcome bool :=
  match p with
  | [] => Ok true
  | x :: p => match m with
              | [] => UB
              | y :: m => if Ascii.eqb x y then eq3 p m else Ok false
              end
  end.

Lemma std_equal3_eq p mem a : std_equal3 p mem a = eq3 p (skipn a mem).
Proof.
  unfold std_equal3.
  match goal with |- loop _ ?b _ = _ => set (body := b) end.
  assert (G : forall rest i fuel, i <= length p -> skipn i p = rest -> length rest < fuel ->
     loop fuel body i = eq3 rest (skipn (a + i) mem)).
  { induction rest as [|x rest IH]; intros i fuel Hi Er Hf; (destruct fuel as [|fuel]; [simpl in Hf; lia|]).
    - cbn [loop]. unfold body at 1. destruct (Nat.eqb_spec i (length p)) as [->|Hn]; [reflexivity|].
      exfalso. apply (f_equal (@length ascii)) in Er. rewrite skipn_length in Er. simpl in Er. lia.
    - cbn [loop]. unfold body at 1. destruct (Nat.eqb_spec i (length p)) as [->|Hn].
      { rewrite skipn_all in Er. discriminate. }
      assert (Ex : nth_error p i = Some x).
      { replace i with (i + 0) by lia. rewrite <- nth_error_skipn, Er. reflexivity. }
      rewrite (rd_nth _ _ _ Ex). cbn [bind eq3].
      destruct (nth_error mem (a + i)) as [y|] eqn:Ey.
      + rewrite (rd_nth _ _ _ Ey), (skipn_nth_cons _ _ _ Ey). cbn [bind].
        destruct (Ascii.eqb x y); [|reflexivity].
        replace (S (a + i)) with (a + S i) by lia. apply IH; [lia| |simpl in Hf; lia].
        rewrite (skipn_nth_cons _ _ _ Ex) in Er. congruence.
      + apply nth_error_None in Ey. rewrite rd_ub by lia. rewrite skipn_all2 by lia. reflexivity. }
  rewrite (G p 0); auto; [|lia]. now rewrite Nat.add_0_r.
Qed.

Lemma eq3_nul p : ~ In zero p -> forall m, exists b, eq3 p (m ++ [zero]) = Ok b /\ (b = true <-> exists t, m = p ++ t).
Proof.
  induction p as [|x p IH]; intros Hz m.
  - exists true. split; [reflexivity|]. split; [intros _; now exists m|auto].
  - simpl in Hz. destruct m as [|y m]; cbn [app eq3].
    + destruct (Ascii.eqb_spec x zero); [subst; tauto|]. exists false. split; [reflexivity|].
      split; [discriminate|]. intros (t & E). discriminate.
    + destruct (Ascii.eqb_spec x y) as [->|Hn].
      * destruct (IH ltac:(tauto) m) as (b & E & Hb). exists b. split; [exact E|]. rewrite Hb.
        split; intros (t & Et); exists t; simpl in *; congruence.
      * exists false. split; [reflexivity|]. split; [discriminate|]. intros (t & E). simpl in E. congruence.
Qed.

Lemma eq3_ub m : forall q, q <> [] -> eq3 (m ++ q) m = UB.
Proof.
  induction m as [|y m IH]; intros q Hq; cbn [app eq3]; [now destruct q|].
  rewrite Ascii.eqb_refl. auto.
Qed.

(* the loop over the patterns, given what each pattern says *)
Lemma range_loop pats ci allow mem r out (M : list ascii -> Prop) :
  (forall p, In p pats -> exists b, pattern_matches ci p mem r = Ok b /\ (b = true <-> M p)) ->
  exists b : bool, (b = true <-> exists p, In p pats /\ M p) /\
    filter_on_match_range pats ci allow mem r out = Ok (if Bool.eqb b allow then out ++ [r] else out).
Proof.
  intros HM. unfold filter_on_match_range.
  match goal with |- context [loop _ ?b _] => set (body := b) end.
  assert (G : forall rest i fuel, skipn i pats = rest -> i <= length pats -> length rest < fuel ->
     exists b : bool, (b = true <-> exists p, In p rest /\ M p) /\
       loop fuel body i = Ok (if Bool.eqb b allow then out ++ [r] else out)).
  { induction rest as [|p rest IH]; intros i fuel Er Hi Hf; (destruct fuel as [|fuel]; [simpl in Hf; lia|]).
    - exists false. split; [split; [discriminate|intros (p & [] & _)]|].
      cbn [loop]. unfold body at 1. destruct (Nat.eqb_spec (length pats) i) as [He|Hn].
      + destruct allow; reflexivity.
      + apply (f_equal (@length _)) in Er. rewrite skipn_length in Er. simpl in Er. lia.
    - assert (Ex : nth_error pats i = Some p).
      { replace i with (i + 0) by lia. rewrite <- nth_error_skipn, Er. reflexivity. }
      cbn [loop]. unfold body at 1. pose proof (nth_error_some_lt _ _ _ Ex).
      destruct (Nat.eqb_spec (length pats) i) as [?|Hn]; [lia|].
      rewrite (rd_nth _ _ _ Ex). cbn [bind].
      destruct (HM p (nth_error_In _ _ Ex)) as (b & Eb & Hb). rewrite Eb. cbn [bind]. destruct b.
      + exists true. split; [split; auto; intros _; exists p; split; [now left|now apply Hb]|].
        destruct allow; reflexivity.
      + destruct (IH (S i) fuel) as (b' & Hb' & E').
        * rewrite (skipn_nth_cons _ _ _ Ex) in Er. congruence.
        * lia.
        * simpl in Hf. lia.
        * exists b'. split; [|exact E']. rewrite Hb'. split; intros (q & Hq & Mq).
          -- exists q. split; [now right|auto].
          -- destruct Hq as [->|Hq]; [apply Hb in Mq; discriminate|]. eauto. }
  destruct (G pats 0 (S (length pats))) as (b & Hb & E); auto; [lia|]. eauto.
Qed.

Lemma string_loop pats ci allow s out (M : list ascii -> Prop) :
  (forall p, In p pats -> exists b, pattern_matches ci p (s ++ [zero]) (0, length s) = Ok b /\ (b = true <-> M p)) ->
  exists b : bool, (b = true <-> exists p, In p pats /\ M p) /\
    filter_on_match_string pats ci allow s out = Ok (if b || negb allow then out ++ [s] else out).
Proof.
  intros HM. unfold filter_on_match_string.
  match goal with |- context [loop _ ?b _] => set (body := b) end.
  assert (G : forall rest i fuel, skipn i pats = rest -> i <= length pats -> length rest < fuel ->
     exists b : bool, (b = true <-> exists p, In p rest /\ M p) /\
       loop fuel body i = Ok (if b || negb allow then out ++ [s] else out)).
  { induction rest as [|p rest IH]; intros i fuel Er Hi Hf; (destruct fuel as [|fuel]; [simpl in Hf; lia|]).
    - exists false. split; [split; [discriminate|intros (p & [] & _)]|].
      cbn [loop]. unfold body at 1. destruct (Nat.eqb_spec (length pats) i) as [He|Hn].
      + destruct allow; reflexivity.
      + apply (f_equal (@length _)) in Er. rewrite skipn_length in Er. simpl in Er. lia.
    - assert (Ex : nth_error pats i = Some p).
      { replace i with (i + 0) by lia. rewrite <- nth_error_skipn, Er. reflexivity. }
      cbn [loop]. unfold body at 1. pose proof (nth_error_some_lt _ _ _ Ex).
      destruct (Nat.eqb_spec (length pats) i) as [?|Hn]; [lia|].
      rewrite (rd_nth _ _ _ Ex). cbn [bind].
      destruct (HM p (nth_error_In _ _ Ex)) as (b & Eb & Hb). rewrite Eb. cbn [bind].
      destruct (IH (S i) fuel) as (b' & Hb' & E').
      { rewrite (skipn_nth_cons _ _ _ Ex) in Er. congruence. }
      { lia. }
      { simpl in Hf. lia. }
      destruct b.
      + exists true. split; [split; auto; intros _; exists p; split; [now left|now apply Hb]|].
        destruct allow; [reflexivity|]. rewrite E'. now rewrite orb_true_r.
      + exists b'. split; [|exact E']. rewrite Hb'. split; intros (q & Hq & Mq).
        * exists q. split; [now right|auto].
        * destruct Hq as [->|Hq]; [apply Hb in Mq; discriminate|]. eauto. }
  destruct (G pats 0 (S (length pats))) as (b & Hb & E); auto; [lia|]. eauto.
Qed.

Lemma eqb_allowed b allow (P : Prop) : (b = true <-> P) -> (Bool.eqb b allow = true <-> allowed allow P).
Proof. intros H. destruct b, allow; simpl; intuition congruence. Qed.

Lemma ci_ok pats allow mem toks : Forall (Forall ascii7) pats -> Forall (fun r => Forall ascii7 (sub mem r)) toks ->
  forall out, exists kept,
    for_tokens (filter_on_match_range pats true allow mem) toks out = Ok (out ++ kept) /\
    selects (fun r => allowed allow (one_of_ignoring_case pats (sub mem r))) toks kept.
Proof.
  intros Hp Ht. apply for_tokens_selects. eapply Forall_impl; [|exact Ht]. cbn beta. intros r Hr.
  assert (HM : forall p, In p pats -> exists b, pattern_matches true p mem r = Ok b /\ (b = true <-> map upper p = map upper (sub mem r))).
  { intros p Hi. rewrite Forall_forall in Hp. apply (imatch_ok p (sub mem r) (Hp p Hi) Hr). }
  destruct (range_loop pats true allow mem r [] _ HM) as (b & Hb & _).
  exists (Bool.eqb b allow). split; [now apply eqb_allowed|].
  intros out. destruct (range_loop pats true allow mem r out _ HM) as (b' & Hb' & E).
  assert (b = b') as -> by (destruct b, b'; intuition congruence). exact E.
Qed.

Lemma cs_ok pats allow s toks : Forall (fun p => ~ In zero p) pats -> Forall (fun r => fst r <= length s) toks ->
  forall out, exists kept,
    for_tokens (filter_on_match_range pats false allow (s ++ [zero])) toks out = Ok (out ++ kept) /\
    selects (fun r => allowed allow (exists p, In p pats /\ starts_at p s (fst r))) toks kept.
Proof.
  intros Hp Ht. apply for_tokens_selects. eapply Forall_impl; [|exact Ht]. cbn beta. intros r Hr.
  assert (HM : forall p, In p pats -> exists b, pattern_matches false p (s ++ [zero]) r = Ok b /\ (b = true <-> starts_at p s (fst r))).
  { intros p Hi. rewrite Forall_forall in Hp. unfold pattern_matches. rewrite std_equal3_eq, skipn_app.
    replace (fst r - length s) with 0 by lia. apply (eq3_nul p (Hp p Hi)). }
  destruct (range_loop pats false allow (s ++ [zero]) r [] _ HM) as (b & Hb & _).
  exists (Bool.eqb b allow). split; [now apply eqb_allowed|].
  intros out. destruct (range_loop pats false allow (s ++ [zero]) r out _ HM) as (b' & Hb' & E).
  assert (b = b') as -> by (destruct b, b'; intuition congruence). exact E.
Qed.

Lemma selects_ext {R} (P Q : R -> Prop) toks kept : Forall (fun r => P r <-> Q r) toks ->
  selects P toks kept -> selects Q toks kept.
Proof.
  intros H Hs. induction Hs; inversion H; subst.
  - constructor.
  - constructor; auto. tauto.
  - constructor; auto. tauto.
Qed.

Lemma starts_same_length p s r : fst r <= snd r <= length s -> length p = snd r - fst r ->
  (starts_at p s (fst r) <-> p = sub s r).
Proof.
  destruct r as [a b]. simpl. intros Hr Hl. unfold starts_at, sub. simpl. split.
  - intros (t & ->). rewrite <- Hl. now rewrite firstn_app_len.
  - intros ->. exists (skipn (b - a) (skipn a s)). now rewrite firstn_skipn.
Qed.

(* wildcard filters *)
Lemma star_prefix l data extra : Forall (fun c => c <> "*"%char /\ c <> "?"%char) l ->
  exists b, match_impl Ascii.eqb Ascii.eqb "*"%char "?"%char (l ++ ["*"%char]) (data ++ extra) (length data) = Ok b /\
    (b = true <-> exists t, data = l ++ t).
Proof.
  intros H. exists (walk Ascii.eqb Ascii.eqb "*"%char "?"%char (l ++ ["*"%char]) data). split.
  - apply match_walk; [exact Ascii.eqb_eq|]. exists l, ["*"%char]. split; auto. split.
    + eapply Forall_impl; [|exact H]. cbn. intros a Ha. tauto.
    + right. exists []. auto.
  - rewrite walk_prefix by (auto using Ascii.eqb_eq). split.
    + intros (_ & Hl & Hf). exists (skipn (length l) data). rewrite <- (firstn_skipn (length l) data) at 1. f_equal.
      symmetry. clear Hl H. remember (firstn (length l) data) as u. clear Hequ.
      induction Hf as [|c x l u Hc Hf IH]; auto. apply Ascii.eqb_eq in Hc. now subst.
    + intros (t & ->). split; auto. rewrite app_length. split; [lia|].
      rewrite firstn_app, firstn_all, Nat.sub_diag, app_nil_r. clear H.
      induction l; constructor; auto. apply Ascii.eqb_refl.
Qed.

Lemma sub_extra {A} (mem : list A) r : fst r <= snd r <= length mem ->
  exists extra, skipn (fst r) mem = sub mem r ++ extra /\ length (sub mem r) = snd r - fst r.
Proof.
  destruct r as [a b]. simpl. intros H. exists (skipn (b - a) (skipn a mem)). unfold sub. simpl.
  rewrite firstn_skipn. split; [reflexivity|]. rewrite firstn_length, skipn_length. lia.
Qed.

Lemma xorb_allowed b allow (P : Prop) : (b = true <-> P) -> (xorb b allow = true <-> allowed allow (~ P)).
Proof.
  intros H. destruct b, allow; simpl; intuition congruence.
Qed.

Lemma wildcard_range_ok l allow mem toks : Forall (fun c => c <> "*"%char /\ c <> "?"%char) l ->
  Forall (fun r => fst r <= snd r <= length mem) toks ->
  forall out, exists kept,
    for_tokens (filter_on_wildcard_match_range (l ++ ["*"%char]) allow mem) toks out = Ok (out ++ kept) /\
    selects (fun r => allowed allow (~ exists t, sub mem r = l ++ t)) toks kept.
Proof.
  intros Hl Ht. apply for_tokens_selects. eapply Forall_impl; [|exact Ht]. cbn beta. intros r Hr.
  destruct (sub_extra mem r Hr) as (extra & Ee & El).
  destruct (star_prefix l (sub mem r) extra Hl) as (b & Eb & Hb).
  exists (xorb b allow). split; [now apply xorb_allowed|].
  intros out. unfold filter_on_wildcard_match_range. rewrite Ee, <- El, Eb. reflexivity.
Qed.

Lemma wildcard_string_ok l allow toks : Forall (fun c => c <> "*"%char /\ c <> "?"%char) l ->
  forall out, exists kept,
    for_tokens (filter_on_wildcard_match_string (l ++ ["*"%char]) allow) toks out = Ok (out ++ kept) /\
    selects (fun s => allowed allow (~ exists t, s = l ++ t)) toks kept.
Proof.
  intros Hl. apply for_tokens_selects. apply Forall_forall. intros s _.
  destruct (star_prefix l s [zero] Hl) as (b & Eb & Hb).
  exists (xorb b allow). split; [now apply xorb_allowed|].
  intros out. unfold filter_on_wildcard_match_string, match_str. rewrite Eb. reflexivity.
Qed.

Lemma non_empty_ok toks : forall out, exists kept,
  for_tokens filter_non_empty_range toks out = Ok (out ++ kept) /\ selects (fun r => fst r <> snd r) toks kept.
Proof.
  apply for_tokens_selects. apply Forall_forall. intros r _. exists (negb (fst r =? snd r)).
  split; [|reflexivity]. destruct (Nat.eqb_spec (fst r) (snd r)); simpl; intuition congruence.
Qed.

Lemma skip_ok {A} (p : A -> bool) mem itr end_ : itr <= end_ <= length mem ->
  exists i, skip_while_matching p mem itr end_ = Ok i /\ itr <= i <= end_ /\
    (forall k x, itr <= k < i -> nth_error mem k = Some x -> p x = true) /\
    (i = end_ \/ exists x, nth_error mem i = Some x /\ p x = false).
Proof.
  intros H. apply holds_ex. unfold skip_while_matching.
  apply loop_rule with (mu := fun i => end_ - i)
    (I := fun i => itr <= i <= end_ /\ forall k x, itr <= k < i -> nth_error mem k = Some x -> p x = true).
  - intros i (Hi & Hk). destruct (Nat.eqb_spec end_ i) as [->|Hn].
    + simpl. repeat split; auto; lia.
    + destruct (rd_ok mem i ltac:(lia)) as (x & -> & Ex). cbn [bind]. destruct (p x) eqn:Ep; cbn [holds].
      * split; [|lia]. split; [lia|]. intros k y Hky Hy. destruct (Nat.eq_dec k i) as [->|]; [congruence|].
        apply (Hk k); auto. lia.
      * split; [lia|]. split; [exact Hk|]. right. eauto.
  - split; [lia|]. intros. lia.
  - lia.
Qed.

(* inserters *)
Lemma write_through_ok {T C} (conv : list ascii -> option T) (put : C -> T -> C) toks : forall c,
  write_through conv put c toks = fold_left put (converted conv toks) c.
Proof.
  unfold write_through. induction toks as [|t toks IH]; intros c; [reflexivity|].
  cbn [fold_left converted]. rewrite IH. unfold insert_converted. destruct (conv t); reflexivity.
Qed.

Lemma fold_push {T} (vs : list T) : forall c, fold_left (fun s v => s ++ [v]) vs c = c ++ vs.
Proof.
  induction vs as [|v vs IH]; intros c; simpl; [now rewrite app_nil_r|].
  rewrite IH, <- app_assoc. reflexivity.
Qed.

Lemma ptr_ok {T} (conv : list ascii -> option T) toks : forall pre rest post n,
  length rest = length (converted conv toks) ->
  ptr_write_through conv toks (pre ++ rest ++ post, length pre, n) =
    Ok (pre ++ converted conv toks ++ post, length pre + length rest, n + length rest).
Proof.
  induction toks as [|t toks IH]; intros pre rest post n Hl; cbn [ptr_write_through converted] in *.
  - destruct rest; [|discriminate]. simpl. now rewrite !Nat.add_0_r.
  - unfold ptr_insert. destruct (conv t) as [v|].
    + destruct rest as [|x rest]; [discriminate|]. cbn [app]. rewrite wr_here. cbn [bind].
      replace (pre ++ v :: rest ++ post) with ((pre ++ [v]) ++ rest ++ post) by now rewrite <- app_assoc.
      replace (S (length pre)) with (length (pre ++ [v])) by (rewrite app_length; simpl; lia).
      rewrite IH by (simpl in Hl; lia). rewrite app_length, <- app_assoc. simpl. f_equal. f_equal; [f_equal|]; lia.
    + cbn [bind]. now apply IH.
Qed.

Lemma ptr_ub {T} (conv : list ascii -> option T) toks : forall mem p n,
  p <= length mem -> length mem - p < length (converted conv toks) -> ptr_write_through conv toks (mem, p, n) = UB.
Proof.
  induction toks as [|t toks IH]; intros mem p n Hp Hl; cbn [ptr_write_through converted] in *.
  - simpl in Hl. lia.
  - unfold ptr_insert. destruct (conv t) as [v|].
    + destruct (Nat.eq_dec p (length mem)) as [->|Hn].
      * now rewrite wr_ub by lia.
      * rewrite wr_ok by lia. cbn [bind]. apply IH; rewrite upd_length; [lia|]. simpl in Hl. lia.
    + cbn [bind]. now apply IH.
Qed.

Lemma count_ok {T} (xs : list T) : forall c, (c < 2 ^ 64)%N ->
  fold_left count_insert xs c = ((c + N.of_nat (length xs)) mod 2 ^ 64)%N.
Proof.
  induction xs as [|x xs IH]; intros c Hc; cbn [fold_left length].
  - rewrite N.add_0_r, N.mod_small; auto.
  - rewrite IH by (unfold count_insert; apply N.mod_lt; discriminate). unfold count_insert.
    rewrite N.add_mod_idemp_l by discriminate. f_equal. lia.
Qed.

(* extract_unique *)
Section Unique.
Context {T : Type}.
Variables lt eqb : T -> T -> bool.
Hypothesis order : strict_weak lt.
Hypothesis eqb_ok : forall x y, eqb x y = true <-> x = y.
Hypothesis total : forall x y, lt x y = false -> lt y x = false -> x = y.

Lemma unique_from_ok l : forall last, StronglySorted (fun x y => lt y x = false) (last :: l) ->
  StronglySorted (fun x y => lt x y = true) (last :: unique_from eqb last l) /\
  forall x, In x (last :: unique_from eqb last l) <-> In x (last :: l).
Proof.
  destruct order as (Hi & Ht & Hn).
  induction l as [|x l IH]; intros last H; cbn [unique_from].
  - split; [repeat constructor|]. reflexivity.
  - inversion H as [|? ? Hs Hf]; subst. inversion Hf as [|? ? Hx Hf']; subst.
    inversion Hs as [|? ? Hs' Hf'']; subst.
    destruct (eqb last x) eqn:E.
    + apply eqb_ok in E. subst x. destruct (IH last) as (I1 & I2); [constructor; auto|].
      split; [exact I1|]. intros y. rewrite I2. simpl. tauto.
    + destruct (IH x Hs) as (I1 & I2). split.
      * constructor; [exact I1|].
        assert (Hlt : lt last x = true).
        { destruct (lt last x) eqn:El; auto. exfalso. rewrite (total last x) in E by auto.
          assert (eqb x x = true) by now apply eqb_ok. congruence. }
        constructor; [exact Hlt|]. inversion I1 as [|? ? _ Hfx]; subst.
        eapply Forall_impl; [|exact Hfx]. cbn beta. intros y Hy. eapply Ht; eauto.
      * intros y. change (In y (last :: x :: unique_from eqb x l)) with (last = y \/ In y (x :: unique_from eqb x l)).
        rewrite I2. simpl. tauto.
Qed.

Lemma extract_unique_ok sort l out : sorts lt sort ->
  exists u, extract_unique sort eqb l out = out ++ u /\
    StronglySorted (fun x y => lt x y = true) u /\ forall x, In x u <-> In x l.
Proof.
  intros Hs. unfold extract_unique. exists (unique_copy eqb (sort l)). split; [reflexivity|].
  destruct (Hs l) as (S1 & S2). destruct (sort l) as [|x r]; cbn [unique_copy].
  - split; [constructor|]. exact S2.
  - destruct (unique_from_ok r x S1) as (I1 & I2). split; [exact I1|]. intros y. rewrite I2. apply S2.
Qed.
End Unique.
