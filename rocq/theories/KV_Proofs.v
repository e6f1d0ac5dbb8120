From Verif Require Import Base Split_Model Split_Spec Split_Proofs Num_Model Num_Spec Num_Props Parse_Model Parse_Spec Parse_Proofs Parse_Proofs3 KV_Model KV_Spec.
Local Open Scope nat_scope.

(* ------------------------------------------------------------------ *)
(* split_pair *)
Lemma sub_split {A} (s : list A) b m e : b <= m -> m <= e -> e <= length s -> sub s (b, e) = sub s (b, m) ++ sub s (m, e).
Proof.
  intros. unfold sub. cbn [fst snd]. 
  rewrite <- (firstn_skipn (m - b) (firstn (e - b) (skipn b s))).
  rewrite firstn_firstn, Nat.min_l by lia. f_equal.
  rewrite skipn_firstn_comm, skipn_skipn. f_equal; [lia|]. f_equal. lia.
Qed.
Lemma sub_cons {A} (s : list A) b e c : nth_error s b = Some c -> b < e -> e <= length s -> sub s (b, e) = c :: sub s (S b, e).
Proof.
  intros Hc Hb He. unfold sub. cbn [fst snd]. rewrite (skipn_nth_cons _ _ _ Hc).
  replace (e - b) with (S (e - S b)) by lia. reflexivity.
Qed.
Lemma sub_len {A} (s : list A) b e : b <= e -> e <= length s -> length (sub s (b, e)) = e - b.
Proof. intros. unfold sub. cbn [fst snd]. rewrite firstn_length, skipn_length. lia. Qed.

Definition first_at {A} (p : A -> bool) (s : list A) (b m : nat) : Prop :=
  (forall i x, b <= i < m -> nth_error s i = Some x -> p x = false) /\
  exists c, nth_error s m = Some c /\ p c = true.

Lemma split_pair_spec {A} (p : A -> bool) s b e v1 v2 : b <= e -> e <= length s ->
  (exists m, b <= m /\ S m < e /\ first_at p s b m /\
     split_pair p s b e v1 v2 = Ok (true, (b, m), (S m, e))) \/
  (exists m, b <= m /\ S m = e /\ first_at p s b m /\ split_pair p s b e v1 v2 = Ok (false, (b, m), v2)) \/
  ((forall i x, b <= i < e -> nth_error s i = Some x -> p x = false) /\
     split_pair p s b e v1 v2 = Ok (false, v1, v2)).
Proof.
  intros Hb He. unfold split_pair. destruct (Nat.eqb_spec (e - b) 0) as [E|E].
  { right. right. split; [intros; lia|reflexivity]. }
  match goal with |- context [loop _ ?f b] => set (body := f) end.
  pose (Q := fun r : bool * (nat * nat) * (nat * nat) =>
    (exists m, b <= m /\ S m < e /\ first_at p s b m /\ r = (true, (b, m), (S m, e))) \/
    (exists m, b <= m /\ S m = e /\ first_at p s b m /\ r = (false, (b, m), v2)) \/
    ((forall i x, b <= i < e -> nth_error s i = Some x -> p x = false) /\ r = (false, v1, v2))).
  assert (H : holds (loop (S (e - b)) body b) Q).
  { apply loop_rule with (I := fun i => b <= i <= e /\ forall j x, b <= j < i -> nth_error s j = Some x -> p x = false)
                         (mu := fun i => e - i).
    - intros i [Hi Hf]. unfold body. destruct (Nat.eqb_spec i e) as [->|Hne].
      + cbn [holds]. right. right. auto.
      + destruct (nth_error s i) as [c|] eqn:Ec; [|apply nth_error_None in Ec; lia].
        rewrite (rd_nth _ _ _ Ec). cbn [bind]. destruct (p c) eqn:Ep.
        * assert (Hat : first_at p s b i) by (split; [exact Hf|exists c; auto]).
          destruct (Nat.eqb_spec (S i) e) as [Hs|Hs]; cbn [holds].
          -- right. left. exists i. repeat split; try lia; apply Hat.
          -- left. exists i. split; [lia|]. split; [lia|]. auto.
        * cbn [holds]. split; [|lia]. split; [lia|]. intros j x Hj Hx.
          destruct (Nat.eq_dec j i) as [->|Hn]; [congruence|]. apply (Hf j); [lia|exact Hx].
    - split; [lia|]. intros; lia.
    - lia. }
  destruct (loop (S (e - b)) body b) as [r| |]; cbn [holds] in H; try contradiction.
  destruct H as [(m & H1 & H2 & H3 & ->)|[(m & H1 & H2 & H3 & ->)|[H1 ->]]]; [left|right; left|right; right]; eauto.
Qed.

Lemma nth_sub {A} (s : list A) b e i : b <= e -> e <= length s -> i < e - b -> nth_error (sub s (b, e)) i = nth_error s (b + i).
Proof. intros. now apply nth_error_sub. Qed.

Lemma in_sub {A} (s : list A) b e x : b <= e -> e <= length s -> In x (sub s (b, e)) -> exists i, b <= i < e /\ nth_error s i = Some x.
Proof.
  intros Hb He Hx. apply In_nth_error in Hx. destruct Hx as (i & Hi).
  pose proof (nth_error_some_lt _ _ _ Hi) as Hl. rewrite sub_len in Hl by lia.
  rewrite nth_sub in Hi by lia. exists (b + i). split; [lia|exact Hi].
Qed.

(* in terms of the text of the range *)
Lemma split_pair_text d s b e v1 v2 : b <= e -> e <= length s ->
  (exists k v m, kv_field d (sub s (b, e)) k v /\ sub s (b, m) = k /\ sub s (S m, e) = v /\
     split_pair (single_delimiter_predicate d) s b e v1 v2 = Ok (true, (b, m), (S m, e))) \/
  ((forall k v, ~ kv_field d (sub s (b, e)) k v) /\
     exists v1' v2', split_pair (single_delimiter_predicate d) s b e v1 v2 = Ok (false, v1', v2')).
Proof.
  intros Hb He. unfold single_delimiter_predicate.
  destruct (split_pair_spec (fun c => Ascii.eqb d c) s b e v1 v2 Hb He)
    as [(m & H1 & H2 & [H3 (c & Hc & Hd)] & E)|[(m & H1 & H2 & [H3 (c & Hc & Hd)] & E)|[H E]]].
  - left. apply Ascii.eqb_eq in Hd. subst c. exists (sub s (b, m)), (sub s (S m, e)), m.
    split; [|auto]. split; [|split].
    + rewrite (sub_split s b m e) by lia. f_equal. apply sub_cons; auto; lia.
    + intros Hin. apply in_sub in Hin; [|lia|lia]. destruct Hin as (i & Hi & Hx). apply H3 in Hx; [|lia].
      rewrite Ascii.eqb_refl in Hx. discriminate.
    + intros E0. assert (L : length (sub s (S m, e)) = e - S m) by (apply sub_len; lia). rewrite E0 in L. simpl in L. lia.
  - right. split; [|eauto]. apply Ascii.eqb_eq in Hd. subst c. intros k v (Ef & Hk & Hv).
    rewrite (sub_split s b m e) in Ef by lia.
    rewrite (sub_cons s m e d Hc) in Ef by lia. replace (sub s (S m, e)) with (@nil ascii) in Ef.
    2:{ subst e. unfold sub. cbn [fst snd]. now rewrite Nat.sub_diag. }
    assert (~ In d (sub s (b, m))).
    { intros Hin. apply in_sub in Hin; [|lia|lia]. destruct Hin as (i & Hi & Hx). apply H3 in Hx; [|lia].
      rewrite Ascii.eqb_refl in Hx. discriminate. }
    revert Ef Hk H. generalize (sub s (b, m)). clear -Hv. intros l. revert k.
    induction l as [|a l IH]; intros [|a' k] Ef Hk H; cbn in *.
    + injection Ef as <-. congruence.
    + injection Ef as <- Ef. apply Hk. auto.
    + injection Ef as -> Ef. apply H. auto.
    + injection Ef as -> Ef. apply (IH k); auto.
  - right. split; [|eauto]. intros k v (Ef & _ & _).
    assert (Hin : In d (sub s (b, e))) by (rewrite Ef; apply in_or_app; right; left; reflexivity).
    apply in_sub in Hin; [|lia|lia]. destruct Hin as (i & Hi & Hx). apply H in Hx; [|lia].
    rewrite Ascii.eqb_refl in Hx. discriminate.
Qed.

Lemma kv_field_unique d f k v k' v' : kv_field d f k v -> kv_field d f k' v' -> k = k' /\ v = v'.
Proof.
  intros (-> & Hk & _) (E & Hk' & _). revert k' E Hk'. induction k as [|a k IH]; intros [|b k'] E Hk'; cbn in *.
  - injection E as ->. auto.
  - injection E as -> E. exfalso. apply Hk'. auto.
  - injection E as -> E. exfalso. apply Hk. auto.
  - injection E as -> E. destruct (IH ltac:(auto) k' E ltac:(auto)) as [-> ->]. auto.
Qed.

(* ------------------------------------------------------------------ *)
Section Parser.
Variable lookup_m : list ascii -> outcome (option nat).
Variable lookup : list ascii -> option nat.
Hypothesis lookup_ok : forall k, lookup_m k = Ok (lookup k).
Variables bd d : ascii.

Lemma kv_assign_iff vars k v b vars' :
  kv_assign lookup_m vars k v = Ok (b, vars') <->
  match lookup k with
  | None => b = false /\ vars' = vars
  | Some i => exists t x, nth_error vars i = Some t /\ t_conv t v (t_val t) = Ok (b, x) /\ vars' = upd vars i (given t x)
  end.
Proof.
  unfold kv_assign. rewrite lookup_ok. cbn [bind]. destruct (lookup k) as [i|].
  - destruct (nth_error vars i) as [t|] eqn:Et.
    + rewrite (rd_nth _ _ _ Et). cbn [bind]. unfold run_target.
      destruct (t_conv t v (t_val t)) as [[c x]| |] eqn:Ec; cbn [bind].
      * rewrite wr_ok by (eapply nth_error_some_lt; eauto). cbn [bind]. split.
        -- intros E. injection E as <- <-. exists t, x. auto.
        -- intros (t' & x' & E1 & E2 & ->). injection E1 as <-. rewrite Ec in E2. injection E2 as -> ->. reflexivity.
      * split; [discriminate|]. intros (t' & x' & E1 & E2 & _). injection E1 as <-. congruence.
      * split; [discriminate|]. intros (t' & x' & E1 & E2 & _). injection E1 as <-. congruence.
    + rewrite rd_ub by (now apply nth_error_None). cbn [bind]. split; [discriminate|]. intros (t' & x' & E1 & _). congruence.
  - split; [intros E; injection E; auto|]. intros [-> ->]. reflexivity.
Qed.

Lemma kv_pair_iff s r vars b vars' : fst r <= snd r -> snd r <= length s ->
  (kv_pair lookup_m d s r vars = Ok (b, vars') <-> field_result d lookup (sub s r) vars b vars').
Proof.
  destruct r as [a e]. cbn [fst snd]. intros Ha He. unfold kv_pair. cbn [fst snd].
  destruct (split_pair_text d s a e (0, 0) (0, 0) Ha He) as [(k & v & m & Hf & Ek & Ev & ->)|[Hn (v1' & v2' & ->)]]; cbn [bind negb].
  - rewrite Ek, Ev. rewrite kv_assign_iff. split.
    + destruct (lookup k) as [i|] eqn:El.
      * intros (t & x & H1 & H2 & ->). eapply fr_convert; eauto.
      * intros [-> ->]. eapply fr_unknown; eauto.
    + intros H. inversion H as [Hn|k' v' Hf' El|k' v' i t b' x Hf' El Ht Hc]; subst.
      * exfalso. eapply Hn; eauto.
      * destruct (kv_field_unique _ _ _ _ _ _ Hf Hf') as [E1 E2]. rewrite E1, El. auto.
      * destruct (kv_field_unique _ _ _ _ _ _ Hf Hf') as [E1 E2]. rewrite E1, E2, El. eauto.
  - split.
    + intros E. injection E as <- <-. now apply fr_malformed.
    + intros H. inversion H as [Hn'|k' v' Hf' El|k' v' i t b' x Hf' El Ht Hc]; subst; [reflexivity| |]; exfalso; eapply Hn; eauto.
Qed.

Lemma field_result_fun f vars b1 v1 b2 v2 : field_result d lookup f vars b1 v1 -> field_result d lookup f vars b2 v2 -> b1 = b2 /\ v1 = v2.
Proof.
  intros H1 H2.
  assert (E : forall b v, field_result d lookup f vars b v -> kv_pair lookup_m d f (0, length f) vars = Ok (b, v)).
  { intros b v H. apply kv_pair_iff; cbn [fst snd]; try lia.
    replace (sub f (0, length f)) with f; auto. unfold sub. cbn [fst snd skipn]. rewrite Nat.sub_0_r. symmetry. apply firstn_all. }
  apply E in H1, H2. rewrite H1 in H2. injection H2. auto.
Qed.

Definition good_ranges (s : list ascii) (toks : list (nat * nat)) : Prop :=
  Forall (fun r => fst r <= snd r /\ snd r <= length s) toks.

Lemma sub_nil_iff {A} (s : list A) r : fst r <= snd r -> snd r <= length s -> (snd r - fst r = 0 <-> sub s r = []).
Proof.
  destruct r as [a e]. cbn [fst snd]. intros Ha He. rewrite <- length_zero_iff_nil, sub_len by lia. lia.
Qed.

Lemma kv_pairs_iff s toks : good_ranges s toks -> forall vars b vars',
  kv_pairs lookup_m d s toks vars = Ok (b, vars') <-> strict_result d lookup (map (sub s) toks) vars b vars'.
Proof.
  induction 1 as [|r toks [Hr1 Hr2] _ IH]; intros vars b vars'; cbn [kv_pairs map].
  - split; [intros E; injection E as <- <-; constructor|]. intros H. inversion H. reflexivity.
  - destruct (Nat.eqb_spec (snd r - fst r) 0) as [E|E].
    + apply (sub_nil_iff s r Hr1 Hr2) in E. rewrite E. rewrite IH. split; [apply sr_empty|].
      intros H. inversion H; subst; auto; congruence.
    + assert (Hne : sub s r <> []) by (intros H; apply (sub_nil_iff s r Hr1 Hr2) in H; auto).
      destruct (kv_pair lookup_m d s r vars) as [[c vars1]| |] eqn:Ep; cbn [bind].
      * pose proof Ep as Ep'. apply (kv_pair_iff s r vars c vars1 Hr1 Hr2) in Ep'. destruct c; cbn [negb].
        -- rewrite IH. split; [intros H; eapply sr_ok; eauto|]. intros H. inversion H as [|? ? ? ? H0 Hx|f fs ? v1 ? ? Hnf Hf Hs|f fs ? v1 Hnf Hf]; subst.
           ++ congruence.
           ++ destruct (field_result_fun _ _ _ _ _ _ Ep' Hf) as [_ ->]. exact Hs.
           ++ destruct (field_result_fun _ _ _ _ _ _ Ep' Hf). discriminate.
        -- split.
           ++ intros E'. injection E' as <- <-. now apply sr_stop.
           ++ intros H. inversion H as [|? ? ? ? H0 Hx|f fs ? v1 ? ? Hnf Hf Hs|f fs ? v1 Hnf Hf]; subst.
              ** congruence.
              ** destruct (field_result_fun _ _ _ _ _ _ Ep' Hf). discriminate.
              ** destruct (field_result_fun _ _ _ _ _ _ Ep' Hf) as [_ ->]. reflexivity.
      * split; [discriminate|]. intros H. exfalso. inversion H as [|? ? ? ? H0 Hx|f fs ? v1 ? ? Hnf Hf Hs|f fs ? v1 Hnf Hf]; subst; [congruence| |];
          apply kv_pair_iff in Hf; auto; congruence.
      * split; [discriminate|]. intros H. exfalso. inversion H as [|? ? ? ? H0 Hx|f fs ? v1 ? ? Hnf Hf Hs|f fs ? v1 Hnf Hf]; subst; [congruence| |];
          apply kv_pair_iff in Hf; auto; congruence.
Qed.

Lemma kv_pairs_ignore_iff s toks : good_ranges s toks -> forall vars n0 n vars',
  kv_pairs_ignore lookup_m d s toks n0 vars = Ok (n, vars') <->
  exists m, n = n0 + m /\ lenient_result d lookup (map (sub s) toks) vars m vars'.
Proof.
  induction 1 as [|r toks [Hr1 Hr2] _ IH]; intros vars n0 n vars'; cbn [kv_pairs_ignore map].
  - split; [intros E; injection E as <- <-; exists 0; split; [lia|constructor]|].
    intros (m & -> & H). inversion H. rewrite Nat.add_0_r. reflexivity.
  - destruct (Nat.eqb_spec (fst r) (snd r)) as [E|E].
    + assert (E0 : sub s r = []) by (apply (sub_nil_iff s r Hr1 Hr2); lia). rewrite E0. rewrite IH.
      split; intros (m & -> & H); exists m; (split; [reflexivity|]); [now apply lr_empty|].
      inversion H; subst; auto; congruence.
    + assert (Hne : sub s r <> []) by (intros H; apply (sub_nil_iff s r Hr1 Hr2) in H; lia).
      destruct (kv_pair lookup_m d s r vars) as [[c vars1]| |] eqn:Ep; cbn [bind].
      * pose proof Ep as Ep'. apply (kv_pair_iff s r vars c vars1 Hr1 Hr2) in Ep'. rewrite IH. split.
        -- intros (m & -> & H). exists (if c then m else S m). split; [destruct c; lia|].
           eapply lr_field; eauto.
        -- intros (m & -> & H). inversion H as [|? ? ? ? Hx|f fs ? v1 b' m' ? Hnf Hf Hs]; subst; [congruence|].
           destruct (field_result_fun _ _ _ _ _ _ Ep' Hf) as [<- <-]. exists m'. split; [destruct c; lia|exact Hs].
      * split; [discriminate|]. intros (m & -> & H). exfalso. inversion H as [|? ? ? ? Hx|f fs ? v1 b' m' ? Hnf Hf Hs]; subst; [congruence|].
        apply kv_pair_iff in Hf; auto; congruence.
      * split; [discriminate|]. intros (m & -> & H). exfalso. inversion H as [|? ? ? ? Hx|f fs ? v1 b' m' ? Hnf Hf Hs]; subst; [congruence|].
        apply kv_pair_iff in Hf; auto; congruence.
Qed.

Lemma fields_split s fs : fields_of bd s fs ->
  exists toks, split (single_delimiter_predicate bd) s 0 = Ok (toks, length toks) /\ fs = map (sub s) toks /\ good_ranges s toks.
Proof.
  intros (toks & Ht & ->). exists toks.
  destruct (Split_Proofs3.split_default_fields (fun c => Ascii.eqb bd c) s) as (toks' & E & Ht' & Hr & _).
  rewrite (tokens_unique _ _ _ _ _ _ Ht' Ht) in *. auto.
Qed.

Lemma kv_parse_iff s fs vars b vars' : fields_of bd s fs ->
  (kv_parse lookup_m bd d s vars = Ok (b, vars') <->
   (s = [] /\ b = false /\ vars' = vars) \/ (s <> [] /\ strict_result d lookup fs vars b vars')).
Proof.
  intros Hf. pose proof Hf as (toks0 & Ht0 & _). destruct (fields_split s fs Hf) as (toks & E & -> & Hg).
  unfold kv_parse. rewrite E. cbn [bind].
  destruct s as [|c s].
  - cbn in E. injection E as <-. cbn. split; [intros Hq; injection Hq as <- <-; auto|]. intros [(_ & -> & ->)|[Hq _]]; [reflexivity|congruence].
  - destruct (Nat.eqb_spec (length toks) 0) as [E0|E0].
    { exfalso. apply length_zero_iff_nil in E0. subst toks.
      destruct (Split_Proofs3.split_default_fields (fun c => Ascii.eqb bd c) (c :: s)) as (toks' & E' & _ & _ & _ & _ & H').
      unfold single_delimiter_predicate in E. rewrite E in E'. injection E' as <-.
      destruct (H' ltac:(discriminate)) as [H'' _]. discriminate. }
    rewrite kv_pairs_iff by exact Hg. split; [intros H; right; split; [discriminate|exact H]|]. intros [[H _]|[_ H]]; [discriminate|exact H].
Qed.

Lemma kv_parse_ignore_iff s fs vars n vars' : fields_of bd s fs ->
  (kv_parse_ignore lookup_m bd d s vars = Ok (n, vars') <-> lenient_result d lookup fs vars n vars').
Proof.
  intros Hf. destruct (fields_split s fs Hf) as (toks & E & -> & Hg).
  unfold kv_parse_ignore. rewrite E. cbn [bind]. rewrite kv_pairs_ignore_iff by exact Hg. cbn [plus].
  split; [intros (m & -> & H); exact H|]. intros H. exists n. auto.
Qed.

(* --- consequences --- *)
Definition mentions (f : list ascii) (i : nat) : Prop := exists k v, kv_field d f k v /\ lookup k = Some i.

Lemma field_frame f vars b vars' i : field_result d lookup f vars b vars' -> ~ mentions f i -> nth_error vars' i = nth_error vars i.
Proof.
  intros H Hm. inversion H; subst; auto. apply nth_error_upd_other.
  intros ->. apply Hm. exists k, v. auto.
Qed.
Lemma field_type f vars b vars' i t0 : field_result d lookup f vars b vars' -> nth_error vars i = Some t0 ->
  exists x, nth_error vars' i = Some (given t0 x).
Proof.
  intros H Ht. assert (Hkeep : exists x, nth_error vars i = Some (given t0 x)) by (exists (t_val t0); rewrite Ht; destruct t0; reflexivity).
  inversion H as [Hn|k v Hf El|k v j t b' x Hf El Hj Hc]; subst; auto.
  destruct (Nat.eq_dec j i) as [->|Hne].
  - rewrite Ht in Hj. injection Hj as <-. exists x. apply nth_error_upd_same. eapply nth_error_some_lt; eauto.
  - rewrite nth_error_upd_other by auto. exact Hkeep.
Qed.
Lemma lenient_frame fs vars n vars' i : lenient_result d lookup fs vars n vars' -> (forall f, In f fs -> ~ mentions f i) ->
  nth_error vars' i = nth_error vars i.
Proof.
  induction 1 as [|fs vars n vars' _ IH|f fs vars vars1 b n vars' Hne Hf _ IH]; intros Hm; auto.
  - apply IH. intros f Hf. apply Hm. now right.
  - rewrite IH by (intros g Hg; apply Hm; now right). eapply field_frame; eauto. apply Hm. now left.
Qed.
Lemma strict_frame fs vars b vars' i : strict_result d lookup fs vars b vars' -> (forall f, In f fs -> ~ mentions f i) ->
  nth_error vars' i = nth_error vars i.
Proof.
  induction 1 as [|fs vars n vars' _ IH|f fs vars vars1 b vars' Hne Hf _ IH|f fs vars vars1 Hne Hf]; intros Hm; auto.
  - apply IH. intros f Hf. apply Hm. now right.
  - rewrite IH by (intros g Hg; apply Hm; now right). eapply field_frame; eauto. apply Hm. now left.
  - eapply field_frame; eauto. apply Hm. now left.
Qed.
Lemma lenient_type fs vars n vars' i t0 : lenient_result d lookup fs vars n vars' -> nth_error vars i = Some t0 ->
  exists x, nth_error vars' i = Some (given t0 x).
Proof.
  intros H. revert t0. induction H as [|fs vars n vars' _ IH|f fs vars vars1 b n vars' Hne Hf _ IH]; intros t0 Ht; auto.
  - exists (t_val t0). rewrite Ht. destruct t0; reflexivity.
  - destruct (field_type _ _ _ _ _ _ Hf Ht) as (x & Hx). destruct (IH _ Hx) as (y & Hy). exists y. exact Hy.
Qed.
Lemma lenient_app fs gs vars n vars' : lenient_result d lookup (fs ++ gs) vars n vars' ->
  exists n1 n2 mid, lenient_result d lookup fs vars n1 mid /\ lenient_result d lookup gs mid n2 vars' /\ n = n1 + n2.
Proof.
  revert vars n. induction fs as [|f fs IH]; intros vars n H; cbn [app] in H.
  - exists 0, n, vars. split; [constructor|]. auto.
  - inversion H as [|? ? ? ? Hx|? ? ? v1 b' m' ? Hnf Hf Hs]; subst.
    + destruct (IH _ _ Hx) as (n1 & n2 & mid & H1 & H2 & ->). exists n1, n2, mid. split; [now apply lr_empty|auto].
    + destruct (IH _ _ Hs) as (n1 & n2 & mid & H1 & H2 & ->). exists (if b' then n1 else S n1), n2, mid.
      split; [eapply lr_field; eauto|]. split; [exact H2|]. destruct b'; reflexivity.
Qed.

(* the last field that mentions variable i decides its value *)
Lemma lenient_last pre f post vars n vars' i k v t0 :
  lenient_result d lookup (pre ++ f :: post) vars n vars' -> kv_field d f k v -> lookup k = Some i ->
  (forall g, In g post -> ~ mentions g i) -> nth_error vars i = Some t0 ->
  exists b old x, t_conv t0 v old = Ok (b, x) /\ nth_error vars' i = Some (given t0 x).
Proof.
  intros H Hf Hl Hpost Ht. destruct (lenient_app _ _ _ _ _ H) as (n1 & n2 & mid & H1 & H2 & _).
  destruct (lenient_type _ _ _ _ _ _ H1 Ht) as (x0 & Hx0).
  inversion H2 as [|? ? ? ? Hx|? ? ? v1 b' m' ? Hnf Hfr Hs]; subst.
  - destruct Hf as (E & _). destruct k; discriminate.
  - rewrite (lenient_frame _ _ _ _ i Hs Hpost).
    inversion Hfr as [Hn|k' w Hf' El|k' w j t b x Hf' El Hj Hc]; subst.
    + exfalso. eapply Hn; eauto.
    + destruct (kv_field_unique _ _ _ _ _ _ Hf Hf') as [<- <-]. congruence.
    + destruct (kv_field_unique _ _ _ _ _ _ Hf Hf') as [<- <-]. rewrite Hl in El. injection El as <-.
      rewrite Hx0 in Hj. injection Hj as <-. exists b', x0, x. split; [exact Hc|].
      apply nth_error_upd_same. eapply nth_error_some_lt; eauto.
Qed.

(* strict mode that succeeds does what ignoring failures does, with no failure *)
Lemma strict_lenient fs vars vars' : strict_result d lookup fs vars true vars' -> lenient_result d lookup fs vars 0 vars'.
Proof.
  intros H. remember true as b eqn:Eb. induction H as [|fs vars b vars' _ IH|f fs vars vars1 b vars' Hne Hf _ IH|]; try discriminate; [constructor|..].
  - apply lr_empty; auto.
  - change 0 with (if true then 0 else 1). eapply lr_field; eauto.
Qed.
End Parser.

Lemma fields_exist d s : exists fs, fields_of d s fs.
Proof.
  destruct (Split_Proofs3.split_default_fields (fun c => Ascii.eqb d c) s) as (toks & _ & H & _). exists (map (sub s) toks), toks. auto.
Qed.
Lemma fields_unique d s f1 f2 : fields_of d s f1 -> fields_of d s f2 -> f1 = f2.
Proof. intros (a & Ha & ->) (b & Hb & ->). now rewrite (tokens_unique _ _ _ _ _ _ Ha Hb). Qed.
