(* Proofs about ext_string and build_string. *)
From Verif Require Import Base Split_Model Split_Proofs Edit_Model Edit_Spec Edit_Proofs Edit_Proofs2 Match_Model
  Codec_Model Codec_Spec Codec_Proofs Codec_Proofs2 Num_Model Parse_Model Parse_Spec Parse_Proofs2 Gen_Model Ext_Model Ext_Spec.
Local Open Scope nat_scope.

Lemma trimmed_left_none (s : list ascii) : trimmed_left (one_of []) s s.
Proof. exists []. repeat split; auto. Qed.
Lemma trimmed_right_none (s : list ascii) : trimmed_right (one_of []) s s.
Proof. exists []. rewrite app_nil_r. repeat split; auto. Qed.
Lemma single_one_of c x : single_delimiter_predicate c x = one_of [c] x.
Proof. unfold single_delimiter_predicate, one_of. cbn [existsb]. now rewrite orb_false_r. Qed.
Lemma trimmed_left_ext (p q : ascii -> bool) s t : (forall c, p c = q c) -> trimmed_left p s t -> trimmed_left q s t.
Proof.
  intros H (pre & E & F & N). exists pre. split; [exact E|]. split.
  - eapply Forall_impl; [|exact F]. intros c; cbv beta; intros Hc; now rewrite <- H.
  - intros x t' Et. rewrite <- H. eauto.
Qed.
Lemma trimmed_right_ext (p q : ascii -> bool) s t : (forall c, p c = q c) -> trimmed_right p s t -> trimmed_right q s t.
Proof.
  intros H (suf & E & F & N). exists suf. split; [exact E|]. split.
  - eapply Forall_impl; [|exact F]. intros c; cbv beta; intros Hc; now rewrite <- H.
  - intros t' x Et. rewrite <- H. eauto.
Qed.

Lemma es_remove_leading_ok set s : exists t, es_remove_leading set s = Ok t /\ trimmed_left (one_of set) s t.
Proof.
  destruct set as [|c [|d set]].
  - exists s. split; [reflexivity|apply trimmed_left_none].
  - destruct (remove_leading_str_trimmed (single_delimiter_predicate c) s) as (t & E & H). exists t. split; [exact E|].
    eapply trimmed_left_ext; [|exact H]. intros x. apply single_one_of.
  - destruct (remove_leading_str_trimmed (multiple_char_delimiter_predicate (c :: d :: set)) s) as (t & E & H).
    exists t. split; [exact E|]. eapply trimmed_left_ext; [|exact H]. intros x. apply mcdp_mem.
Qed.
Lemma trailing_cases (p : ascii -> bool) s : exists t, remove_trailing_str p s = Ok t /\
  match s with [] => t = [] | x :: _ => if forallb p s then t = [x] else trimmed_right p s t end.
Proof.
  destruct s as [|x s].
  { exists []. split; reflexivity. }
  destruct (forallb p (x :: s)) eqn:E.
  - exists [x]. split; [|reflexivity]. apply remove_trailing_str_all. apply Forall_forall. now apply forallb_forall.
  - apply remove_trailing_str_trimmed. right.
    clear -E. induction (x :: s) as [|y l IH]; [discriminate|]. cbn [forallb] in E.
    destruct (p y) eqn:P; [|exists y; split; [now left|exact P]]. destruct IH as (z & H & Q); [exact E|].
    exists z. split; [now right|exact Q].
Qed.
Lemma forallb_ext' {A} (p q : A -> bool) l : (forall x, p x = q x) -> forallb p l = forallb q l.
Proof. intros H. induction l as [|x l IH]; [reflexivity|]. cbn [forallb]. now rewrite H, IH. Qed.
Lemma es_remove_trailing_ok set s : exists t, es_remove_trailing set s = Ok t /\ effect (RemoveTrailing set) s t.
Proof.
  assert (G : forall p, (forall c, p c = one_of set c) -> exists t, remove_trailing_str p s = Ok t /\ effect (RemoveTrailing set) s t).
  { intros p H. destruct (trailing_cases p s) as (t & E & Q). exists t. split; [exact E|]. cbn [effect]. destruct s as [|x s]; [exact Q|].
    rewrite <- (forallb_ext' p _ (x :: s) H). destruct (forallb p (x :: s)); [exact Q|]. eapply trimmed_right_ext; eauto. }
  destruct set as [|c [|d set]].
  - exists s. split; [reflexivity|]. cbn [effect]. destruct s as [|x s]; [reflexivity|]. cbn [forallb one_of existsb andb]. apply trimmed_right_none.
  - apply (G (single_delimiter_predicate c)). apply single_one_of.
  - apply (G (multiple_char_delimiter_predicate (c :: d :: set))). intros x. apply mcdp_mem.
Qed.
Lemma es_replace_ok p r s : exists t, es_replace p r s = Ok t /\ with_replaced p r s t.
Proof.
  unfold es_replace. destruct p as [|c p].
  - exists s. split; [reflexivity|]. left. auto.
  - destruct (replace_pattern_ok Ascii.eqb Ascii.eqb_eq zero s (c :: p) r) as (ks & H & E); [discriminate|].
    eexists. split; [exact E|]. right. split; [discriminate|]. eauto.
Qed.
Lemma es_step_ok s o : (exists t, es_step s o = Ok (t, Value tt) /\ effect o s t) \/
                       (o = Append None /\ es_step s o = Ok (s, Throw)).
Proof.
  destruct o as [| |set|set|p r|p|n|[x|]]; cbn [es_step].
  - left. exists (map lower s). rewrite lower_ok. split; reflexivity.
  - left. exists (map upper s). rewrite upper_ok. split; reflexivity.
  - left. destruct (es_remove_leading_ok set s) as (t & E & H). exists t. rewrite E. split; [reflexivity|exact H].
  - left. destruct (es_remove_trailing_ok set s) as (t & E & H). exists t. rewrite E. split; [reflexivity|exact H].
  - left. destruct (es_replace_ok p r s) as (t & E & H). exists t. rewrite E. split; [reflexivity|exact H].
  - left. unfold es_minus_assign. destruct (es_replace_ok p [] s) as (t & E & H). exists t. rewrite E. split; [reflexivity|exact H].
  - left. exists (es_times_assign s n). split; [reflexivity|]. cbn [effect]. unfold es_times_assign. rewrite replicate_inplace_ok. now rewrite Nat.add_1_r.
  - left. exists (s ++ x). split; [reflexivity|]. cbn [effect]. eauto.
  - right. split; reflexivity.
Qed.
Lemma es_chain_ok os : Forall (fun o => o <> Append None) os -> forall s,
  exists t, es_chain s os = Ok (t, Value tt) /\ chain s os t.
Proof.
  induction 1 as [|o os H F IH]; intros s.
  - exists s. split; [reflexivity|constructor].
  - cbn [es_chain]. destruct (es_step_ok s o) as [(t & E & Q)|(E & _)]; [|contradiction].
    rewrite E. cbn [bind]. destruct (IH t) as (u & E' & C). exists u. split; [exact E'|]. econstructor; eauto.
Qed.
Lemma es_chain_throw os os' : Forall (fun o => o <> Append None) os -> forall s,
  exists t, es_chain s (os ++ Append None :: os') = Ok (t, Throw) /\ chain s os t.
Proof.
  induction 1 as [|o os H F IH]; intros s.
  - exists s. split; [reflexivity|constructor].
  - cbn [es_chain app]. destruct (es_step_ok s o) as [(t & E & Q)|(E & _)]; [|contradiction].
    rewrite E. cbn [bind]. destruct (IH t) as (u & E' & C). exists u. split; [exact E'|]. econstructor; eauto.
Qed.
Lemma build_string_ok ts : forall d, build_string d (map Some ts) = (d ++ concat ts, Value tt).
Proof.
  induction ts as [|t ts IH]; intros d; cbn [map build_string type_to_string concat]; [now rewrite app_nil_r|].
  now rewrite IH, app_assoc.
Qed.
Lemma build_string_throw ts rest : forall d, build_string d (map Some ts ++ None :: rest) = (d ++ concat ts, Throw).
Proof.
  induction ts as [|t ts IH]; intros d; cbn [map build_string type_to_string concat app]; [now rewrite app_nil_r|].
  now rewrite IH, app_assoc.
Qed.

Lemma leftmost_unique (p s : list ascii) a ks : leftmost_occs Ascii.eqb p s a ks -> forall ks', leftmost_occs Ascii.eqb p s a ks' -> ks = ks'.
Proof.
  induction 1 as [a H|a k ks H1 H2 H3 H4 IH]; intros ks' H'.
  - inversion H' as [|? k' ks'' A1 A2 A3 A4]; subst; [reflexivity|]. exfalso. eapply H; eauto.
  - inversion H' as [|? k' ks'' A1 A2 A3 A4]; subst; [exfalso; eapply H; eauto|].
    assert (k = k').
    { destruct (Nat.lt_trichotomy k k') as [L|[L|L]]; [|exact L|]; exfalso; [eapply A3|eapply H3]; eauto. }
    subst k'. f_equal. now apply IH.
Qed.
Lemma with_replaced_unique p r s t t' : with_replaced p r s t -> with_replaced p r s t' -> t = t'.
Proof.
  intros [(-> & ->)|(N & ks & H & ->)] [(E & ->)|(N' & ks' & H' & ->)]; try congruence.
  now rewrite (leftmost_unique _ _ _ _ H _ H').
Qed.
Lemma chars_forall (P : ascii -> bool) : forallb P (map ascii_of_nat (seq 0 256)) = true -> forall c, P c = true.
Proof.
  intros H c. rewrite forallb_forall in H. apply H. apply in_map_iff. exists (nat_of_ascii c). split; [apply ascii_nat_embedding|].
  apply in_seq. pose proof (nat_ascii_bounded c). lia.
Qed.
Lemma one_of_In set c : one_of set c = true <-> In c set.
Proof.
  unfold one_of. rewrite existsb_exists. split.
  - intros (x & H & E). apply Ascii.eqb_eq in E. now subst.
  - intros H. exists c. split; [exact H|apply Ascii.eqb_refl].
Qed.
Definition between (a b : nat) (c : ascii) : bool := (a <=? nat_of_ascii c) && (nat_of_ascii c <=? b).
Lemma between_set a b set : forallb (fun c => Bool.eqb (one_of set c) (between a b c)) (map ascii_of_nat (seq 0 256)) = true ->
  forall c, In c set <-> a <= nat_of_ascii c <= b.
Proof.
  intros H c. pose proof (chars_forall _ H c) as E. cbv beta in E. apply Bool.eqb_prop in E. rewrite <- one_of_In, E. unfold between.
  rewrite Bool.andb_true_iff, !Nat.leb_le. tauto.
Qed.
Lemma all_chars_ok ty : ty = IntType 0 255 false \/ ty = IntType (-128) 127 false ->
  all_chars ty = Ok (map ascii_of_nat (seq 0 256)).
Proof. intros [->| ->]; vm_compute; reflexivity. Qed.
