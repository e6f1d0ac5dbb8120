From Verif Require Import Base Split_Model Split_Spec Num_Model Num_Spec Num_Proofs Num_Props Parse_Model Parse_Spec Parse_Proofs Parse_Proofs2.
Local Open Scope nat_scope.

Lemma target_eta t : with_value t (t_val t) = t.
Proof. destruct t; reflexivity. Qed.

Lemma results_true_iff ts xs ts' : length ts <= length xs ->
  (results ts xs true ts' <->
   length ts' = length ts /\
   forall i t x, nth_error ts i = Some t -> nth_error xs i = Some x ->
     exists v, t_conv t x (t_val t) = Ok (true, v) /\ nth_error ts' i = Some (with_value t v)).
Proof.
  intros Hl. split.
  - intros H. destruct (results_true _ _ _ H) as (H1 & _ & H3). split; auto.
  - revert xs ts' Hl. induction ts as [|t ts IH]; intros xs ts' Hl [H1 H2].
    + destruct ts'; [constructor|discriminate].
    + destruct xs as [|x xs]; [simpl in Hl; lia|]. destruct ts' as [|t' ts']; [discriminate|].
      destruct (H2 0 t x eq_refl eq_refl) as (v & Hc & E). cbn in E. injection E as ->.
      apply res_ok; auto. apply IH; [simpl in Hl; lia|]. split; [simpl in H1; lia|].
      intros i. exact (H2 (S i)).
Qed.

Lemma results_false_iff ts xs ts' : length ts <= length xs ->
  (results ts xs false ts' <->
   exists j, length ts' = length ts /\
    (exists t x v, nth_error ts j = Some t /\ nth_error xs j = Some x /\ t_conv t x (t_val t) = Ok (false, v) /\
       nth_error ts' j = Some (with_value t v)) /\
    (forall i t x, i < j -> nth_error ts i = Some t -> nth_error xs i = Some x ->
      exists v, t_conv t x (t_val t) = Ok (true, v) /\ nth_error ts' i = Some (with_value t v)) /\
    (forall i, j < i -> nth_error ts' i = nth_error ts i)).
Proof.
  intros Hl. split.
  - intros H. destruct (results_false _ _ _ H) as (j & _ & H1). exists j. exact H1.
  - intros (j & H). revert xs ts' j Hl H. induction ts as [|t ts IH]; intros xs ts' j Hl (H1 & (t0 & x0 & v0 & E1 & E2 & E3 & E4) & H3 & H4).
    + destruct j; discriminate.
    + destruct xs as [|x xs]; [simpl in Hl; lia|]. destruct ts' as [|t' ts']; [discriminate|].
      destruct j as [|j].
      * cbn in E1, E2, E4. injection E1 as ->. injection E2 as ->. injection E4 as ->.
        replace ts' with ts; [now apply res_fail|]. apply nth_error_ext. intros i. symmetry. apply (H4 (S i)). lia.
      * destruct (H3 0 t x ltac:(lia) eq_refl eq_refl) as (v & Hc & E). cbn in E. injection E as ->.
        apply res_ok; auto. apply (IH xs ts' j); [simpl in Hl; lia|]. cbn in E1, E2, E4.
        split; [simpl in H1; lia|]. split; [exists t0, x0, v0; auto|]. split.
        -- intros i t' x' Hi. apply (H3 (S i)). lia.
        -- intros i Hi. apply (H4 (S i)). lia.
Qed.

Lemma results_total ts : forall xs, length ts <= length xs ->
  (forall i t x, nth_error ts i = Some t -> nth_error xs i = Some x -> exists r, t_conv t x (t_val t) = Ok r) ->
  exists b ts', results ts xs b ts'.
Proof.
  induction ts as [|t ts IH]; intros xs Hl H; [exists true, []; constructor|].
  destruct xs as [|x xs]; [simpl in Hl; lia|].
  destruct (H 0 t x eq_refl eq_refl) as ([b v] & Hc). destruct b.
  - destruct (IH xs) as (b & ts' & Hr); [simpl in Hl; lia|intros i; exact (H (S i))|].
    exists b, (with_value t v :: ts'). now apply res_ok.
  - exists false, (with_value t v :: ts). now apply res_fail.
Qed.

Lemma compressed_exists delims s : exists texts, compressed_tokens delims s texts.
Proof. destruct (split_1 delims s) as (toks & _ & H). exists (map (sub s) toks), toks. auto. Qed.

Lemma keeps_unsigned T n : keeps (conv_unsigned T n).
Proof.
  intros x t v. unfold conv_unsigned. destruct (parse_unsigned T n x) as [[z|]| |]; cbn [bind]; intros E; try discriminate. now injection E.
Qed.
Lemma keeps_signed T n : keeps (conv_signed T n).
Proof.
  intros x t v. unfold conv_signed. destruct (parse_signed T n x) as [[z|]| |]; cbn [bind]; intros E; try discriminate. now injection E.
Qed.
Lemma keeps_byte : keeps conv_byte.
Proof. intros x t v. unfold conv_byte. destruct x as [|c [|]]; intros E; try discriminate; now injection E. Qed.
Lemma keeps_bool : keeps conv_bool.
Proof. intros x t v. unfold conv_bool. destruct x as [|c [|]]; intros E; try discriminate; now injection E. Qed.
Lemma keeps_string : keeps conv_string.
Proof. intros x t v. discriminate. Qed.

(* ------------------------------------------------------------------ *)
Lemma canonical_chars x v : canonical x v -> x <> [] /\ Forall number_char x.
Proof.
  intros (ds & [Hne Hd] & _ & H). assert (Hn : Forall number_char ds) by (eapply Forall_impl; [|exact Hd]; intros c Hc; right; exact Hc).
  destruct H as [(_ & -> & _)|(_ & -> & _)]; [auto|]. split; [discriminate|]. constructor; [left; reflexivity|exact Hn].
Qed.

Lemma int_field_ok t x t' : int_field t x t' ->
  (exists v, t_conv t x (t_val t) = Ok (true, v) /\ t' = with_value t v) /\ x <> [] /\ Forall number_char x.
Proof.
  intros H. destruct H as [T n top old v x Hin Hv Hf|T n bot top old v x Hin Hv Hf].
  - assert (R : unsigned_round_trip T n top /\ (top <= hi T)%Z).
    { destruct C20_unsigned_round_trip as (H1 & H2 & H3 & H4). cbn in Hin.
      destruct Hin as [E|[E|[E|[E|[]]]]]; injection E as <- <- <-; (split; [assumption|vm_compute; discriminate]). }
    destruct R as [R Hh]. destruct (R v ltac:(lia)) as (x' & E & Hc & Hp). rewrite Hf in E. injection E as <-. specialize (Hp (proj2 Hv)). split.
    + exists v. cbn [t_conv t_val]. unfold conv_unsigned. rewrite Hp. split; reflexivity.
    + now apply canonical_chars with v.
  - assert (R : signed_round_trip T n bot top /\ (lo T <= bot)%Z /\ (top <= hi T)%Z).
    { destruct C20_signed_round_trip as (H1 & H2 & H3 & H4). cbn in Hin.
      destruct Hin as [E|[E|[E|[E|[]]]]]; injection E as <- <- <- <-; (split; [assumption|split; vm_compute; discriminate]). }
    destruct R as [R [Hlo Hh]]. destruct (R v ltac:(lia)) as (x' & E & Hc & Hp). rewrite Hf in E. injection E as <-. specialize (Hp Hv). split.
    + exists v. cbn [t_conv t_val]. unfold conv_signed. rewrite Hp. split; reflexivity.
    + now apply canonical_chars with v.
Qed.

Lemma int_fields_ok ts xs ts' : int_fields ts xs ts' ->
  writes ts xs ts' /\ Forall (fun x => x <> [] /\ Forall number_char x) xs.
Proof.
  induction 1 as [|t x t' ts xs ts' Hf _ [IH1 IH2]]; [split; constructor|].
  destruct (int_field_ok _ _ _ Hf) as ((v & Hv & ->) & Hx). split; [now apply writes_cons|constructor; auto].
Qed.

Lemma int_round_trip delims sep ts xs ts' : sep <> [] -> incl sep delims ->
  (forall c, In c delims -> ~ number_char c) -> int_fields ts xs ts' ->
  parse_values delims (construct [] sep xs) ts = Ok (true, ts').
Proof.
  intros Hs Hi Hd Hf. destruct (int_fields_ok _ _ _ Hf) as [Hw Hx].
  apply construct_parse; auto. eapply Forall_impl; [|exact Hx]. cbn. intros x [H1 H2]. split; auto.
  intros c Hc Hin. rewrite Forall_forall in H2. exact (Hd c Hin (H2 c Hc)).
Qed.

(* reading a line through a loop: the stream afterwards starts right behind the line *)
Lemma first_line_exists s : exists line r, first_line s line r.
Proof. eexists _, _. apply take_line_ok. Qed.
