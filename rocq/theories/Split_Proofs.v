From Verif Require Import Base Split_Model Split_Spec.

(* ---------- option bits ---------- *)
Lemma land_pow2_testbit (o k : N) : (N.land o (2^k) =? 2^k)%N = N.testbit o k.
Proof.
  destruct (N.testbit o k) eqn:E.
  - apply N.eqb_eq. apply N.bits_inj. intros j.
    rewrite N.land_spec, N.pow2_bits_eqb. destruct (N.eqb_spec k j); subst; [now rewrite E|].
    apply andb_false_r.
  - apply N.eqb_neq. intros H.
    assert (N.testbit (N.land o (2^k)) k = N.testbit (2^k) k) by now rewrite H.
    rewrite N.land_spec, E, N.pow2_bits_true in H0. discriminate.
Qed.

Lemma compress_bit o : perform_compress_delimiters o = has_bit o 0.
Proof. exact (land_pow2_testbit o 0). Qed.
Lemma inc1_bit o : perform_include_1st_delimiter o = has_bit o 1.
Proof. exact (land_pow2_testbit o 1). Qed.
Lemma incall_bit o : perform_include_all_delimiters o = has_bit o 2.
Proof. exact (land_pow2_testbit o 2). Qed.

(* ---------- predicates ---------- *)
Lemma nat_of_ascii_lt c : nat_of_ascii c < 256.
Proof. apply nat_ascii_bounded. Qed.

Lemma setup_table_length ds t :
  length (fold_left (fun t c => upd t (nat_of_ascii c) true) ds t) = length t.
Proof. revert t; induction ds as [|d ds IH]; intros t; simpl; auto. now rewrite IH, upd_length. Qed.

Lemma mcdp_in_table ds c : nat_of_ascii c < length (setup_delimiter_table ds).
Proof. unfold setup_delimiter_table. rewrite setup_table_length, repeat_length. apply nat_of_ascii_lt. Qed.

Lemma setup_table_nth ds : forall t k, length t = 256 -> k < 256 ->
  nth k (fold_left (fun t c => upd t (nat_of_ascii c) true) ds t) false
  = (nth k t false || existsb (fun d => nat_of_ascii d =? k) ds).
Proof.
  induction ds as [|d ds IH]; intros t k Hl Hk; simpl.
  - now rewrite orb_false_r.
  - rewrite IH by (rewrite ?upd_length; auto).
    assert (E : nth k (upd t (nat_of_ascii d) true) false = (nth k t false || (nat_of_ascii d =? k))).
    { pose proof (nat_of_ascii_lt d) as Hd.
      pose proof (nth_error_upd t (nat_of_ascii d) k true) as H.
      destruct (Nat.eqb_spec (nat_of_ascii d) k) as [Hdk|Hdk].
      - destruct (Nat.ltb_spec (nat_of_ascii d) (length t)); [|lia].
        rewrite (nth_error_nth _ _ _ H). now rewrite orb_true_r.
      - rewrite orb_false_r. destruct (nth_error t k) eqn:Et.
        + rewrite (nth_error_nth _ _ _ H). symmetry. now apply nth_error_nth.
        + apply nth_error_None in Et. lia. }
    rewrite E. now rewrite orb_assoc.
Qed.

Lemma eqb_nat_of_ascii d c : (nat_of_ascii d =? nat_of_ascii c) = Ascii.eqb d c.
Proof.
  destruct (Ascii.eqb_spec d c) as [->|H]; [apply Nat.eqb_refl|].
  apply Nat.eqb_neq. intros E. apply H.
  rewrite <- (ascii_nat_embedding d), <- (ascii_nat_embedding c). now rewrite E.
Qed.

Lemma mcdp_mem ds c :
  multiple_char_delimiter_predicate ds c = existsb (fun d => Ascii.eqb d c) ds.
Proof.
  unfold multiple_char_delimiter_predicate, setup_delimiter_table.
  rewrite setup_table_nth by (rewrite ?repeat_length; auto using nat_of_ascii_lt).
  assert (E : nth (nat_of_ascii c) (repeat false 256) false = false).
  { destruct (nth_in_or_default (nat_of_ascii c) (repeat false 256) false) as [H|H]; auto.
    now apply repeat_spec in H. }
  rewrite E. simpl. induction ds as [|d ds IH]; simpl; auto.
  rewrite eqb_nat_of_ascii. congruence.
Qed.

Section AllIn.
  Context {A : Type}.
  Variable s : list A.
  Notation all_in := (all_in s).

  Lemma all_in_empty q a b : b <= a -> all_in q a b.
  Proof. intros H i x Hi. lia. Qed.

  Lemma all_in_snoc q a b x :
    all_in q a b -> nth_error s b = Some x -> q x = true -> all_in q a (S b).
  Proof.
    intros H E Hq i y Hi Hy. destruct (Nat.eq_dec i b) as [->|].
    - congruence.
    - apply (H i); auto. lia.
  Qed.

  Lemma all_in_cons q a b x :
    all_in q (S a) b -> nth_error s a = Some x -> q x = true -> all_in q a b.
  Proof.
    intros H E Hq i y Hi Hy. destruct (Nat.eq_dec i a) as [->|].
    - congruence.
    - apply (H i); auto. lia.
  Qed.

  Lemma all_in_sub q a b c d : all_in q a b -> a <= c -> d <= b -> all_in q c d.
  Proof. intros H H1 H2 i x Hi. apply H. lia. Qed.

  Lemma all_in_forall q a b : a <= b -> b <= length s -> all_in q a b ->
    Forall (fun x => q x = true) (sub s (a,b)).
  Proof.
    intros H1 H2 H. apply Forall_forall. intros x Hx.
    apply In_nth_error in Hx. destruct Hx as (i & Hi).
    pose proof (nth_error_some_lt _ _ _ Hi) as L. rewrite sub_length in L by lia.
    rewrite nth_error_sub in Hi by lia. apply (H (a + i)); auto. lia.
  Qed.

  Lemma sub_drop a b : a <= b -> b <= length s -> sub s (a, length s) = sub s (a,b) ++ sub s (b, length s).
  Proof. intros. symmetry. apply sub_app; lia. Qed.

  Lemma sub_one i x : nth_error s i = Some x -> sub s (i, S i) = [x].
  Proof.
    intros H. pose proof (nth_error_some_lt _ _ _ H). rewrite (sub_S s i i x) by auto.
    now rewrite sub_empty.
  Qed.

End AllIn.

Section Proofs.
  Context {A : Type}.
  Variable p : A -> bool.
  Variable s : list A.

  Notation nond := (fun x : A => negb (p x)).
  Notation all_in := (all_in s).

  (* the end of the delimiter run starting at or before i *)
  Definition run_end (f e : nat) : Prop :=
    f <= e /\ e <= length s /\ all_in p f e /\
    (e = length s \/ exists x, nth_error s e = Some x /\ p x = false).

  Lemma skip_delims_spec i :
    i <= length s -> holds (skip_delims p s i) (run_end i).
  Proof.
    intros Hi. unfold skip_delims.
    apply loop_rule with
      (I := fun j => i <= j /\ j <= length s /\ all_in p i j) (mu := fun j => length s - j).
    - intros j (H1 & H2 & H3). destruct (Nat.eqb_spec j (length s)) as [->|Hn].
      + simpl. repeat split; auto.
      + apply holds_bind, holds_rd; [lia|]. intros x Hx.
        destruct (p x) eqn:Ep; simpl.
        * repeat split; try lia. eapply all_in_snoc; eauto.
        * repeat split; auto. right; eauto.
    - repeat split; auto. now apply all_in_empty.
    - lia.
  Qed.

  Lemma skip_delims_pre_spec i x :
    nth_error s i = Some x -> p x = true ->
    holds (skip_delims_pre p s i) (fun e => run_end i e /\ i < e).
  Proof.
    intros Hx Hp. pose proof (nth_error_some_lt _ _ _ Hx) as Hi. unfold skip_delims_pre.
    apply loop_rule with
      (I := fun j => i <= j /\ j < length s /\ all_in p i (S j)) (mu := fun j => length s - j).
    - intros j (H1 & H2 & H3). cbv zeta.
      destruct (Nat.eqb_spec (S j) (length s)) as [E|Hn].
      + simpl. repeat split; try lia; auto.
      + apply holds_bind, holds_rd; [lia|]. intros y Hy.
        destruct (p y) eqn:Ep; simpl.
        * repeat split; try lia. eapply all_in_snoc; eauto.
        * repeat split; try lia; auto. right; eauto.
    - repeat split; auto. eapply all_in_snoc; eauto. now apply all_in_empty.
    - lia.
  Qed.

  (* Common invariant of the scanning loops.  [te]/[nx] are the policy. *)
  Section Scan.
    Variables te nx : nat -> nat -> nat.
    Notation cuts := (cuts p s te nx).

    Definition Inv (st : nat * nat * list token * nat) : Prop :=
      let '(f, i, out, n) := st in
      f <= i <= length s /\ all_in nond f i /\ n = length out /\
      (f = 0 \/ exists x, 0 < f /\ nth_error s (f - 1) = Some x /\ p x = true) /\
      (forall toks, cuts f toks -> cuts 0 (out ++ toks)).

    Lemma Inv_init : Inv (0, 0, [], 0).
    Proof. repeat split; auto; try lia. now apply all_in_empty. Qed.

    Lemma Inv_step f i out n x :
      Inv (f, i, out, n) -> nth_error s i = Some x -> p x = false -> Inv (f, S i, out, n).
    Proof.
      intros (H1 & H2 & H3 & H4 & H5) Hx Hp.
      pose proof (nth_error_some_lt _ _ _ Hx).
      repeat split; auto; try lia. eapply all_in_snoc; eauto. simpl; now rewrite Hp.
    Qed.

    Lemma Inv_cut f i out n e k b :
      Inv (f, i, out, n) -> run_end i e -> i < e ->
      i < k -> k <= e -> k = nx i e -> b = te i e ->
      Inv (k, k, out ++ [(f, b)], S n).
    Proof.
      intros (H1 & H2 & H3 & H4 & H5) (R1 & R2 & R3 & R4) Hie Hk1 Hk2 -> ->.
      repeat split; auto; try lia.
      - now apply all_in_empty.
      - rewrite app_length; simpl; lia.
      - right. assert (Hl : nx i e - 1 < length s) by lia.
        apply nth_error_Some in Hl.
        destruct (nth_error s (nx i e - 1)) as [y|] eqn:Ey; [|congruence].
        exists y. repeat split; auto; try lia. apply (R3 (nx i e - 1)); auto. lia.
      - intros toks Ht. rewrite <- app_assoc. apply H5. simpl.
        eapply cut_more; eauto; lia.
    Qed.

    Lemma last_token_spec f i out n :
      s <> [] -> Inv (f, i, out, n) -> i = length s ->
      holds (last_token p s f i out n)
            (fun r => cuts 0 (fst r) /\ snd r = length (fst r)).
    Proof.
      intros Hs (H1 & H2 & H3 & H4 & H5) ->.
      assert (Hc : cuts 0 (out ++ [(f, length s)])).
      { apply H5. apply cut_last; auto; lia. }
      unfold last_token. destruct (Nat.eqb_spec f (length s)) as [E|E]; simpl.
      - destruct (length s) as [|m] eqn:El.
        { destruct s; [congruence|discriminate]. }
        destruct H4 as [H4|(x & H4 & H6 & H7)]; [lia|].
        apply holds_bind, holds_rd; [lia|]. intros y Hy.
        replace (f - 1) with m in H6 by lia. rewrite Hy in H6. inversion H6; subst y.
        rewrite H7. simpl. split; auto. rewrite app_length; simpl; lia.
      - split; auto. rewrite app_length; simpl; lia.
    Qed.
  End Scan.

  Lemma split_compress_spec :
    s <> [] ->
    holds (split_compress_delimiters p s)
          (fun r => cuts p s (fun f e => f) (fun f e => e) 0 (fst r) /\ snd r = length (fst r)).
  Proof.
    intros Hs. unfold split_compress_delimiters.
    set (te := fun f e : nat => f). set (nx := fun f e : nat => e).
    eapply holds_bind2 with (P := fun st => Inv te nx st /\ snd (fst (fst st)) = length s).
    - apply loop_rule with (I := Inv te nx) (mu := fun st => length s - snd (fst (fst st))).
      + intros [[[f i] out] n] HI. cbn [fst snd].
        destruct (Nat.eqb_spec i (length s)) as [E|E].
        { simpl. auto. }
        pose proof HI as (H1 & _).
        apply holds_bind, holds_rd; [lia|]. intros x Hx.
        destruct (p x) eqn:Ep.
        * eapply holds_bind2; [eapply skip_delims_pre_spec; eauto|].
          intros e (He & Hlt). cbn [holds fst snd].
          assert (HI' : Inv te nx (e, e, out ++ [(f,i)], S n)).
          { eapply Inv_cut; eauto. }
          destruct He as (R1 & R2 & R3 & R4).
          destruct (Nat.eqb_spec e (length s)) as [E'|E'].
          -- split; auto. lia.
          -- destruct R4 as [R4|(y & Hy & Hpy)]; [lia|].
             split; [eapply Inv_step; eauto|lia].
        * cbn [holds fst snd]. split; [eapply Inv_step; eauto|lia].
      + apply Inv_init.
      + cbn; lia.
    - intros [[[f i] out] n] (HI & Hi). cbn [fst snd] in Hi.
      apply last_token_spec; auto.
  Qed.

  (* the loop of split, for any policy the options select *)
  Lemma split_spec opt :
    s <> [] ->
    holds (split p s opt)
          (fun r => cuts p s (spec_tok_end opt) (spec_next_start opt) 0 (fst r)
                    /\ snd r = length (fst r)).
  Proof.
    intros Hs. unfold split.
    destruct (Nat.eqb_spec (length s) 0) as [E0|E0].
    { destruct s; [congruence|discriminate]. }
    rewrite compress_bit, inc1_bit, incall_bit. cbv zeta.
    destruct (has_bit opt 0 && negb (has_bit opt 1 || (negb (has_bit opt 1) && has_bit opt 2))) eqn:Eb.
    { assert (B0 : has_bit opt 0 = true) by (destruct (has_bit opt 0), (has_bit opt 1), (has_bit opt 2); auto).
      assert (B1 : has_bit opt 1 = false) by (destruct (has_bit opt 0), (has_bit opt 1), (has_bit opt 2); auto).
      assert (B2 : has_bit opt 2 = false) by (destruct (has_bit opt 0), (has_bit opt 1), (has_bit opt 2); auto).
      eapply holds_weaken; [now apply split_compress_spec|].
      unfold spec_tok_end, spec_next_start. rewrite B0, B1, B2. auto. }
    set (te := spec_tok_end opt). set (nx := spec_next_start opt).
    eapply holds_bind2 with (P := fun st => Inv te nx st /\ snd (fst (fst st)) = length s).
    - apply loop_rule with (I := Inv te nx) (mu := fun st => length s - snd (fst (fst st))).
      + intros [[[f i] out] n] HI. cbn [fst snd].
        destruct (Nat.eqb_spec i (length s)) as [E|E].
        { simpl. auto. }
        pose proof HI as (H1 & _).
        apply holds_bind, holds_rd; [lia|]. intros x Hx.
        destruct (p x) eqn:Ep; [|cbn [holds fst snd]; split; [eapply Inv_step; eauto|lia]].
        (* the delimiter run starting here, used for the specification *)
        assert (Hrun : exists e, run_end i e /\ i < e).
        { pose proof (skip_delims_pre_spec i x Hx Ep) as Hp.
          apply holds_ex in Hp. destruct Hp as (e & _ & He). eauto. }
        destruct Hrun as (e & He & Hie).
        assert (Huniq : forall j, run_end i j -> j = e).
        { intros j (Q1 & Q2 & Q3 & Q4). destruct He as (R1 & R2 & R3 & R4).
          destruct (lt_eq_lt_dec j e) as [[L|L]|L]; auto; exfalso.
          - destruct Q4 as [Q4|(y & Hy & Hpy)]; [lia|].
            assert (p y = true) by (apply (R3 j); auto; lia). congruence.
          - destruct R4 as [R4|(y & Hy & Hpy)]; [lia|].
            assert (p y = true) by (apply (Q3 e); auto; lia). congruence. }
        assert (Hrun1 : forall j, run_end (S i) j -> j = e).
        { intros j (Q1 & Q2 & Q3 & Q4). apply Huniq. repeat split; auto; try lia.
          eapply all_in_cons; eauto. }
        destruct (has_bit opt 1) eqn:B1; cbn [orb negb andb].
        * (* include_1st *)
          cbn [bind].
          destruct (has_bit opt 0) eqn:B0.
          -- eapply holds_bind2; [apply skip_delims_spec; lia|].
             intros k Hk. apply Hrun1 in Hk. subst k. cbn [holds fst snd].
             split; [|lia]. eapply (Inv_cut te nx) with (i := i) (e := e); eauto.
             ++ unfold nx, spec_next_start. now rewrite B0, B1.
             ++ unfold te, spec_tok_end. now rewrite B1.
          -- cbn [bind holds fst snd]. split; [|lia].
             eapply (Inv_cut te nx) with (i := i) (e := e); eauto.
             ++ unfold nx, spec_next_start. now rewrite B0, B1.
             ++ unfold te, spec_tok_end. now rewrite B1.
        * destruct (has_bit opt 2) eqn:B2; cbn [orb negb andb].
          -- eapply holds_bind2; [apply skip_delims_spec; lia|].
             intros j Hj. apply Huniq in Hj. subst j. cbn [bind holds fst snd].
             split; [|lia]. eapply (Inv_cut te nx) with (i := i) (e := e); eauto.
             ++ unfold nx, spec_next_start. now rewrite B1, B2.
             ++ unfold te, spec_tok_end. now rewrite B1, B2.
          -- cbn [orb negb andb] in Eb.
             assert (B0 : has_bit opt 0 = false) by (destruct (has_bit opt 0); auto).
             cbn [bind holds fst snd]. split; [|lia].
             eapply (Inv_cut te nx) with (i := i) (e := e); eauto.
             ++ unfold nx, spec_next_start. now rewrite B0, B1, B2.
             ++ unfold te, spec_tok_end. now rewrite B1, B2.
      + apply Inv_init.
      + cbn; lia.
    - intros [[[f i] out] n] (HI & Hi). cbn [fst snd] in Hi.
      apply last_token_spec; auto.
  Qed.

  Lemma split_empty opt : s = [] -> split p s opt = Ok ([], 0).
  Proof. intros ->. reflexivity. Qed.

  Lemma split_tokens opt :
    exists toks, split p s opt = Ok (toks, length toks) /\
                 tokens_of p s (spec_tok_end opt) (spec_next_start opt) toks.
  Proof.
    destruct s eqn:Es.
    - exists []. split; [reflexivity|]. left; auto.
    - rewrite <- Es in *. assert (Hs : s <> []) by (rewrite Es; discriminate).
      pose proof (split_spec opt Hs) as H. apply holds_ex in H.
      destruct H as ([toks n] & E & Hc & Hn). cbn [fst snd] in *. subst n.
      exists toks. split; auto. right; auto.
  Qed.
End Proofs.
