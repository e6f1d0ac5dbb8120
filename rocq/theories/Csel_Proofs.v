From Verif Require Import Base Split_Model Split_Spec Split_Proofs Split_Proofs2 Split_Proofs3 Parse_Model Parse_Proofs KV_Spec KV_Proofs KV_Proofs2 Csel_Model Csel_Spec.
Local Open Scope nat_scope.

Definition points (root : nat) (is : list nat) (vs : list cval) : Prop :=
  length vs = length is /\
  forall j i, nth_error is j = Some i -> exists f, nth_error vs j = Some (CVal (Some i) (Some (root, j)) f).

Definition shown_from (cs is : list nat) (n : nat) (xs : list (list ascii)) : list (nat * list ascii) :=
  flat_map (fun p => match nth_error xs (fst p - n) with Some x => [(snd p, x)] | None => [] end) (combine cs is).

Lemma shown_zero cs is xs : shown cs is xs = shown_from cs is 0 xs.
Proof.
  unfold shown, shown_from. apply flat_map_ext. intros [c i]. cbn [fst]. now rewrite Nat.sub_0_r.
Qed.
Lemma shown_nil cs is n : shown_from cs is n [] = [].
Proof. unfold shown_from. induction (combine cs is) as [|[c i] l IH]; [reflexivity|]. cbn [flat_map]. rewrite IH. now destruct (fst (c,i) - n). Qed.
Lemma shown_shift cs is n x xs : Forall (fun c => S n <= c) cs -> shown_from cs is n (x :: xs) = shown_from cs is (S n) xs.
Proof.
  unfold shown_from. intros H. revert is. induction H as [|c cs Hc H IH]; intros [|i is]; try reflexivity.
  cbn [combine flat_map fst snd]. rewrite IH. f_equal. replace (c - n) with (S (c - S n)) by lia. reflexivity.
Qed.

Lemma live_some {T} (xs : list (option T)) a x : nth_error xs a = Some (Some x) -> live xs a = Ok x.
Proof. intros H. unfold live. now rewrite (rd_nth _ _ _ H). Qed.
Lemma live_none {T} (xs : list (option T)) a : nth_error xs a = Some None -> live xs a = UB.
Proof. intros H. unfold live. now rewrite (rd_nth _ _ _ H). Qed.
Lemma set_sel_ok w a s : a < length (w_sels w) -> set_sel w a s = Ok (CW (w_vars w) (w_lists w) (upd (w_sels w) a s)).
Proof. intros H. unfold set_sel. now rewrite wr_ok. Qed.

Definition ready (w : cworld) (c root l : nat) (cols is : list nat) (n k : nat) : Prop :=
  nth_error (w_lists w) l = Some (Some cols) /\
  exists s r, nth_error (w_sels w) c = Some (Some s) /\ nth_error (w_sels w) root = Some (Some r) /\
    points root is (so_values s) /\ points root is (so_values r) /\
    so_list s = l /\ so_current s = n /\ so_col s = k /\ so_target s = nth_error cols k.

Lemma points_upd root is vs k i b : points root is vs -> nth_error is k = Some i ->
  points root is (upd vs k (CVal (Some i) (Some (root, k)) b)).
Proof.
  intros [H1 H2] Hk. split; [now rewrite upd_length|]. intros j i' Hj. destruct (Nat.eq_dec j k) as [->|N].
  - rewrite Hk in Hj. injection Hj as <-. exists b. apply nth_error_upd_same. rewrite H1. eapply nth_error_some_lt; eauto.
  - rewrite nth_error_upd_other by auto. eauto.
Qed.

Lemma frame_ready w c root l cols is s' : nth_error (w_lists w) l = Some (Some cols) ->
  c < length (w_sels w) ->
  (exists r, nth_error (w_sels w) root = Some (Some r) /\ points root is (so_values r)) ->
  points root is (so_values s') -> so_list s' = l -> so_target s' = nth_error cols (so_col s') ->
  forall vars, ready (CW vars (w_lists w) (upd (w_sels w) c (Some s'))) c root l cols is (so_current s') (so_col s').
Proof.
  intros Hl Hc (r & Hr & Pr) Ps Hsl Ht vars. split; [exact Hl|]. exists s'. cbn [w_sels].
  destruct (Nat.eq_dec c root) as [->|N].
  - exists s'. rewrite nth_error_upd_same by auto. repeat split; auto; apply Ps.
  - exists r. rewrite nth_error_upd_same by auto. rewrite nth_error_upd_other by auto. repeat split; auto; try apply Ps; apply Pr.
Qed.

Lemma ascending_rest cols k t : ascending cols -> nth_error cols k = Some t -> Forall (fun c => S t <= c) (skipn (S k) cols).
Proof.
  intros Ha Hk. apply Forall_forall. intros c Hc. apply In_nth_error in Hc. destruct Hc as (j & Hj).
  rewrite nth_error_skipn in Hj. pose proof (ascending_lt _ Ha k (S k + j) t c Hk Hj). lia.
Qed.

Lemma process_all_ok root l cols is : ascending cols -> length is = length cols -> forall xs w c n k vars',
  ready w c root l cols is n k -> Forall (fun c => n <= c) (skipn k cols) ->
  converts (shown_from (skipn k cols) (skipn k is) n xs) (w_vars w) vars' ->
  exists w' n' k', sel_process_all w c xs = Ok w' /\ w_vars w' = vars' /\ w_lists w' = w_lists w /\
    length (w_sels w') = length (w_sels w) /\ ready w' c root l cols is n' k' /\
    (forall d, d <> c -> nth_error (w_sels w') d = nth_error (w_sels w) d).
Proof.
  intros Ha Hlen. induction xs as [|x xs IH]; intros w c n k vars' R F C.
  - rewrite shown_nil in C. inversion C; subst. exists w, n, k. cbn [sel_process_all]. auto 8.
  - assert (R0 := R). destruct R as (Hl & s & r & Hs & Hr & Ps & Pr & Esl & Ecur & Ecol & Etgt).
    assert (Hc : c < length (w_sels w)) by (eapply nth_error_some_lt; eauto).
    assert (G : forall s' vars1 vars2, points root is (so_values s') -> so_list s' = l -> so_target s' = nth_error cols (so_col s') ->
        so_current s' = S n -> Forall (fun c => S n <= c) (skipn (so_col s') cols) ->
        converts (shown_from (skipn (so_col s') cols) (skipn (so_col s') is) (S n) xs) vars1 vars2 ->
        let w1 := CW vars1 (w_lists w) (upd (w_sels w) c (Some s')) in
        exists w' n' k', sel_process_all w1 c xs = Ok w' /\ w_vars w' = vars2 /\ w_lists w' = w_lists w /\
          length (w_sels w') = length (w_sels w) /\ ready w' c root l cols is n' k' /\
          (forall d, d <> c -> nth_error (w_sels w') d = nth_error (w_sels w) d)).
    { intros s' vars1 vars2 P1 P2 P3 P4 P5 P6 w1.
      assert (R1 := frame_ready w c root l cols is s' Hl Hc (ex_intro _ r (conj Hr Pr)) P1 P2 P3 vars1).
      rewrite P4 in R1. destruct (IH w1 c (S n) (so_col s') vars2 R1 P5 P6) as (w' & n' & k' & E & V & Li & Le & R' & Fr).
      exists w', n', k'. split; [exact E|]. split; [exact V|]. split; [exact Li|]. split; [rewrite Le; apply upd_length|]. split; [exact R'|].
      intros d Hd. rewrite (Fr d Hd). apply nth_error_upd_other. auto. }
    cbn [sel_process_all]. unfold sel_process at 1. rewrite (live_some _ _ _ Hs). cbn [bind]. rewrite Etgt.
    destruct (nth_error cols k) as [t|] eqn:Ek.
    + assert (Hsk : skipn k cols = t :: skipn (S k) cols) by (apply skipn_nth_cons; exact Ek).
      assert (Ht : n <= t) by (rewrite Hsk in F; now inversion F).
      rewrite Ecur. replace (t <? n) with false by (symmetry; apply Nat.ltb_ge; exact Ht).
      destruct (Nat.eqb_spec n t) as [->|Hnt].
      * assert (Hk : k < length is) by (rewrite Hlen; eapply nth_error_some_lt; eauto).
        destruct (nth_error is k) as [i|] eqn:Ei; [|apply nth_error_None in Ei; lia].
        assert (Hski : skipn k is = i :: skipn (S k) is) by (apply skipn_nth_cons; exact Ei).
        rewrite Hsk, Hski in C. unfold shown_from in C. cbn [combine flat_map fst snd] in C. rewrite Nat.sub_diag in C.
        cbn [nth_error app] in C. inversion C as [|i0 x0 ps vars vars'0 t' b v Hv Hcv C' E1 E2 E3]; subst i0 x0 ps vars vars'0.
        destruct Ps as [Ps1 Ps2]. destruct (Ps2 _ _ Ei) as (f & Hf). destruct Pr as [Pr1 Pr2]. destruct (Pr2 _ _ Ei) as (f' & Hf').
        rewrite Ecol. rewrite (rd_nth _ _ _ Hf). cbn [bind]. unfold cv_call. cbn [cv_ptr]. rewrite (live_some _ _ _ Hr). cbn [bind].
        rewrite (rd_nth _ _ _ Hf'). cbn [bind cv_buf]. rewrite (live_some _ _ _ Hv). cbn [bind]. unfold run_target. rewrite Hcv. cbn [bind].
        rewrite wr_ok by (eapply nth_error_some_lt; eauto). cbn [bind]. rewrite wr_ok by (rewrite Ps1; exact Hk). cbn [bind].
        rewrite upd_length, Ps1, Hlen.
        assert (Etg : (if S k <? length cols then cols0 <- live (w_lists w) (so_list s) ;; c0 <- rd cols0 (S k) ;; Ok (Some c0) else Ok None)
                      = Ok (nth_error cols (S k))).
        { destruct (Nat.ltb_spec (S k) (length cols)) as [L|L].
          - rewrite Esl, (live_some _ _ _ Hl). cbn [bind]. destruct (nth_error cols (S k)) as [c1|] eqn:E1; [|apply nth_error_None in E1; lia].
            rewrite (rd_nth _ _ _ E1). reflexivity.
          - symmetry. f_equal. apply nth_error_None. lia. }
        rewrite Etg. cbn [bind]. rewrite set_sel_ok by (exact Hc). cbn [bind w_vars w_lists w_sels].
        apply (G (SelObj (so_list s) (S t) (nth_error cols (S k)) (S k) _ _) _ vars'); cbn [so_values so_list so_target so_current so_col]; auto.
        -- apply points_upd; [split; assumption|exact Ei].
        -- eapply ascending_rest; eauto.
        -- rewrite <- (shown_shift _ _ _ x) by (eapply ascending_rest; eauto). exact C'.
      * unfold set_sel. rewrite wr_ok by exact Hc. cbn [bind].
        assert (FS : Forall (fun c => S n <= c) (skipn k cols)).
        { rewrite Hsk. constructor; [lia|]. eapply Forall_impl; [|eapply ascending_rest; eauto]. cbn. lia. }
        apply (G (SelObj (so_list s) (S n) (Some t) (so_col s) (so_errors s) (so_values s)) _ vars'); cbn [so_values so_list so_target so_current so_col]; auto.
        -- now rewrite Ecol, Ek.
        -- now rewrite Ecol.
        -- rewrite Ecol. now rewrite <- (shown_shift _ _ _ x).
    + unfold set_sel. rewrite wr_ok by exact Hc. cbn [bind]. rewrite Ecur.
      assert (E0 : skipn k cols = []) by (apply skipn_all2; now apply nth_error_None).
      rewrite E0 in C. unfold shown_from in C. cbn [combine flat_map] in C.
      apply (G (SelObj (so_list s) (S n) None (so_col s) (so_errors s) (so_values s)) _ vars'); cbn [so_values so_list so_target so_current so_col]; auto.
      * now rewrite Ecol, Ek.
      * rewrite Ecol, E0. constructor.
      * rewrite Ecol, E0. exact C.
Qed.

Lemma sel_copy_ok w a b s : nth_error (w_sels w) a = Some (Some s) -> b < length (w_sels w) ->
  sel_copy w a b = Ok (CW (w_vars w) (w_lists w) (upd (w_sels w) b (Some s))).
Proof. intros H Hb. unfold sel_copy. rewrite (live_some _ _ _ H). cbn [bind]. now apply set_sel_ok. Qed.

Lemma through_ok root l cols is : ascending cols -> length is = length cols -> forall delims s xs,
  line_columns delims s xs -> forall bs w c vars',
  ready w c root l cols is 0 0 -> ~ In root bs -> ~ In c bs -> NoDup bs -> Forall (fun b => b < length (w_sels w)) bs ->
  converts (shown cols is xs) (w_vars w) vars' ->
  exists w', sel_through w c bs (split_into delims s) = Ok w' /\ w_vars w' = vars' /\ w_lists w' = w_lists w /\
    length (w_sels w') = length (w_sels w) /\
    (forall d, (bs = [] -> d <> c) -> ~ In d bs -> nth_error (w_sels w') d = nth_error (w_sels w) d).
Proof.
  intros Ha Hlen delims s xs (toks & Ht & ->). induction bs as [|b bs IH]; intros w c vars' R Nr Nc ND FL C.
  - cbn [sel_through]. unfold split_into. rewrite split_str_delims.
    destruct (split_default_fields (fun c => existsb (fun d => Ascii.eqb d c) delims) s) as (toks' & E & Ht' & _).
    rewrite E. cbn [bind]. rewrite (tokens_unique _ _ _ _ _ _ Ht' Ht).
    rewrite shown_zero in C.
    destruct (process_all_ok root l cols is Ha Hlen (map (sub s) toks) w c 0 0 vars' R) as (w' & n' & k' & E' & V & Li & Le & R' & Fr).
    + cbn [skipn]. apply Forall_forall. intros; lia.
    + exact C.
    + exists w'. repeat split; auto.
  - cbn [sel_through]. destruct R as (Hl & sl & r & Hs & Hr & Ps & Pr & Esl & Ecur & Ecol & Etgt).
    inversion ND as [|? ? Nb ND']; subst. inversion FL as [|? ? Lb FL']; subst.
    rewrite (sel_copy_ok _ _ _ _ Hs Lb). cbn [bind].
    assert (Hrb : root <> b) by (intros ->; apply Nr; now left).
    assert (Hcb : c <> b) by (intros ->; apply Nc; now left).
    destruct (IH (CW (w_vars w) (w_lists w) (upd (w_sels w) b (Some sl))) b vars') as (w' & E & V & Li & Le & Fr); auto.
    + split; [exact Hl|]. exists sl, r. cbn [w_sels]. rewrite nth_error_upd_same, nth_error_upd_other by auto. repeat split; auto; try apply Ps; apply Pr.
    + intros H. apply Nr. now right.
    + cbn [w_sels]. rewrite upd_length. exact FL'.
    + rewrite E. cbn [bind]. cbn [w_sels] in Le. rewrite upd_length in Le. unfold sel_end. rewrite set_sel_ok by lia. eexists. split; [reflexivity|].
      cbn [w_vars w_lists w_sels]. split; [exact V|]. split; [exact Li|]. split; [rewrite upd_length; exact Le|].
      intros d _ Nd. assert (d <> b) by (intros ->; apply Nd; now left).
      rewrite nth_error_upd_other by auto. rewrite Fr.
      * cbn [w_sels]. apply nth_error_upd_other. auto.
      * auto.
      * intros H'. apply Nd. now right.
Qed.

Lemma lines_ok l cols is delims a bs : ascending cols -> length is = length cols ->
  bs <> [] -> NoDup (a :: bs) -> forall lines xss, Forall2 (line_columns delims) lines xss -> forall w vars',
  ready w a a l cols is 0 0 -> Forall (fun b => b < length (w_sels w)) bs ->
  converts (flat_map (shown cols is) xss) (w_vars w) vars' ->
  exists w', split_lines w a bs delims lines = Ok w' /\ w_vars w' = vars' /\ w_lists w' = w_lists w /\
    length (w_sels w') = length (w_sels w) /\
    (forall d, ~ In d bs -> nth_error (w_sels w') d = nth_error (w_sels w) d).
Proof.
  intros Ha Hlen Hbs ND lines xss H. inversion ND as [|? ? Na ND']; subst.
  induction H as [|s xs lines xss Hx H IH]; intros w vars' R FL C.
  - cbn [flat_map] in C. inversion C; subst. exists w. cbn [split_lines]. auto.
  - cbn [flat_map] in C. cbn [split_lines].
    assert (Cs : exists v1, converts (shown cols is xs) (w_vars w) v1 /\ converts (flat_map (shown cols is) xss) v1 vars').
    { revert C. generalize (shown cols is xs) (w_vars w). intros ps. induction ps as [|[i x] ps IHp]; intros vs C.
      - exists vs. split; [constructor|exact C].
      - cbn [app] in C. inversion C as [|i0 x0 ps0 vs0 vs1 t' b v Hv Hcv C' E1 E2 E3]; subst. destruct (IHp _ C') as (v1 & C1 & C2). exists v1. split; [econstructor; eauto|exact C2]. }
    destruct Cs as (v1 & C1 & C2).
    destruct (through_ok a l cols is Ha Hlen delims s xs Hx bs w a v1) as (w1 & E1 & V1 & L1 & Le1 & Fr1); auto.
    rewrite E1. cbn [bind].
    assert (R1 : ready w1 a a l cols is 0 0).
    { destruct R as (Hl & sl & r & Hs & Hr & Rest). split; [now rewrite L1|]. exists sl, r. rewrite !Fr1 by (try (intros; contradiction); auto). auto. }
    destruct (IH w1 vars' R1) as (w2 & E2 & V2 & L2 & Le2 & Fr2).
    + now rewrite Le1.
    + now rewrite V1.
    + exists w2. split; [exact E2|]. split; [exact V2|]. split; [congruence|]. split; [congruence|].
      intros d Hd. rewrite Fr2 by auto. apply Fr1; auto.
Qed.

Lemma register_ok a is : forall vs k, length vs = k + length is ->
  exists vs', register_values a (vs, k) is = Ok (vs', k + length is) /\ length vs' = length vs /\
    (forall j, j < k -> nth_error vs' j = nth_error vs j) /\
    (forall j i, nth_error is j = Some i -> nth_error vs' (k + j) = Some (CVal (Some i) (Some (a, k + j)) false)).
Proof.
  induction is as [|i is IH]; intros vs k Hl; cbn [register_values length].
  - exists vs. rewrite Nat.add_0_r. repeat split; auto. intros [|j] i Hj; discriminate.
  - cbn [length] in Hl. unfold register_value. replace (k <? length vs) with true by (symmetry; apply Nat.ltb_lt; lia).
    rewrite wr_ok by lia. cbn [bind]. destruct (IH (upd vs k (CVal (Some i) (Some (a, k)) false)) (S k)) as (vs' & E & Le & F1 & F2).
    + rewrite upd_length. lia.
    + exists vs'. rewrite E. split; [f_equal; f_equal; lia|]. rewrite upd_length in Le. split; [exact Le|]. split.
      * intros j Hj. rewrite F1 by lia. apply nth_error_upd_other. lia.
      * intros [|j] i' Hj; cbn [nth_error] in Hj.
        -- injection Hj as <-. rewrite Nat.add_0_r. rewrite F1 by lia. apply nth_error_upd_same. lia.
        -- replace (k + S j) with (S k + j) by lia. apply F2. exact Hj.
Qed.

Lemma make_ok w a l cols is : nth_error (w_lists w) l = Some (Some cols) -> cols <> [] -> length is = length cols ->
  a < length (w_sels w) ->
  exists w1, sel_make w a l is = Ok w1 /\ w_vars w1 = w_vars w /\ w_lists w1 = w_lists w /\
    length (w_sels w1) = length (w_sels w) /\ ready w1 a a l cols is 0 0 /\
    (forall d, d <> a -> nth_error (w_sels w1) d = nth_error (w_sels w) d).
Proof.
  intros Hl Hne Hlen Ha. unfold sel_make. rewrite (live_some _ _ _ Hl). cbn [bind].
  destruct cols as [|c0 cols]; [congruence|]. rewrite (rd_nth (c0 :: cols) 0 c0 eq_refl). cbn [bind].
  destruct (register_ok a is (repeat (CVal None None false) (length (c0 :: cols))) 0) as (vs & E & Le & _ & F).
  { rewrite repeat_length. lia. }
  rewrite E. cbn [bind]. rewrite set_sel_ok by exact Ha. eexists. split; [reflexivity|]. cbn [w_vars w_lists w_sels].
  split; [reflexivity|]. split; [reflexivity|]. split; [apply upd_length|].
  assert (P : points a is vs).
  { rewrite repeat_length in Le. split; [congruence|]. intros j i Hj. exists false. exact (F j i Hj). }
  split.
  - split; [exact Hl|]. do 2 eexists. cbn [w_sels]. rewrite nth_error_upd_same by exact Ha. split; [reflexivity|]. split; [reflexivity|].
    cbn [so_values so_list so_current so_col so_target]. auto 8.
  - intros d Hd. apply nth_error_upd_other. auto.
Qed.

Lemma converts_app ps : forall qs vars vars', converts (ps ++ qs) vars vars' ->
  exists v1, converts ps vars v1 /\ converts qs v1 vars'.
Proof.
  induction ps as [|(i, x) ps IH]; intros qs vars vars' H; cbn [app] in H; [exists vars; split; [constructor|exact H]|].
  inversion H as [|i0 x0 ps0 vs vs' t b v Hv Hc C E1 E2 E3]; subst. destruct (IH _ _ _ C) as (v1 & C1 & C2).
  exists v1. split; [econstructor; eauto|exact C2].
Qed.

Lemma reset_ok w a l cols is n k : cols <> [] -> ready w a a l cols is n k ->
  exists w', sel_reset w a = Ok w' /\ w_vars w' = w_vars w /\ w_lists w' = w_lists w /\ ready w' a a l cols is 0 0 /\
    (forall d, d <> a -> nth_error (w_sels w') d = nth_error (w_sels w) d).
Proof.
  intros Hne (Hl & s & r & Hs & Hr & Ps & Pr & Esl & Ecur & Ecol & Etgt). destruct cols as [|c0 cols]; [congruence|].
  assert (La : a < length (w_sels w)) by (eapply nth_error_some_lt; eauto).
  unfold sel_reset. rewrite (live_some _ _ _ Hs). cbn [bind]. rewrite Esl, (live_some _ _ _ Hl). cbn [bind].
  rewrite (rd_nth (c0 :: cols) 0 c0 eq_refl). cbn [bind]. rewrite set_sel_ok by exact La. eexists. split; [reflexivity|].
  split; [reflexivity|]. split; [reflexivity|]. split; [|intros d Hd; apply nth_error_upd_other; auto].
  apply (frame_ready w a a l (c0 :: cols) is (SelObj l 0 (Some c0) 0 0 (so_values s))); cbn [so_values so_list so_target so_col nth_error]; auto. eauto.
Qed.

Lemma reset_lines_ok l cols is a : ascending cols -> cols <> [] -> length is = length cols -> forall xss w vars',
  ready w a a l cols is 0 0 -> converts (flat_map (shown cols is) xss) (w_vars w) vars' ->
  exists w', sel_reset_lines w a xss = Ok w' /\ w_vars w' = vars' /\ w_lists w' = w_lists w /\
    (forall d, d <> a -> nth_error (w_sels w') d = nth_error (w_sels w) d).
Proof.
  intros Ha Hne Hlen. induction xss as [|xs xss IH]; intros w vars' R C; cbn [flat_map] in C.
  - inversion C; subst. exists w. cbn [sel_reset_lines]. auto.
  - apply converts_app in C. destruct C as (v1 & C1 & C2). rewrite shown_zero in C1. cbn [sel_reset_lines].
    destruct (process_all_ok a l cols is Ha Hlen xs w a 0 0 v1 R) as (w1 & n & k & -> & V1 & L1 & _ & R1 & F1); [apply Forall_forall; intros; lia|exact C1|].
    cbn [bind]. destruct (reset_ok w1 a l cols is n k Hne R1) as (w2 & -> & V2 & L2 & R2 & F2). cbn [bind].
    destruct (IH w2 vars' R2) as (w3 & -> & V3 & L3 & F3); [now rewrite V2, V1|]. exists w3. split; [reflexivity|]. split; [exact V3|].
    split; [congruence|]. intros d Hd. now rewrite F3, F2, F1.
Qed.

Lemma shown_longer cols is xs ys : Forall (fun c => c < length xs) cols -> shown cols is (xs ++ ys) = shown cols is xs.
Proof.
  intros H. unfold shown. revert is. induction H as [|c cols Hc _ IH]; intros [|i is]; try reflexivity.
  cbn [combine flat_map fst snd]. rewrite IH. now rewrite nth_error_app1.
Qed.
