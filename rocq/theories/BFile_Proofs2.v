(* The filters that programs build fit the file format. *)
From Verif Require Import Base Endian_Proofs Hash_Proofs Bloom_Model Bloom_Spec Bloom_Proofs BFile_Spec.
Local Open Scope N_scope.

Lemma for_up_keeps {S} (I : S -> Prop) (body : nat -> S -> outcome S) :
  (forall k s s', I s -> body k s = Ok s' -> I s') ->
  forall n i st st', I st -> for_up i n body st = Ok st' -> I st'.
Proof.
  intros Hb n. induction n as [|n IH]; intros i st st' H E; cbn [for_up] in E.
  - congruence.
  - destruct (body i st) as [s| |] eqn:Eb; cbn [bind] in E; try discriminate. eapply IH; [|exact E]. eauto.
Qed.

Lemma Forall_upd {A} (P : A -> Prop) l : forall i v, Forall P l -> P v -> Forall P (upd l i v).
Proof.
  induction l as [|x l IH]; intros [|i] v H Hv; cbn [upd]; auto; inversion H; subst; constructor; auto.
Qed.
Lemma wr_keeps {A} (P : A -> Prop) (l : list A) i v l' : Forall P l -> P v -> wr l i v = Ok l' -> Forall P l'.
Proof. intros H Hv E. unfold wr in E. destruct (i <? length l)%nat; [|discriminate]. injection E as <-. now apply Forall_upd. Qed.
Lemma rd_has {A} (P : A -> Prop) (l : list A) i v : Forall P l -> rd l i = Ok v -> P v.
Proof.
  intros H E. unfold rd in E. destruct (nth_error l i) eqn:En; [|discriminate]. injection E as <-.
  rewrite Forall_forall in H. apply H. eapply nth_error_In; eauto.
Qed.

(* ---------------- salts ---------------- *)
Definition word (s : N) : Prop := s < 2 ^ 32.
Lemma u32_word x : word (u32 x).
Proof. unfold word, u32. apply N.mod_lt. discriminate. Qed.
Lemma predef_words : Forall word predef_salt.
Proof.
  apply Forall_forall. intros s Hs. unfold word. apply N.ltb_lt.
  assert (H : forallb (fun s => s <? 2 ^ 32) predef_salt = true) by (vm_compute; reflexivity).
  rewrite forallb_forall in H. auto.
Qed.

Lemma more_words fuel rnd count : forall j s r, Forall word s -> (length s <= count)%nat ->
  loop fuel (fun st : nat * list N =>
    let '(j, s) := st in
    if (length s <? count)%nat then
      let current := u32 (u32 (rnd (2 * j)%nat) * u32 (rnd (2 * j + 1)%nat)) in
      if current =? 0 then Ok (inl (S j, s))
      else if existsb (N.eqb current) s then Ok (inl (S j, s))
      else Ok (inl (S j, s ++ [current]))
    else Ok (inr s)) (j, s) = Ok r -> Forall word r /\ length r = count.
Proof.
  induction fuel as [|fuel IH]; intros j s r Hs Hl E; [discriminate|].
  cbn [loop] in E. cbv zeta in E. destruct (Nat.ltb_spec (length s) count) as [Hlt|Hge].
  - destruct (_ =? 0); [eapply IH; eauto|]. destruct (existsb _ s); [eapply IH; eauto|].
    eapply IH; [| |exact E].
    + apply Forall_app. split; auto. constructor; [apply u32_word|constructor].
    + rewrite app_length. cbn. lia.
  - injection E as <-. split; auto. lia.
Qed.

Lemma mix_words r s s' : Forall word s -> mix_salts r s = Ok s' -> Forall word s' /\ length s' = length s.
Proof.
  intros H E. unfold mix_salts in E. revert E.
  set (n := length s). intros E.
  apply (for_up_keeps (fun t => Forall word t /\ length t = n)) in E; auto.
  intros k t t' (Ht & Hl) Eb. destruct (rd t k) as [a| |]; cbn [bind] in Eb; try discriminate.
  destruct (rd t _) as [b| |]; cbn [bind] in Eb; try discriminate.
  split; [eapply wr_keeps; eauto using u32_word|]. unfold wr in Eb. destruct (_ <? _)%nat; [|discriminate].
  injection Eb as <-. now rewrite upd_length.
Qed.

Lemma new_filter_salts fuel rnd p f : new_filter fuel rnd p = Ok f ->
  Forall word (salt f) /\ N.of_nat (length (salt f)) = number_of_hashes p /\ salt_count f = number_of_hashes p /\
  tsize f = table_size p /\ raw_table_size f = table_size p / 8 /\ projected_count f = projected p /\ seed f < 2 ^ 64.
Proof.
  intros E. unfold new_filter, generate_unique_salt in E.
  destruct (N.leb_spec (number_of_hashes p) 128) as [L|L].
  - destruct (mix_salts _ _) as [s| |] eqn:Em; cbn [bind] in E; try discriminate. injection E as <-.
    cbn [salt salt_count tsize raw_table_size projected_count seed].
    apply mix_words in Em; [|eapply incl_Forall; [|exact predef_words]; intros x Hx;
      rewrite <- (firstn_skipn (N.to_nat (number_of_hashes p)) predef_salt); apply in_or_app; auto].
    destruct Em as [Hw Hl]. repeat split; auto.
    + rewrite Hl, firstn_length. change (length predef_salt) with 128%nat. lia.
    + apply N.mod_lt. discriminate.
  - destruct (more_salts _ _ _ _) as [s| |] eqn:Em; cbn [bind] in E; try discriminate. injection E as <-.
    cbn [salt salt_count tsize raw_table_size projected_count seed].
    apply more_words in Em; [|exact predef_words|change (length predef_salt) with 128%nat; lia].
    destruct Em as [Hw Hl]. repeat split; auto; [lia|]. apply N.mod_lt. discriminate.
Qed.

(* ---------------- table cells ---------------- *)
Definition cell (c : N) : Prop := c < 256.
Definition cells (f : filter) : Prop := forall t, bit_table f = Some t -> Forall cell t.

Lemma insert_salts_cells f k ss : forall t t', Forall cell t -> insert_salts f k ss t = Ok t' -> Forall cell t'.
Proof.
  induction ss as [|s ss IH]; intros t t' H E; cbn [insert_salts] in E; [congruence|].
  destruct (hash_ap k s) as [h| |]; cbn [bind] in E; try discriminate.
  destruct (compute_indices f h) as [[i b]| |]; cbn [bind] in E; try discriminate.
  destruct (rd bit_mask _) as [m| |] eqn:Em; cbn [bind] in E; try discriminate.
  destruct (rd t _) as [c| |] eqn:Ec; cbn [bind] in E; try discriminate.
  destruct (wr t _ _) as [t1| |] eqn:Ew; cbn [bind] in E; try discriminate.
  eapply IH; [|exact E]. eapply wr_keeps; [exact H| |exact Ew].
  assert (Hm : m < 2 ^ 8).
  { apply (rd_has (fun m => m < 2 ^ 8) bit_mask _ _) in Em; auto. repeat constructor. }
  pose proof (rd_has cell t _ _ H Ec) as Hc. change 256 with (2 ^ 8). unfold cell. now apply (lor_lt c m 8).
Qed.

Lemma combine_cells op f g f' : (forall a b, a < 256 -> b < 256 -> op a b < 256) ->
  cells f -> cells g -> combine op f g = Ok f' -> cells f'.
Proof.
  intros Hop Hf Hg E. unfold combine in E. destruct (compatible f g); [|injection E as <-; exact Hf].
  unfold table in E. destruct (bit_table f) as [t|] eqn:Et; cbn [bind] in E; try discriminate.
  destruct (bit_table g) as [u|] eqn:Eu; cbn [bind] in E; try discriminate.
  destruct (for_up _ _ _ _) as [t'| |] eqn:El; cbn [bind] in E; try discriminate.
  injection E as <-. intros t1 E1. cbn [bit_table set_table] in E1. injection E1 as <-.
  apply (for_up_keeps (Forall cell)) in El; [exact El| |apply Hf; exact Et].
  intros k s s' Hs Eb. destruct (rd s k) as [a| |] eqn:Ea; cbn [bind] in Eb; try discriminate.
  destruct (rd u k) as [b| |] eqn:Ebb; cbn [bind] in Eb; try discriminate.
  eapply wr_keeps; [exact Hs| |exact Eb]. apply Hop; [exact (rd_has cell s _ _ Hs Ea)|exact (rd_has cell u _ _ (Hg u Eu) Ebb)].
Qed.

Lemma run_cells f0 : cells f0 -> forall p f, run f0 p = Ok f -> cells f.
Proof.
  intros H0. induction p as [|p IHp k|p IHp|p IHp q IHq|p IHp q IHq|p IHp q IHq|p IHp q IHq]; intros f E; cbn [run] in E.
  - injection E as <-. exact H0.
  - destruct (run f0 p) as [a| |]; cbn [bind] in E; try discriminate. specialize (IHp a eq_refl).
    unfold insert, table in E. destruct (bit_table a) as [t|] eqn:Et; cbn [bind] in E; try discriminate.
    destruct (insert_salts _ _ _ _) as [t'| |] eqn:Ei; cbn [bind] in E; try discriminate. injection E as <-.
    intros t1 E1. cbn [bit_table set_count set_table] in E1. injection E1 as <-.
    eapply insert_salts_cells; [|exact Ei]. now apply IHp.
  - destruct (run f0 p) as [a| |]; cbn [bind] in E; try discriminate. specialize (IHp a eq_refl).
    unfold clear, table in E. destruct (bit_table a) as [t|] eqn:Et; cbn [bind] in E; try discriminate.
    destruct (_ <? _)%nat; [discriminate|]. injection E as <-.
    intros t1 E1. cbn [bit_table set_count set_table] in E1. injection E1 as <-. apply Forall_app. split.
    + apply Forall_forall. intros x Hx. apply repeat_spec in Hx. subst. reflexivity.
    + specialize (IHp t Et). rewrite Forall_forall in *. intros x Hx. apply IHp.
      rewrite <- (firstn_skipn (N.to_nat (raw_table_size a)) t). apply in_or_app. auto.
  - destruct (run f0 p) as [a| |]; cbn [bind] in E; try discriminate.
    destruct (run f0 q) as [b| |]; cbn [bind] in E; try discriminate.
    eapply combine_cells; [| | |exact E]; auto. intros x y Hx Hy. now apply (lor_lt x y 8).
  - destruct (run f0 p) as [a| |]; cbn [bind] in E; try discriminate.
    destruct (run f0 q) as [b| |]; cbn [bind] in E; try discriminate.
    eapply combine_cells; [| | |exact E]; auto. intros x y Hx Hy. now apply (land_mask_lt x y 8).
  - destruct (run f0 p) as [a| |]; cbn [bind] in E; try discriminate.
    destruct (run f0 q) as [b| |]; cbn [bind] in E; try discriminate.
    eapply combine_cells; [| | |exact E]; auto. intros x y Hx Hy. now apply (lxor_below x y 8).
  - destruct (run f0 p) as [a| |]; cbn [bind] in E; try discriminate.
    destruct (run f0 q) as [b| |]; cbn [bind] in E; try discriminate.
    unfold assign, table in E. destruct (bit_table a); cbn [bind] in E; try discriminate.
    destruct (bit_table b) as [u|] eqn:Eu; cbn [bind] in E; try discriminate.
    unfold copy_n in E. destruct (_ <? _)%nat; cbn [bind] in E; [discriminate|]. injection E as <-.
    intros t1 E1. cbn [bit_table] in E1. injection E1 as <-. specialize (IHq b eq_refl u Eu).
    rewrite Forall_forall in *. intros x Hx. apply IHq.
    rewrite <- (firstn_skipn (N.to_nat (raw_table_size b)) u). apply in_or_app. auto.
Qed.

(* parameters within their C++ types, with at least one hash function *)
Lemma run_fits fuel rnd prm f0 d p : new_filter fuel rnd prm = Ok f0 -> good_size (table_size prm) ->
  0 < number_of_hashes prm < 2 ^ 32 -> table_size prm < 2 ^ 64 -> projected prm < 2 ^ 64 -> length d = 8%nat ->
  exists f t, run f0 p = Ok f /\ typed f d /\ in_use f t /\ sizes f = [tsize f] /\ tsize f = table_size prm /\
    raw_table_size f = table_size prm / 8.
Proof.
  intros E Hg Hk Ht Hp Hd.
  destruct (new_filter_salts fuel rnd prm f0 E) as (Hw & Hls & Hsc & Hts & Hrt & Hpc & Hsd).
  destruct (new_filter_plain fuel rnd prm f0 E Hg) as (t0 & Hpl & Hb & Hc & Hsz & Hlt).
  destruct (run_ok f0 t0 Hpl Hb Hc p) as (f & t & Er & Hpf & Hsame & Hlen & Hcnt & _).
  destruct Hsame as (S1 & S2 & S3 & S4 & S5 & S6 & S7). destruct Hpf as ((Wt & _) & Wsz & Wr).
  assert (Hcells : Forall cell t).
  { apply (run_cells f0) in Er; [now apply Er|]. intros t1 E1. destruct Hpl as ((Wt0 & _) & _).
    rewrite Wt0 in E1. injection E1 as <-. clear -E Wt0. unfold new_filter in E.
    destruct (generate_unique_salt _ _ _ _); cbn [bind] in E; try discriminate. injection E as <-. cbn [bit_table] in Wt0.
    injection Wt0 as <-. apply Forall_forall. intros x Hx. apply repeat_spec in Hx. subst. reflexivity. }
  exists f, t. split; [exact Er|]. split; [|split; [|repeat split; congruence]].
  - constructor; auto.
    + rewrite S2, Hsc. apply Hk.
    + rewrite S3, Hts. exact Ht.
    + rewrite S6, Hrt. apply N.le_lt_trans with (table_size prm); [|exact Ht]. apply N.div_le_upper_bound; lia.
    + rewrite S7, Hpc. exact Hp.
    + rewrite Hcnt. apply N.mod_lt. discriminate.
    + now rewrite S4.
    + now rewrite S1.
  - constructor; auto.
    + lia.
    + rewrite S1, S2, Hls, Hsc. reflexivity.
    + rewrite S2, Hsc. apply Hk.
    + rewrite S3, Hts. apply Hg.
Qed.
