From Verif Require Import Base Split_Model Split_Proofs Split_Proofs3 Edit_Spec Edit_Model Edit_Proofs Edit_Props Delim_Spec Delim_Model.
Local Open Scope nat_scope.

Lemma loop_ext {S R} (b1 b2 : S -> outcome (S + R)) : (forall st, b1 st = b2 st) -> forall fuel st, loop fuel b1 st = loop fuel b2 st.
Proof.
  intros H. induction fuel as [|fuel IH]; intros st; [reflexivity|]. cbn [loop]. rewrite H. destruct (b2 st) as [[st'|r]| |]; cbn; auto.
Qed.

Lemma bind_ext {A B} (m1 m2 : outcome A) (k1 k2 : A -> outcome B) : m1 = m2 -> (forall x, k1 x = k2 x) -> bind m1 k1 = bind m2 k2.
Proof. intros -> H. destruct m2; cbn; auto. Qed.

Lemma strnlength_ok t rest n : ~ In zero t -> strnlength (t ++ zero :: rest) n = Ok (Nat.min n (length t)).
Proof.
  intros Hn. unfold strnlength. match goal with |- loop _ ?f _ = _ => set (body := f) end.
  assert (G : forall fuel i, i <= Nat.min n (length t) -> Nat.min n (length t) - i < fuel -> loop fuel body i = Ok (Nat.min n (length t))).
  { induction fuel as [|fuel IH]; intros i Hi Hf; [lia|]. cbn [loop]. unfold body at 1. destruct (Nat.eqb_spec i n) as [->|E].
    - cbn [bind]. f_equal. lia.
    - destruct (Nat.eq_dec i (length t)) as [->|E'].
      + rewrite rd_here. cbn [bind]. rewrite Ascii.eqb_refl. cbn [bind]. f_equal. lia.
      + assert (i < length t) as L by lia. destruct (nth_error t i) as [c|] eqn:Ec; [|apply nth_error_None in Ec; lia].
        rewrite (rd_nth _ _ c) by (rewrite nth_error_app1; auto). cbn [bind]. destruct (Ascii.eqb_spec c zero) as [->|Ez].
        * exfalso. apply Hn. eapply nth_error_In; eauto.
        * cbn [bind]. apply IH; lia. }
  apply G; lia.
Qed.
Lemma strnlength_ub t n : ~ In zero t -> length t < n -> strnlength t n = UB.
Proof.
  intros Hn Hl. unfold strnlength. match goal with |- loop _ ?f _ = _ => set (body := f) end.
  assert (G : forall fuel i, i <= length t -> length t - i < fuel -> loop fuel body i = UB).
  { induction fuel as [|fuel IH]; intros i Hi Hf; [lia|]. cbn [loop]. unfold body at 1. destruct (Nat.eqb_spec i n) as [->|E]; [lia|].
    destruct (nth_error t i) as [c|] eqn:Ec.
    - rewrite (rd_nth _ _ c) by auto. cbn [bind]. apply nth_error_some_lt in Ec as L. destruct (Ascii.eqb_spec c zero) as [->|Ez].
      + exfalso. apply Hn. eapply nth_error_In; eauto.
      + cbn [bind]. apply IH; lia.
    - apply nth_error_None in Ec. rewrite rd_ub by auto. reflexivity. }
  apply G; lia.
Qed.
Lemma strnlength_full t n : ~ In zero t -> n <= length t -> strnlength t n = Ok n.
Proof.
  intros Hn Hl. unfold strnlength. match goal with |- loop _ ?f _ = _ => set (body := f) end.
  assert (G : forall fuel i, i <= n -> n - i < fuel -> loop fuel body i = Ok n).
  { induction fuel as [|fuel IH]; intros i Hi Hf; [lia|]. cbn [loop]. unfold body at 1. destruct (Nat.eqb_spec i n) as [->|E]; [reflexivity|].
    destruct (nth_error t i) as [c|] eqn:Ec; [|apply nth_error_None in Ec; lia].
    rewrite (rd_nth _ _ c) by auto. cbn [bind]. destruct (Ascii.eqb_spec c zero) as [->|Ez].
    - exfalso. apply Hn. eapply nth_error_In; eauto.
    - cbn [bind]. apply IH; lia. }
  apply G; lia.
Qed.
Lemma std_string_ok t rest : ~ In zero t -> std_string (t ++ zero :: rest) = Ok t.
Proof.
  intros Hn. unfold std_string. match goal with |- loop _ ?f _ = _ => set (body := f) end.
  assert (G : forall fuel i, i <= length t -> length t - i < fuel -> loop fuel body i = Ok t).
  { induction fuel as [|fuel IH]; intros i Hi Hf; [lia|]. cbn [loop]. unfold body at 1.
    destruct (Nat.eq_dec i (length t)) as [->|E'].
    - rewrite rd_here. cbn [bind]. rewrite Ascii.eqb_refl. cbn [bind]. f_equal. unfold sub. cbn [fst snd]. rewrite Nat.sub_0_r, skipn_O. apply firstn_app_len.
    - destruct (nth_error t i) as [c|] eqn:Ec; [|apply nth_error_None in Ec; lia].
      rewrite (rd_nth _ _ c) by (rewrite nth_error_app1; auto; lia). cbn [bind]. destruct (Ascii.eqb_spec c zero) as [->|Ez].
      + exfalso. apply Hn. eapply nth_error_In; eauto.
      + cbn [bind]. apply IH; lia. }
  apply G; rewrite ?app_length; cbn; lia.
Qed.
Lemma std_string_ub t : ~ In zero t -> std_string t = UB.
Proof.
  intros Hn. unfold std_string. match goal with |- loop _ ?f _ = _ => set (body := f) end.
  assert (G : forall fuel i, i <= length t -> length t - i < fuel -> loop fuel body i = UB).
  { induction fuel as [|fuel IH]; intros i Hi Hf; [lia|]. cbn [loop]. unfold body at 1.
    destruct (nth_error t i) as [c|] eqn:Ec.
    - rewrite (rd_nth _ _ c) by auto. cbn [bind]. apply nth_error_some_lt in Ec as L. destruct (Ascii.eqb_spec c zero) as [->|Ez].
      + exfalso. apply Hn. eapply nth_error_In; eauto.
      + cbn [bind]. apply IH; lia.
    - apply nth_error_None in Ec. rewrite rd_ub by auto. reflexivity. }
  apply G; lia.
Qed.

Lemma split_n_pred_ext {A} (p q : A -> bool) (s : list A) n opt : (forall x, p x = q x) -> split_n p s n opt = split_n q s n opt.
Proof.
  intros H. unfold split_n. destruct (n =? 0); [reflexivity|]. destruct (length s =? 0); [reflexivity|].
  assert (K : forall i, skip_delims p s i = skip_delims q s i).
  { intros i. unfold skip_delims. apply loop_ext. intros j. destruct (j =? length s); [reflexivity|]. destruct (rd s j); cbn [bind]; auto. now rewrite H. }
  assert (K' : forall i, skip_delims_pre p s i = skip_delims_pre q s i).
  { intros i. unfold skip_delims_pre. apply loop_ext. intros j. cbv zeta. destruct (S j =? length s); [reflexivity|]. destruct (rd s (S j)); cbn [bind]; auto. now rewrite H. }
  apply bind_ext.
  - apply loop_ext. intros [[[f i] out] m]. destruct (i =? length s); [reflexivity|]. destruct (rd s i); cbn [bind]; auto. cbv zeta. rewrite H, K, K'. reflexivity.
  - intros [[[[f i] out] m]|r]; [|reflexivity]. unfold last_token. destruct (negb (f =? i)); [reflexivity|].
    destruct i; [reflexivity|]. destruct (rd s i); cbn [bind]; auto. now rewrite H.
Qed.

Lemma among_single d c : single_delimiter_predicate d c = among Ascii.eqb [d] c.
Proof. unfold single_delimiter_predicate, among. cbn. now rewrite orb_false_r. Qed.
Lemma among_multi ds c : multiple_char_delimiter_predicate ds c = among Ascii.eqb ds c.
Proof. apply mcdp_mem. Qed.

Lemma split_cstr_ok mem t s opt : c_text mem t -> split_cstr mem s opt = split (among Ascii.eqb t) s opt.
Proof.
  intros (Hn & rest & ->). unfold split_cstr. rewrite strnlength_ok by auto. cbn [bind]. destruct (Nat.eqb_spec 1 (Nat.min 256 (length t))) as [E|E].
  - destruct t as [|d [|e t]]; cbn in E; try lia. cbn [app]. change (rd (d :: zero :: rest) 0) with (Ok d). cbn [bind]. apply split_pred_ext. apply among_single.
  - rewrite std_string_ok by auto. cbn [bind]. apply split_pred_ext. apply among_multi.
Qed.
Lemma split_n_cstr_ok mem t s n opt : c_text mem t -> split_n_cstr mem s n opt = split_n (among Ascii.eqb t) s n opt.
Proof.
  intros (Hn & rest & ->). unfold split_n_cstr. rewrite std_string_ok by auto. cbn [bind]. apply split_n_pred_ext. apply among_multi.
Qed.
Lemma split_n_str_ok ds s n opt : split_n_str ds s n opt = split_n (among Ascii.eqb ds) s n opt.
Proof.
  unfold split_n_str. destruct (Nat.eqb_spec 1 (length ds)) as [E|E].
  - destruct ds as [|d [|e t]]; cbn in E; try lia. change (rd [d] 0) with (Ok d). cbn [bind]. apply split_n_pred_ext. apply among_single.
  - apply split_n_pred_ext. apply among_multi.
Qed.
Lemma split_cstr_ub mem s opt : ~ In zero mem -> split_cstr mem s opt = UB.
Proof.
  intros Hn. unfold split_cstr. destruct (Nat.lt_ge_cases (length mem) 256) as [L|L].
  - rewrite strnlength_ub by auto. reflexivity.
  - rewrite strnlength_full by auto. cbn [bind]. change (1 =? 256) with false. cbv iota. rewrite std_string_ub by auto. reflexivity.
Qed.

Lemma rem_predicate_ok mem t : c_text mem t -> exists p, rem_predicate mem = Ok p /\ forall c, p c = among Ascii.eqb (firstn 256 t) c.
Proof.
  intros (Hn & rest & ->). unfold rem_predicate. rewrite strnlength_ok by auto. cbn [bind]. eexists. split; [reflexivity|]. intros c. rewrite among_multi. f_equal.
  unfold sub. cbn [fst snd]. rewrite Nat.sub_0_r, skipn_O. rewrite firstn_app.
  replace (Nat.min 256 (length t) - length t) with 0 by lia. rewrite firstn_O, app_nil_r.
  destruct (Nat.le_ge_cases 256 (length t)).
  - now rewrite Nat.min_l.
  - rewrite Nat.min_r by auto. now rewrite !firstn_all2 by lia.
Qed.
Lemma trimmed_left_ext {A} (p q : A -> bool) s t : (forall x, p x = q x) -> trimmed_left p s t -> trimmed_left q s t.
Proof.
  intros H (pre & E & F & G). exists pre. split; [auto|]. split; [|intros; rewrite <- H; eauto]. revert F. apply Forall_impl. intros x. now rewrite H.
Qed.
Lemma trimmed_right_ext {A} (p q : A -> bool) s t : (forall x, p x = q x) -> trimmed_right p s t -> trimmed_right q s t.
Proof.
  intros H (pre & E & F & G). exists pre. split; [auto|]. split; [|intros; rewrite <- H; eauto]. revert F. apply Forall_impl. intros x. now rewrite H.
Qed.
Lemma drop_after_ext {A} (p q : A -> A -> bool) (l : list A) : (forall x y, p x y = q x y) -> drop_after p l = drop_after q l.
Proof. intros H. unfold drop_after. f_equal. apply filter_ext. intros [[y|] x]; cbn; [now rewrite H|reflexivity]. Qed.

Lemma remove_leading_cstr_eq mem s : remove_leading_cstr mem s =
  if length s =? 0 then Ok s else p <- rem_predicate mem ;; remove_leading_str p s.
Proof.
  unfold remove_leading_cstr, remove_leading_str. destruct (length s =? 0) eqn:E; [reflexivity|]. destruct (rem_predicate mem) as [p| |]; cbn [bind]; auto.
  destruct (remove_leading p s) as [[s' k]| |]; cbn [bind]; auto. destruct (Nat.ltb_spec 0 k) as [L|L]; [reflexivity|].
  assert (k = 0) as -> by lia. rewrite Nat.sub_0_r. unfold resize_down. now rewrite firstn_all.
Qed.
Lemma remove_trailing_cstr_eq mem s : remove_trailing_cstr mem s = p <- rem_predicate mem ;; remove_trailing_str p s.
Proof.
  unfold remove_trailing_cstr, remove_trailing_str. destruct (rem_predicate mem) as [p| |]; cbn [bind]; auto.
  destruct (length s =? 0) eqn:E.
  - unfold remove_trailing. rewrite E. reflexivity.
  - destruct (remove_trailing p s) as [k| |]; cbn [bind]; auto. destruct (Nat.ltb_spec 0 k) as [L|L]; [reflexivity|].
    assert (k = 0) as -> by lia. rewrite Nat.sub_0_r. unfold resize_down. now rewrite firstn_all.
Qed.

(* --- predicates with storage --- *)
Section Predicate.
Context {T : Type}.
Variable eqb : T -> T -> bool.

Lemma copy_cells_ok (ds : list T) a : length ds <= length a -> copy_cells ds a = Ok (map Some ds ++ skipn (length ds) a).
Proof. clear eqb.
  intros L. apply holds_eq. unfold copy_cells.
  eapply holds_weaken; [apply (for_up_rule (fun k b => b = map Some (firstn k ds) ++ skipn k a))|].
  - intros k b Hk ->. destruct (nth_error ds k) as [x|] eqn:Ex; [|apply nth_error_None in Ex; lia].
    rewrite (rd_nth _ _ x Ex). cbn [bind]. destruct (nth_error a k) as [y|] eqn:Ey; [|apply nth_error_None in Ey; lia].
    rewrite (skipn_nth_cons _ _ _ Ey). assert (LL : length (map Some (firstn k ds)) = k) by (rewrite map_length, firstn_length; lia).
    pose proof (wr_here (map Some (firstn k ds)) y (skipn (S k) a) (Some x)) as W. rewrite LL in W. rewrite W. cbn [holds].
    rewrite (firstn_S_nth _ _ _ Ex), map_app. cbn. now rewrite <- app_assoc.
  - reflexivity.
  - intros b Hb. cbn in Hb. rewrite firstn_all in Hb. exact Hb.
Qed.
Lemma find_ok (ds : list T) a n d : length ds = n ->
  loop (S n) (fun i => if i =? n then Ok (inr false)
              else o <- rd (map Some ds ++ a) i ;;
                   match o with
                   | None => UB
                   | Some x => if eqb x d then Ok (inr true) else Ok (inl (S i))
                   end) 0 = Ok (among eqb ds d).
Proof.
  intros L. match goal with |- loop _ ?f _ = _ => set (body := f) end.
  assert (G : forall fuel i, i <= n -> n - i < fuel -> loop fuel body i = Ok (among eqb (skipn i ds) d)).
  { induction fuel as [|fuel IH]; intros i Hi Hf; [lia|]. cbn [loop]. unfold body at 1. destruct (Nat.eqb_spec i n) as [->|E].
    - rewrite <- L, skipn_all. reflexivity.
    - destruct (nth_error ds i) as [x|] eqn:Ex; [|apply nth_error_None in Ex; lia].
      rewrite (rd_nth _ _ (Some x)) by (rewrite nth_error_app1 by (rewrite map_length; lia); now apply map_nth_error). cbn [bind].
      rewrite (skipn_nth_cons _ _ _ Ex). unfold among. cbn [existsb]. destruct (eqb x d); [reflexivity|]. cbn [bind orb]. apply IH; lia. }
  rewrite G by lia. reflexivity.
Qed.

(* the predicate of an object made from ds, in a heap that still has its array *)
Lemma mdp_ok (h : heap) (ds : list T) : exists m h', mdp_new h ds = Ok (m, h') /\
  (forall h2 x, (forall k, k < length h' -> nth_error h2 k = nth_error h' k) -> mdp_test eqb h2 m x = Ok (among eqb ds x)) /\
  exists h3, mdp_delete h' m = Ok h3 /\ firstn (length h) h3 = h /\ Forall (fun o => o = None) (skipn (length h) h3).
Proof.
  unfold mdp_new. destruct (Nat.leb_spec (length ds) sbo_size) as [L|L].
  - rewrite copy_cells_ok by (rewrite repeat_length; auto). cbn [bind]. eexists _, _. split; [reflexivity|]. split.
    + intros h2 x _. unfold mdp_test, mdp_cells. cbn [m_array m_sbo m_length bind]. now apply find_ok.
    + exists h. unfold mdp_delete. cbn [m_length]. destruct (Nat.ltb_spec sbo_size (length ds)); [lia|]. split; [auto|].
      split; [apply firstn_all|]. rewrite skipn_all. constructor.
  - rewrite copy_cells_ok by (rewrite repeat_length; auto). cbn [bind].
    eexists _, _. split; [reflexivity|]. split.
    + intros h2 x H. unfold mdp_test, mdp_cells. cbn [m_array m_sbo m_length bind].
      rewrite (rd_nth h2 (length h) (Some (map Some ds ++ skipn (length ds) (repeat None (length ds))))).
      * cbn [bind]. now apply find_ok.
      * rewrite H by (rewrite app_length; cbn; lia). rewrite nth_error_app2, Nat.sub_diag by lia. reflexivity.
    + unfold mdp_delete. cbn [m_length m_array]. destruct (Nat.ltb_spec sbo_size (length ds)); [|lia].
      rewrite rd_here. cbn [bind]. rewrite wr_here. eexists. split; [reflexivity|]. rewrite firstn_app_len, skipn_app_len. split; [auto|repeat constructor].
Qed.
End Predicate.

(* --- empty strings --- *)
Lemma remove_empty_set_ok c : remove_empty_set c = Ok (filter (fun x => negb (length x =? 0)) c).
Proof.
  unfold remove_empty_set. match goal with |- loop _ ?f _ = _ => set (body := f) end.
  assert (G : forall b a fuel, length b < fuel -> loop fuel body (a ++ b, length a) = Ok (a ++ filter (fun x => negb (length x =? 0)) b)).
  { induction b as [|x b IH]; intros a fuel Hf; (destruct fuel as [|fuel]; [cbn in Hf; lia|]); cbn [loop]; unfold body at 1.
    - rewrite !app_nil_r, Nat.eqb_refl. reflexivity.
    - rewrite app_length. cbn [length]. destruct (Nat.eqb_spec (length a) (length a + S (length b))); [lia|].
      rewrite rd_here. cbn [bind filter]. destruct (length x =? 0) eqn:Ex; cbn [negb].
      + replace (sub (a ++ x :: b) (0, length a) ++ sub (a ++ x :: b) (S (length a), length a + S (length b))) with (a ++ b).
        * cbn [bind]. apply IH. cbn in Hf. lia.
        * unfold sub. cbn [fst snd]. rewrite skipn_O, Nat.sub_0_r, firstn_app_len. f_equal.
          replace (S (length a)) with (length (a ++ [x])) by (rewrite app_length; cbn; lia).
          replace (a ++ x :: b) with ((a ++ [x]) ++ b) by (now rewrite <- app_assoc). rewrite skipn_app_len.
          rewrite firstn_all2; [auto|]. rewrite app_length. cbn. lia.
      + cbn [bind]. replace (a ++ x :: b) with ((a ++ [x]) ++ b) by (now rewrite <- app_assoc).
        replace (S (length a)) with (length (a ++ [x])) by (rewrite app_length; cbn; lia). rewrite IH by (cbn in Hf; lia). now rewrite <- app_assoc. }
  apply (G c [] (S (length c))). lia.
Qed.
