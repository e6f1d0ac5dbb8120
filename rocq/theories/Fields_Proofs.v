From Verif Require Import Base Split_Model Split_Spec Split_Proofs Match_Model Match_Proofs Codec_Spec Edit_Spec Num_Model Num_Spec Num_Proofs Num_Props
  Real_Model Real_Spec Parse_Model Parse_Spec Parse_Spec2 Parse_Proofs Parse_Proofs2 Parse_Proofs3 Parse_Props
  Text_Model Text_Spec Text_Proofs Text_Props Date_Proofs Fields_Model Fields_Spec.
From Coq Require Import Floats.SpecFloat.
Local Open Scope nat_scope.

(* ---- a parse that succeeds ---- *)
Lemma results_length ts xs ts' : results ts xs true ts' -> length ts <= length xs.
Proof.
  intros H. remember true as b. induction H; cbn [length]; [lia| |discriminate].
  pose proof (IHresults Heqb). lia.
Qed.
Lemma parse_true_iff delims s ts ts' : parse_values delims s ts = Ok (true, ts') <->
  exists texts, compressed_tokens delims s texts /\ results ts texts true ts'.
Proof.
  split.
  - intros H. destruct (compressed_exists delims s) as (texts & Hc). exists texts. split; [exact Hc|].
    apply (parse_values_iff _ _ _ _ _ _ Hc) in H. destruct (length texts <? length ts); [destruct H; discriminate|exact H].
  - intros (texts & Hc & Hr). apply (parse_values_iff _ _ _ _ _ _ Hc).
    pose proof (results_length _ _ _ Hr). replace (length texts <? length ts) with false by (symmetry; apply Nat.ltb_ge; lia). exact Hr.
Qed.
Lemma results_cons t ts xs ts' : results (t :: ts) xs true ts' <->
  exists x xs' v ts'', xs = x :: xs' /\ t_conv t x (t_val t) = Ok (true, v) /\ results ts xs' true ts'' /\ ts' = with_value t v :: ts''.
Proof.
  split.
  - intros H. inversion H; subst. eauto 10.
  - intros (x & xs' & v & ts'' & -> & H1 & H2 & ->). now apply res_ok.
Qed.
Lemma results_nil xs ts' : results [] xs true ts' <-> ts' = [].
Proof. split; [intros H; now inversion H|intros ->; constructor]. Qed.

(* ---- the single fields ---- *)
Lemma int_conv_iff x old v : conv_signed t_int n_int x old = Ok (true, v) <-> int_text x v.
Proof.
  unfold conv_signed, int_text. split.
  - intros H.
    assert (Hm : ~ signed_text x (-2147483648)).
    { intros Hs. rewrite (C19_int_min_refuted x Hs) in H. discriminate. }
    destruct (C19_int_exact x Hm) as ((o & E) & Hv). rewrite E in H. destruct o as [w|]; [|discriminate].
    cbn in H. injection H as ->. apply Hv in E as [E1 E2]. split; [exact E1|].
    assert (v <> (-2147483648)%Z) by (intros ->; contradiction). lia.
  - intros (Hs & Hr).
    assert (Hm : ~ signed_text x (-2147483648)) by (intros H; pose proof (signed_text_fun _ _ _ H Hs); lia).
    rewrite (proj2 (proj2 (C19_int_exact x Hm) v)); [reflexivity|]. split; [exact Hs|lia].
Qed.
Lemma expect_iff w x : expect w x tt = Ok (true, tt) <-> x = w.
Proof.
  destruct (expect_ok w x tt) as (b & E & Hb). rewrite E, <- Hb. split; [intros H; now injection H|intros ->; reflexivity].
Qed.
Lemma loop_S {S0 R} (body : S0 -> outcome (S0 + R)) f st :
  loop (S f) body st = (r <- body st ;; match r with inl st' => loop f body st' | inr v => Ok v end).
Proof. cbn [loop]. destruct (body st) as [[?|?]| |]; reflexivity. Qed.

(* true only for texts of 7-bit characters *)
Lemma toupper_small c z : toupper_char c = Ok z -> (0 <= z)%Z -> nat_of_ascii c < 128.
Proof.
  unfold toupper_char. intros H Hz.
  destruct (Z.ltb_spec (Z.of_N (N_of_ascii c)) 128) as [Hl|Hl].
  - unfold nat_of_ascii. lia.
  - destruct (Z.eqb_spec (Z.of_N (N_of_ascii c)) 255); [injection H as <-; lia|discriminate].
Qed.
Lemma iexpect_true_7bit w x : Forall (fun c => nat_of_ascii c < 128) w -> iexpect w x tt = Ok (true, tt) -> Forall (fun c => nat_of_ascii c < 128) x.
Proof.
  intros Hw. unfold iexpect. destruct (Nat.eqb_spec (length x) (length w)) as [Hl|]; cbn [negb]; [|discriminate].
  destruct (std_equal imatch_char w x) as [b| |] eqn:E; try discriminate. cbn [bind]. intros H. injection H as ->.
  unfold std_equal in E. revert E. set (body := fun i : nat => _).
  assert (G : forall f i, (forall j c, j < i -> nth_error x j = Some c -> nat_of_ascii c < 128) ->
    loop f body i = Ok true -> forall j c, nth_error x j = Some c -> nat_of_ascii c < 128).
  { induction f as [|f IH]; intros i Hi; [discriminate|]. rewrite loop_S. unfold body at 1.
    destruct (Nat.eqb_spec i (length w)) as [->|Hne].
    - intros _ j c Hj. apply (Hi j c); [|exact Hj]. rewrite <- Hl. apply nth_error_Some. congruence.
    - destruct (rd w i) as [a| |] eqn:Ea; try discriminate. cbn [bind].
      destruct (rd x i) as [d| |] eqn:Ed; try discriminate. cbn [bind].
      unfold rd in Ea, Ed. destruct (nth_error w i) as [a'|] eqn:Na; [|discriminate]. injection Ea as ->.
      destruct (nth_error x i) as [d'|] eqn:Nd; [|discriminate]. injection Ed as ->. unfold imatch_char.
      assert (Ha : nat_of_ascii a < 128). { rewrite Forall_forall in Hw. apply Hw. eapply nth_error_In; eauto. }
      rewrite (toupper_char_ok a) by exact Ha. cbn [bind].
      destruct (toupper_char d) as [z| |] eqn:Ez; try discriminate. cbn [bind].
      destruct (Z.eqb_spec (Z.of_nat (nat_of_ascii (upper a))) z) as [Hz|]; [|discriminate]. cbn [bind].
      apply IH. intros j c Hj Hc. destruct (Nat.eq_dec j i) as [->|]; [|apply (Hi j c); [lia|exact Hc]].
      assert (c = d) by congruence. subst c. apply (toupper_small d z Ez). lia. }
  intros E. apply Forall_forall. intros c Hc. apply In_nth_error in Hc as (j & Hj).
  eapply (G _ 0); [intros; lia|exact E|exact Hj].
Qed.
Lemma upper_7bit_inv c : nat_of_ascii (upper c) < 128 -> nat_of_ascii c < 128.
Proof.
  unfold upper, is_lower. destruct (_ && _) eqn:E; [|auto]. intros _. apply andb_true_iff in E as [_ E].
  apply Nat.leb_le in E. lia.
Qed.
Lemma iexpect_iff w u x : Forall (fun c => nat_of_ascii c < 128) w -> map upper w = u -> Forall (fun c => nat_of_ascii c < 128) u ->
  iexpect w x tt = Ok (true, tt) <-> map upper x = u.
Proof.
  intros Hw Hu Hu7. split.
  - intros H. pose proof (iexpect_true_7bit w x Hw H) as Hx. destruct (C66_iexpect w x tt Hw Hx) as (b & E & Hb).
    rewrite E in H. injection H as ->. rewrite <- Hu. now apply Hb.
  - intros H.
    assert (Hx : Forall (fun c => nat_of_ascii c < 128) x).
    { rewrite <- H in Hu7. rewrite Forall_map in Hu7. eapply Forall_impl; [|exact Hu7]. cbv beta. apply upper_7bit_inv. }
    destruct (C66_iexpect w x tt Hw Hx) as (b & E & Hb). rewrite E. f_equal. f_equal. apply Hb. congruence.
Qed.

(* ---- patterns ---- *)
Lemma skip_to_found buf dend c : dend <= length buf -> forall k d fuel, k < fuel -> d + k <= dend ->
  (forall j x, d <= j < d + k -> nth_error buf j = Some x -> Ascii.eqb c x = false) ->
  (d + k = dend \/ nth_error buf (d + k) = Some c) ->
  loop fuel (fun d =>
         if d =? dend then Ok (inr d)
         else x <- rd buf d ;;
              if Ascii.eqb c x then Ok (inr d)
              else d <- advance buf d ;; Ok (inl d)) d = Ok (d + k).
Proof.
  intros Hb. induction k as [|k IH]; intros d fuel Hf Hd Hfree Hend; (destruct fuel as [|fuel]; [lia|]); rewrite loop_S.
  - rewrite Nat.add_0_r in *. destruct (Nat.eqb_spec d dend) as [->|Hne]; [reflexivity|].
    destruct Hend as [Hend|Hend]; [lia|]. rewrite (rd_nth _ _ _ Hend). cbn [bind]. rewrite Ascii.eqb_refl. reflexivity.
  - destruct (Nat.eqb_spec d dend) as [->|Hne]; [lia|].
    destruct (rd_ok buf d ltac:(lia)) as (x & E & Hn). rewrite E. cbn [bind].
    rewrite (Hfree d x ltac:(lia) Hn). unfold advance at 1. destruct (Nat.ltb_spec d (length buf)); [|lia]. cbn [bind].
    replace (d + S k) with (S d + k) by lia. apply IH; [lia|lia| |].
    + intros j y Hj. apply Hfree. lia.
    + replace (S d + k) with (d + S k) by lia. exact Hend.
Qed.
Lemma first_char c (x : list ascii) : ~ In c x \/ exists u r, x = u ++ c :: r /\ ~ In c u.
Proof.
  induction x as [|a x IH]; [left; auto|]. destruct (Ascii.ascii_dec a c) as [->|Hne].
  - right. exists [], x. auto.
  - destruct IH as [H|(u & r & -> & H)]; [left; cbn; intuition|right]. exists (a :: u), r. cbn. intuition.
Qed.
Lemma nth_not_in (u l : list ascii) c j x : ~ In c u -> j < length u -> nth_error (u ++ l) j = Some x -> Ascii.eqb c x = false.
Proof.
  intros Hn Hj H. rewrite nth_error_app1 in H by exact Hj. apply nth_error_In in H.
  apply Ascii.eqb_neq. intros ->. contradiction.
Qed.
Lemma like_to_n after x : 2 <= length after -> exists b, like (str "to*n?") after x tt = Ok (b, tt) /\ (b = true <-> to_n x).
Proof.
  intros Ha. unfold like, match_impl.
  assert (Hno : forall b : bool, b = false -> ~ to_n x -> exists b', Ok (b, tt) = Ok (b', tt) /\ (b' = true <-> to_n x)).
  { intros b -> H. exists false. split; [reflexivity|]. split; [discriminate|contradiction]. }
  change (str "to*n?") with ["t"; "o"; "*"; "n"; "?"]%char. change (length ["t"; "o"; "*"; "n"; "?"]%char) with 5.
  rewrite loop_S. unfold match_step at 1. cbn [length Nat.eqb orb].
  destruct x as [|c0 x].
  { cbn. apply Hno; auto. intros (u & c & H & _). discriminate. }
  cbn [length Nat.eqb]. cbn [rd nth_error bind]. change (Ascii.eqb "*" "t") with false. change (Ascii.eqb "t" "?") with false.
  cbn [app rd nth_error bind]. destruct (Ascii.eqb_spec "t" c0) as [<-|Hc0]; cbn [bind].
  2:{ apply Hno; auto. intros (u & c & H & _). injection H as H _. congruence. }
  unfold advance. cbn [length Nat.ltb Nat.leb bind]. cbn [length].
  rewrite loop_S. unfold match_step at 1. cbn [length Nat.eqb orb].
  destruct x as [|c1 x].
  { cbn. apply Hno; auto. intros (u & c & H & _). discriminate. }
  cbn [length Nat.eqb]. cbn [rd nth_error bind]. change (Ascii.eqb "*" "o") with false. change (Ascii.eqb "o" "?") with false.
  cbn [app rd nth_error bind]. destruct (Ascii.eqb_spec "o" c1) as [<-|Hc1]; cbn [bind].
  2:{ apply Hno; auto. intros (u & c & H & _). injection H as H _. congruence. }
  unfold advance. cbn [length Nat.ltb Nat.leb bind]. cbn [length].
  rewrite loop_S. unfold match_step at 1. cbn [length Nat.eqb orb].
  destruct x as [|c2 x].
  { cbn. apply Hno; auto. intros ([|? u] & c & H & _); discriminate. }
  set (y := c2 :: x) in *.
  change (match length y with 0 => true | S _ => false end) with false. cbv iota.
  cbn [rd nth_error bind]. change (Ascii.eqb "*" "*") with true. cbv iota.
  change (skip_wild Ascii.eqb "*"%char "?"%char _ 2) with (Ok 3). cbn [bind Nat.eqb rd nth_error].
  unfold skip_to.
  set (buf := "t"%char :: "o"%char :: y ++ after). set (dend := S (S (length y))).
  assert (Hlen : length buf = dend + length after) by (unfold buf, dend; cbn [length]; rewrite app_length; lia).
  destruct (first_char "n" y) as [Hn|(u & r & Hy & Hn)].
  - rewrite (skip_to_found buf dend "n" ltac:(lia) (length y) 2 _).
    2:{ rewrite Hlen. unfold dend. lia. }
    2:{ unfold dend. lia. }
    2:{ intros j z Hj. destruct j as [|[|j]]; try lia. cbn [nth_error buf]. apply (nth_not_in y); [exact Hn|lia]. }
    2:{ now left. }
    cbn [bind]. change (2 + length y) with dend. unfold advance at 1. destruct (Nat.ltb_spec dend (length buf)); [|lia]. cbn [bind].
    rewrite loop_S. unfold match_step at 1. cbn [length]. change (4 =? 5) with false. change (5 =? 5) with true. cbn [orb].
    destruct (Nat.eqb_spec (S dend) dend); [lia|]. cbn [rd nth_error bind]. change (Ascii.eqb "*" "?") with false. change (Ascii.eqb "?" "?") with true. cbv iota.
    unfold advance at 1. destruct (Nat.ltb_spec (S dend) (length buf)); [|lia]. cbn [bind].
    rewrite loop_S. unfold match_step at 1. cbn [length]. change (4 =? 5) with false. change (5 =? 5) with true. cbn [orb]. unfold match_end.
    destruct (Nat.eqb_spec (S (S dend)) dend); [lia|]. cbn [negb bind]. apply Hno; auto.
    intros (u & c & Hx & _). injection Hx as Hx. apply Hn. rewrite Hx. apply in_or_app. right. now left.
  - assert (Hyl : length y = length u + S (length r)) by (rewrite Hy, app_length; reflexivity).
    rewrite (skip_to_found buf dend "n" ltac:(lia) (length u) 2 _).
    2:{ rewrite Hlen. unfold dend. lia. }
    2:{ unfold dend. lia. }
    2:{ intros j z Hj. destruct j as [|[|j]]; try lia. cbn [nth_error buf]. rewrite Hy, <- app_assoc. apply (nth_not_in u); [exact Hn|lia]. }
    2:{ right. cbn [nth_error buf Nat.add]. rewrite Hy, <- app_assoc, nth_error_app2, Nat.sub_diag by lia. reflexivity. }
    cbn [bind]. unfold advance at 1. destruct (Nat.ltb_spec (2 + length u) (length buf)); [|unfold dend in *; lia]. cbn [bind].
    assert (Hspec : to_n ("t"%char :: "o"%char :: y) <-> length r <= 1).
    { split.
      - intros (u' & c & H' & Hu' & Hc). injection H' as H'. rewrite Hy in H'.
        assert (u = u').
        { clear - H' Hn Hu'. revert u' H' Hu'. induction u as [|a u IH]; intros [|b u'] H' Hu'; auto.
          - injection H' as <- _. exfalso. apply Hu'. now left.
          - injection H' as -> _. exfalso. apply Hn. now left.
          - injection H' as <- H'. f_equal. apply IH; [intros Hi; apply Hn; now right|exact H'|intros Hi; apply Hu'; now right]. }
        subst u'. apply app_inv_head in H'. injection H' as ->. exact Hc.
      - intros Hr. exists u, r. rewrite Hy. auto. }
    rewrite loop_S. unfold match_step at 1. cbn [length]. change (4 =? 5) with false. change (5 =? 5) with true. cbn [orb].
    destruct (Nat.eqb_spec (S (2 + length u)) dend) as [Hd|Hd].
    + unfold match_end. rewrite Hd, Nat.eqb_refl. cbn. exists true. split; [reflexivity|].
      rewrite Hspec. unfold dend in Hd. split; [intros _; lia|reflexivity].
    + cbn [rd nth_error bind]. change (Ascii.eqb "*" "?") with false. change (Ascii.eqb "?" "?") with true. cbv iota.
      unfold advance at 1. destruct (Nat.ltb_spec (S (2 + length u)) (length buf)); [|unfold dend in *; lia]. cbn [bind].
      rewrite loop_S. unfold match_step at 1. cbn [length]. change (4 =? 5) with false. change (5 =? 5) with true. cbn [orb]. unfold match_end.
      destruct (Nat.eqb_spec (S (S (2 + length u))) dend) as [He|He]; cbn [negb bind length Nat.eqb].
      * exists true. split; [reflexivity|]. rewrite Hspec. unfold dend in He. split; [intros _; lia|reflexivity].
      * apply Hno; auto. rewrite Hspec. unfold dend in *. lia.
Qed.
Lemma one_each_char c p x : Match_Spec.one_each Ascii.eqb "?"%char (c :: p) x -> c <> "?"%char -> exists x', x = c :: x' /\ Match_Spec.one_each Ascii.eqb "?"%char p x'.
Proof.
  intros H Hc. inversion H as [| |p0 y d H' |c0 p0 y d Hq He H']; subst; try congruence. apply Ascii.eqb_eq in He as ->. eauto.
Qed.
Lemma one_each_token x : Match_Spec.one_each Ascii.eqb "?"%char (str "token?") x <-> token_ x.
Proof.
  split.
  - intros H. do 5 (apply one_each_char in H as (? & -> & H); [|discriminate]).
    inversion H as [| |p y d H' |c p y d Hq]; subst.
    + exists []. auto.
    + inversion H'; subst. exists [y]. auto.
    + now contradiction Hq.
  - intros (c & -> & Hc). do 5 (apply Match_Spec.o_char; [discriminate|reflexivity|]).
    destruct c as [|a [|? ?]]; cbn in Hc; try lia; [apply Match_Spec.o_last|apply Match_Spec.o_one, Match_Spec.o_nil].
Qed.
Lemma like_token after x : exists b, like (str "token?") after x tt = Ok (b, tt) /\ (b = true <-> token_ x).
Proof.
  destruct (C66_like_literal (str "token?") after x tt) as (b & E & Hb).
  - repeat constructor; discriminate.
  - exists b. split; [exact E|]. now rewrite Hb, one_each_token.
Qed.

(* ---- order of texts ---- *)
Lemma text_ltb_iff a : forall b, text_ltb a b = true <-> text_before a b.
Proof.
  induction a as [|x a IH]; intros [|y b]; cbn [text_ltb].
  - split; [discriminate|]. intros [(c & r & H)|(p & c & d & r & r' & H & _)]; [discriminate|]. now apply app_cons_not_nil in H.
  - split; [intros _|reflexivity]. left. now exists y, b.
  - split; [discriminate|]. intros [(c & r & H)|(p & c & d & r & r' & _ & H & _)]; [discriminate|]. now apply app_cons_not_nil in H.
  - destruct (N.ltb_spec (N_of_ascii x) (N_of_ascii y)) as [Hl|Hl].
    { split; [intros _|reflexivity]. right. exists [], x, y, a, b. auto. }
    destruct (N.ltb_spec (N_of_ascii y) (N_of_ascii x)) as [Hg|Hg].
    + split; [discriminate|]. intros [(c & r & H)|([|z p] & c & d & r & r' & H1 & H2 & H3)].
      * injection H as <- _. lia.
      * injection H1 as <- _. injection H2 as <- _. unfold code_lt in H3. lia.
      * injection H1 as <- _. injection H2 as <- _. lia.
    + assert (Exy : x = y) by (rewrite <- (ascii_N_embedding x), <- (ascii_N_embedding y); f_equal; lia). subst y.
      rewrite IH. split.
      * intros [(c & r & ->)|(p & c & d & r & r' & -> & -> & H)]; [left; now exists c, r|right]. exists (x :: p), c, d, r, r'. auto.
      * intros [(c & r & H)|([|z p] & c & d & r & r' & H1 & H2 & H3)].
        -- injection H as ->. left. eauto.
        -- injection H1 as <- _. injection H2 as <- _. unfold code_lt in H3. lia.
        -- injection H1 as <- ->. injection H2 as ->. right. now exists p, c, d, r, r'.
Qed.
Lemma text_ltb_false a b : text_ltb a b = false <-> ~ text_before a b.
Proof. rewrite <- text_ltb_iff. destruct (text_ltb a b); split; congruence. Qed.

(* ---- texts written with delimiters between them and at the end ---- *)
Fixpoint parted (p : ascii -> bool) (rest : list (list ascii * list ascii)) : Prop :=
  match rest with
  | [] => True
  | (sep, u) :: rest' =>
      sep <> [] /\ Forall (fun c => p c = true) sep /\ (rest' <> [] -> u <> []) /\ Forall (fun c => p c = false) u /\ parted p rest'
  end.
Lemma cuts_parted (p : ascii -> bool) : forall rest t pre, Forall (fun c => p c = false) t -> parted p rest ->
  exists toks, cuts p (pre ++ t ++ mixed rest) (fun f e => f) (fun f e => e) (length pre) toks /\
    map (sub (pre ++ t ++ mixed rest)) toks = t :: map snd rest.
Proof.
  induction rest as [|[sep u] rest IH]; intros t pre Ht2 Hf.
  - exists [(length pre, length (pre ++ t ++ mixed []))]. unfold mixed. cbn [map concat]. rewrite app_nil_r. split.
    + apply cut_last; [rewrite app_length; lia|]. rewrite app_length.
      rewrite <- (app_nil_r t) at 1. now apply all_in_free.
    + cbn [map]. f_equal. rewrite app_length. rewrite <- (app_nil_r t) at 1. apply sub_here.
  - destruct Hf as (Hs1 & Hs2 & Hu1 & Hu2 & Hf').
    change (mixed ((sep, u) :: rest)) with ((sep ++ u) ++ mixed rest). rewrite <- app_assoc.
    destruct (IH u (pre ++ t ++ sep) Hu2 Hf') as (toks & Hc & Hm).
    rewrite <- !app_assoc in Hc, Hm.
    exists ((length pre, length pre + length t) :: toks). split.
    + assert (Hlen : length (pre ++ t ++ sep) = length pre + length t + length sep) by (rewrite !app_length; lia).
      apply (cut_more p _ (fun f e => f) (fun f e => e) (length pre) (length pre + length t) (length pre + length t + length sep)).
      * lia.
      * destruct sep; [congruence|simpl; lia].
      * rewrite !app_length. lia.
      * now apply all_in_free.
      * pose proof (all_in_all p (pre ++ t) sep (u ++ mixed rest) Hs2) as H.
        rewrite <- app_assoc, app_length in H. exact H.
      * destruct u as [|c u].
        -- destruct rest as [|q rest]; [|now contradiction Hu1]. left. unfold mixed. cbn [map concat]. rewrite !app_nil_r, !app_length. lia.
        -- right. exists c. split; [|now inversion Hu2].
           replace (pre ++ t ++ sep ++ (c :: u) ++ mixed rest) with ((pre ++ t ++ sep) ++ (c :: u) ++ mixed rest) by now rewrite <- !app_assoc.
           rewrite nth_error_app2 by lia. rewrite Hlen, Nat.sub_diag. reflexivity.
      * cbv beta. rewrite Hlen in Hc. exact Hc.
    + cbn [map]. rewrite sub_here, Hm. reflexivity.
Qed.
Lemma compressed_parted delims t rest : t <> [] -> Forall (fun c => is_delim delims c = false) t -> parted (is_delim delims) rest ->
  compressed_tokens delims (t ++ mixed rest) (t :: map snd rest).
Proof.
  intros Ht1 Ht2 Hf. destruct (cuts_parted (is_delim delims) rest t [] Ht2 Hf) as (toks & Hc & Hm).
  exists toks. cbn [app length] in *. split; [|now rewrite Hm]. right. split; [destruct t; [congruence|discriminate]|exact Hc].
Qed.

(* ---- trimming ---- *)
Lemma trim_both_ok rem x old : exists y, trimmed_both (is_delim rem) x y /\ trim_string 0 rem x old = Ok (true, y).
Proof.
  destruct (C66_trim Z (conv_signed t_int n_int) rem x 0%Z) as (mid & y & H1 & H2 & _ & _ & H3 & _).
  exists y. rewrite H3. split; [now exists mid|reflexivity].
Qed.
Lemma trim_start_ok {T} (conv : converter T) rem x old t : exists y, trimmed_left (is_delim rem) x y /\
  trim_string 1 rem x old = Ok (true, y) /\ trim_to conv 1 rem x t = conv y t.
Proof.
  destruct (C66_trim T conv rem x t) as (mid & y & H1 & H2 & _ & H3 & _ & H4). exists mid. rewrite H4. auto.
Qed.
Lemma trim_end_ok {T} (conv : converter T) rem x old t : exists y, trimmed_end (is_delim rem) x y /\
  trim_string 2 rem x old = Ok (true, y) /\ trim_to conv 2 rem x t = conv y t.
Proof.
  unfold trimmed_end. destruct (forallb (is_delim rem) x) eqn:E.
  - destruct x as [|c x].
    + destruct (C66_trim_trailing T conv rem [] t ltac:(now left)) as (y & H1 & H2 & H3). exists y.
      destruct H1 as (suf & H1 & _). symmetry in H1. apply app_eq_nil in H1 as [-> _]. rewrite H3. auto.
    + exists [c]. split; [reflexivity|].
      assert (H : trim_string 2 rem (c :: x) old = Ok (true, [c])).
      { apply C66_trim_trailing_refuted. rewrite forallb_forall in E. now apply Forall_forall. }
      split; [exact H|]. clear - H. unfold trim_string, trim_to, conv_string in *. cbn [bind negb] in *.
      destruct (trim_switch 2 rem (c :: x)) as [[z|]| |]; try discriminate. cbn [bind] in *. congruence.
  - destruct (C66_trim_trailing T conv rem x t) as (y & H1 & H2 & H3).
    + right. assert (H : existsb (fun c => negb (is_delim rem c)) x = true).
      { clear - E. induction x as [|c x IH]; [discriminate|]. cbn in *. destruct (is_delim rem c); cbn in *; auto. }
      apply existsb_exists in H as (c & Hc & Hn). exists c. split; [exact Hc|]. now apply negb_true_iff.
    + exists y. rewrite H3. auto.
Qed.
Lemma trimmed_left_unique p (s t u : list ascii) : trimmed_left p s t -> trimmed_left p s u -> t = u.
Proof.
  intros (pre & E & F & G) (pre' & E' & F' & G'). subst s. revert pre' F' E'. induction F as [|c pre Hc F IH]; intros [|c' pre'] F' E'; cbn in E'.
  - exact E'.
  - inversion F'; subst. rewrite (G c' _ eq_refl) in H1. discriminate.
  - subst u. rewrite (G' c _ eq_refl) in Hc. discriminate.
  - injection E' as <- E'. inversion F'; subst. eapply IH; eauto.
Qed.

Lemma text_tricho a : forall b, (text_ltb a b = true /\ a <> b /\ text_ltb b a = false) \/ (text_ltb a b = false /\ a = b /\ text_ltb b a = false) \/
  (text_ltb a b = false /\ a <> b /\ text_ltb b a = true).
Proof.
  induction a as [|x a IH]; intros [|y b]; cbn [text_ltb]; auto.
  - left. repeat split. discriminate.
  - right. right. repeat split. discriminate.
  - destruct (N.ltb_spec (N_of_ascii x) (N_of_ascii y)) as [Hl|Hl]; destruct (N.ltb_spec (N_of_ascii y) (N_of_ascii x)) as [Hg|Hg]; try lia.
    + left. repeat split. intros H. injection H as -> _. lia.
    + right. right. repeat split. intros H. injection H as -> _. lia.
    + assert (x = y) by (rewrite <- (ascii_N_embedding x), <- (ascii_N_embedding y); f_equal; lia). subst y.
      destruct (IH b) as [(H1 & H2 & H3)|[(H1 & H2 & H3)|(H1 & H2 & H3)]]; rewrite H1, H3.
      * left. repeat split. congruence.
      * right. left. subst. auto.
      * right. right. repeat split. congruence.
Qed.
Lemma text_ltb_trans a : forall b c, text_ltb a b = true -> text_ltb b c = true -> text_ltb a c = true.
Proof.
  induction a as [|x a IH]; intros [|y b] [|z c]; cbn [text_ltb]; try discriminate; auto.
  intros H1 H2. repeat match goal with
    | H : context[(?u <? ?v)%N] |- _ => destruct (N.ltb_spec u v)
    | |- context[(?u <? ?v)%N] => destruct (N.ltb_spec u v)
    end; try discriminate; try lia; try reflexivity. now apply (IH b).
Qed.
Lemma trimmed_right_unique p (s t u : list ascii) : trimmed_right p s t -> trimmed_right p s u -> t = u.
Proof.
  intros (suf & E & F & G) (suf' & E' & F' & G').
  apply (f_equal (@rev ascii)) in E, E'. rewrite rev_app_distr in E, E'.
  rewrite <- (rev_involutive t), <- (rev_involutive u). f_equal.
  apply (trimmed_left_unique p (rev s)).
  - exists (rev suf). split; [exact E|]. split; [now apply Forall_rev|]. intros x t' Ht. apply (G (rev t') x). rewrite <- (rev_involutive t), Ht. reflexivity.
  - exists (rev suf'). split; [exact E'|]. split; [now apply Forall_rev|]. intros x t' Ht. apply (G' (rev t') x). rewrite <- (rev_involutive u), Ht. reflexivity.
Qed.
Lemma trimmed_end_unique p (s t u : list ascii) : trimmed_end p s t -> trimmed_end p s u -> t = u.
Proof. unfold trimmed_end. destruct (forallb p s); [congruence|apply trimmed_right_unique]. Qed.
Lemma trimmed_both_unique p (s t u : list ascii) : trimmed_both p s t -> trimmed_both p s u -> t = u.
Proof.
  intros (m & H1 & H2) (m' & H1' & H2'). rewrite (trimmed_left_unique _ _ _ _ H1' H1) in H2'. eapply trimmed_right_unique; eauto.
Qed.
