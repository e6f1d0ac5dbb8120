From Verif Require Import Base Codec_Tables Codec_Model Codec_Spec Codec_Proofs Codec_Proofs2 Hexview_Model Hexview_Spec.
Local Open Scope nat_scope.

Definition digit (d : N) : ascii := ascii_of_N (if (d <? 10)%N then 48 + d else 55 + d)%N.
Lemma digit_ok d : (d < 16)%N -> upper_hex (digit d) /\ hex_value (digit d) = Some d /\ (digit d = "0"%char -> d = 0%N).
Proof.
  intros H. assert (Hi : In d (map N.of_nat (seq 0 16))).
  { apply in_map_iff. exists (N.to_nat d). split; [lia|]. apply in_seq. lia. }
  cbn in Hi. unfold upper_hex.
  repeat (destruct Hi as [<-|Hi]; [split; [cbn; tauto|split; [reflexivity|]]; (reflexivity || (vm_compute; discriminate))|]). contradiction.
Qed.

Lemma hex_number_snoc d c : hex_number (d ++ [c]) = (16 * hex_number d + match hex_value c with Some x => x | None => 0 end)%N.
Proof. unfold hex_number. now rewrite fold_left_app. Qed.

Lemma hex_digits_ok : forall k n acc, (n < 16 ^ N.of_nat (S k))%N ->
  exists d, hex_digits (S k) n acc = d ++ acc /\ d <> [] /\ Forall upper_hex d /\ hex_number d = n /\
    (d = ["0"%char] \/ hd zero d <> "0"%char) /\ length d <= S k.
Proof.
  induction k as [|k IH]; intros n acc Hn.
  - change (16 ^ N.of_nat 1)%N with 16%N in Hn. cbn [hex_digits]. fold (digit (n mod 16)%N).
    destruct (N.ltb_spec n 16); [|lia]. rewrite N.mod_small by lia.
    destruct (digit_ok n) as (U & V & Z); [lia|]. exists [digit n]. split; [reflexivity|]. split; [discriminate|].
    split; [auto|]. split; [unfold hex_number; cbn [fold_left]; rewrite V; lia|]. split; [|cbn [length]; lia].
    cbn [hd]. destruct (ascii_dec (digit n) "0") as [->|]; auto.
  - remember (S k) as k' eqn:Ek. cbn [hex_digits]. fold (digit (n mod 16)%N).
    assert (Hm : (n mod 16 < 16)%N) by (apply N.mod_upper_bound; lia).
    destruct (digit_ok (n mod 16)%N Hm) as (U & V & Z). destruct (N.ltb_spec n 16) as [L|L].
    + rewrite N.mod_small in * by lia. exists [digit n]. split; [reflexivity|]. split; [discriminate|].
      split; [auto|]. split; [unfold hex_number; cbn [fold_left]; rewrite V; lia|]. split; [|cbn [length]; lia].
      cbn [hd]. destruct (ascii_dec (digit n) "0") as [->|]; auto.
    + destruct (IH (n / 16)%N (digit (n mod 16)%N :: acc)) as (d & E & Hd & F & W & Hz & Hl).
      { replace (N.of_nat (S k')) with (N.succ (N.of_nat k')) in Hn by lia. rewrite N.pow_succ_r' in Hn.
        apply N.div_lt_upper_bound; lia. }
      exists (d ++ [digit (n mod 16)%N]). split; [rewrite E, <- app_assoc; reflexivity|].
      split; [now destruct d|]. split; [apply Forall_app; auto|].
      split; [rewrite hex_number_snoc, V, W; symmetry; apply N.div_mod; lia|].
      split; [|rewrite app_length; cbn [length]; lia].
      right. destruct d as [|c d]; [contradiction|]. cbn [app hd]. destruct Hz as [Hz|Hz]; [|exact Hz].
      exfalso. rewrite Hz in W. assert (1 <= n / 16)%N by (apply N.div_le_lower_bound; lia). cbn in W. lia.
Qed.

Lemma put_address_ok n o : (n < 2 ^ 64)%N -> exists t, address_text (fill o) n t /\ put_address n o = put t o.
Proof.
  intros H. unfold put_address. destruct (hex_digits_ok 15 n []) as (d & E & Hd & F & W & Hz & Hl); [exact H|].
  rewrite app_nil_r in E. cbn zeta. rewrite E. eexists. split; [|reflexivity].
  exists (10 - length d), d. repeat (split; [solve [auto]|]). rewrite app_length, repeat_length. lia.
Qed.

Lemma firstn_full {A} (x r : list A) n : length x = n -> firstn n (x ++ r) = x.
Proof. intros <-. rewrite firstn_app, Nat.sub_diag, firstn_all, firstn_O, app_nil_r. reflexivity. Qed.

Lemma hexview_from_ok : forall n input buffer hex_buffer a o fuel,
  length input <= n -> length input < fuel -> length buffer = 16 -> length hex_buffer = 32 -> (a < 2 ^ 64)%N ->
  exists t, view (fill o) a input t /\
  loop fuel hexview_step (input, buffer, hex_buffer, a, o) = Ok (written o ++ t).
Proof.
  induction n as [n IH] using lt_wf_ind. intros input buffer hex_buffer a o fuel Hn Hf Hb Hh Ha.
  destruct fuel as [|fuel]; [lia|]. cbn [loop]. unfold hexview_step at 1, read, data_width.
  set (got := firstn 16 input).
  assert (Hg : length got = Nat.min 16 (length input)) by apply firstn_length.
  assert (HX : length (hex_text got) = 2 * length got) by apply hex_text_length.
  assert (E1 : firstn (length got) (got ++ skipn (length got) buffer) = got) by now apply firstn_full.
  destruct (Nat.eqb_spec (length got) 16) as [E|E].
  - rewrite E in E1. rewrite E. rewrite E1. rewrite convert_bin_to_hex_ok by lia. cbn [bind].
    rewrite printable_ok. cbn [bind]. cbn zeta.
    rewrite (firstn_full (map to_printable got)) by (rewrite map_length; exact E).
    rewrite (firstn_full (hex_text got)) by lia.
    destruct (put_address_ok a (setfill "0" o) Ha) as (t & Ht & ->). cbn [fill setfill] in Ht.
    match goal with |- exists _, _ /\ loop _ hexview_step (_, ?b, ?h, ?a', ?o') = _ =>
      destruct (IH (n - 16) ltac:(lia) (skipn 16 input) b h a' o' fuel) as (u & Hu & Eu) end.
    { rewrite skipn_length; lia. } { rewrite skipn_length; lia. }
    { rewrite app_length, map_length, skipn_length, app_length, skipn_length. lia. }
    { rewrite app_length, skipn_length. lia. } { apply N.mod_upper_bound. lia. }
    rewrite Eu. cbn [written put setfill fill] in *.
    exists ((t ++ " "%char :: hex_text got ++ repeat " "%char (2 * (16 - length got) + 1) ++ map to_printable got ++ ["010"%char]) ++ u). split.
    + replace input with (got ++ skipn 16 input) by apply firstn_skipn.
      apply v_line; [exact E| |exact Hu]. exists t. split; [exact Ht|reflexivity].
    + rewrite E. change (repeat " "%char (2 * (16 - 16) + 1)) with [" "%char].
      f_equal. repeat (rewrite <- !app_assoc; cbn [app]). reflexivity.
  - assert (Eg : got = input) by (apply firstn_all2; lia).
    destruct (Nat.eqb_spec 0 (length got)) as [Z|Z]; cbn [negb].
    + exists []. rewrite app_nil_r. split; [|reflexivity]. destruct input; [constructor|]. rewrite Eg in Z. discriminate.
    + rewrite E1. rewrite convert_bin_to_hex_ok by lia. cbn [bind]. rewrite printable_ok. cbn [bind]. cbn zeta.
      rewrite (firstn_full (map to_printable got)) by apply map_length. rewrite (firstn_full (hex_text got)) by lia.
      destruct (put_address_ok a o Ha) as (t & Ht & ->). cbn [written put].
      exists (t ++ " "%char :: hex_text got ++ repeat " "%char (2 * (16 - length got) + 1) ++ map to_printable got ++ ["010"%char]). split.
      * rewrite <- Eg at 1. apply v_last; [lia|lia|]. exists t. split; [exact Ht|reflexivity].
      * rewrite <- !app_assoc. cbn [app]. reflexivity.
Qed.

Lemma hexview_ok input buffer hex_buffer : length buffer = 16 -> length hex_buffer = 32 ->
  exists t, view " " 0 input t /\ hexview input buffer hex_buffer = Ok t.
Proof.
  intros Hb Hh. destruct (hexview_from_ok (length input) input buffer hex_buffer 0 (Cout [] " ") (S (length input))) as (t & Hv & E); try lia.
  exists t. split; [exact Hv|]. exact E.
Qed.

(* ---------- the view is determined ---------- *)
Lemma upper_hex_value c : upper_hex c -> exists v, hex_value c = Some v /\ (v < 16)%N /\ c = digit v.
Proof.
  unfold upper_hex. intros Hi. cbn in Hi.
  repeat (destruct Hi as [<-|Hi]; [eexists; split; [reflexivity|split; reflexivity]|]). contradiction.
Qed.
Lemma hex_number_unique : forall d, Forall upper_hex d -> d <> [] -> (d = ["0"%char] \/ hd zero d <> "0"%char) ->
  forall e, Forall upper_hex e -> e <> [] -> (e = ["0"%char] \/ hd zero e <> "0"%char) -> hex_number d = hex_number e -> d = e.
Proof.
  assert (P : forall d, Forall upper_hex d -> d <> [] -> hd zero d <> "0"%char -> (1 <= hex_number d)%N).
  { intros d. induction d as [|c d IH] using rev_ind; intros F Hn Hz; [contradiction|].
    rewrite hex_number_snoc. apply Forall_app in F. destruct F as [F Fc]. inversion Fc as [|? ? Uc _]; subst.
    destruct (upper_hex_value c Uc) as (v & -> & Hv & Ev). destruct d as [|c0 d].
    - cbn in Hz. subst c. unfold hex_number. cbn [fold_left]. destruct v; [exfalso; apply Hz; reflexivity|lia].
    - assert (1 <= hex_number (c0 :: d))%N by (apply IH; [exact F|discriminate|exact Hz]). lia. }
  intros d. induction d as [|c d IH] using rev_ind; intros F Hn Hz e Fe Hne Hze E; [contradiction|].
  destruct e as [|b e _] using rev_ind; [contradiction|].
  apply Forall_app in F. destruct F as [F Fc]. inversion Fc as [|? ? Uc _]; subst.
  apply Forall_app in Fe. destruct Fe as [Fe Fb]. inversion Fb as [|? ? Ub _]; subst.
  rewrite !hex_number_snoc in E. destruct (upper_hex_value c Uc) as (v & Ev & Lv & ->), (upper_hex_value b Ub) as (w & Ew & Lw & ->).
  rewrite Ev, Ew in E. assert (v = w /\ hex_number d = hex_number e) as [-> E'] by lia. f_equal.
  destruct d as [|c0 d], e as [|b0 e].
  - reflexivity.
  - exfalso. destruct Hze as [Hze|Hze]; [destruct e; discriminate|]. assert (1 <= hex_number (b0 :: e))%N by (apply P; [exact Fe|discriminate|exact Hze]).
    rewrite <- E' in *. cbn in *. lia.
  - exfalso. destruct Hz as [Hz|Hz]; [destruct d; discriminate|]. assert (1 <= hex_number (c0 :: d))%N by (apply P; [exact F|discriminate|exact Hz]).
    rewrite E' in *. cbn in *. lia.
  - apply IH; [exact F|discriminate| |exact Fe|discriminate| |exact E'].
    + right. destruct Hz as [Hz|Hz]; [destruct d; discriminate|]. exact Hz.
    + right. destruct Hze as [Hz'|Hz']; [destruct e; discriminate|]. exact Hz'.
Qed.

Lemma address_text_unique f a t u : address_text f a t -> address_text f a u -> t = u.
Proof.
  intros (k & d & -> & Hd & Fd & Vd & Zd & Ld) (l & e & -> & He & Fe & Ve & Ze & Le).
  assert (d = e) as -> by (apply hex_number_unique; auto; congruence). f_equal.
  rewrite !app_length, !repeat_length in *. assert (k = l) as -> by lia. reflexivity.
Qed.
Lemma view_unique f a s t : view f a s t -> forall u, view f a s u -> t = u.
Proof.
  assert (L : forall f a x t u, line f a x t -> line f a x u -> t = u).
  { intros f' a' x t' u' (p & Hp & ->) (q & Hq & ->). now rewrite (address_text_unique _ _ _ _ Hp Hq). }
  intros H. induction H as [f a|f a x t H0 H1 H2|f a x t s u Hx Ht Hu IH]; intros w Hw.
  - inversion Hw as [f' a'|f' a' x' t' Q0 Q1 Q2|f' a' x' t' s' u' Qx Qt Qu E]; subst; [reflexivity|cbn in Q0; lia|].
    destruct x'; discriminate.
  - inversion Hw as [f' a'|f' a' x' t' Q0 Q1 Q2|f' a' x' t' s' u' Qx Qt Qu E]; subst; [cbn in H0; lia|now apply (L f a x)|].
    rewrite app_length in H1. lia.
  - remember (x ++ s) as xs eqn:Exs. destruct Hw as [f' a'|f' a' x' t' Q0 Q1 Q2|f' a' x' t' s' u' Qx Qt Qu].
    + destruct x; discriminate.
    + subst. rewrite app_length in Q1. lia.
    + rename Exs into E. assert (x' = x /\ s' = s) as [-> ->].
      { rewrite <- (firstn_full x s 16 Hx), <- (firstn_full x' s' 16 Qx), E.
        split; [reflexivity|]. rewrite <- (skipn_app_len x' s'), <- (skipn_app_len x s), Hx, Qx, E. reflexivity. }
      f_equal; [now apply (L "0"%char a' x)|now apply IH].
Qed.

(* ---------- columns ---------- *)
Lemma hex_number_lower d : Forall upper_hex d -> d <> [] -> hd zero d <> "0"%char -> (16 ^ N.of_nat (length d - 1) <= hex_number d)%N.
Proof.
  induction d as [|c d IH] using rev_ind; intros F Hn Hz; [contradiction|].
  rewrite hex_number_snoc. apply Forall_app in F. destruct F as [F Fc]. inversion Fc as [|? ? Uc _]; subst.
  destruct (upper_hex_value c Uc) as (v & -> & Hv & Ev). rewrite app_length. cbn [length]. destruct d as [|c0 d].
  - cbn in Hz. subst c. change (hex_number []) with 0%N. cbn [length Nat.add Nat.sub]. change (16 ^ N.of_nat 0)%N with 1%N.
    destruct v; [exfalso; apply Hz; reflexivity|lia].
  - assert (16 ^ N.of_nat (length (c0 :: d) - 1) <= hex_number (c0 :: d))%N by (apply IH; [exact F|discriminate|exact Hz]).
    replace (N.of_nat (length (c0 :: d) + 1 - 1)) with (N.succ (N.of_nat (length (c0 :: d) - 1))) by (cbn [length]; lia).
    rewrite N.pow_succ_r'. lia.
Qed.
Lemma address_width f a t : (a < 2 ^ 40)%N -> address_text f a t -> length t = 10.
Proof.
  intros Ha (k & d & -> & Hd & Fd & Vd & Zd & [L|(-> & L)]); [exact L|]. exfalso. cbn [repeat app] in L.
  destruct Zd as [->|Zd]; [cbn in L; lia|]. pose proof (hex_number_lower d Fd Hd Zd) as B.
  assert (16 ^ 10 <= 16 ^ N.of_nat (length d - 1))%N by (apply N.pow_le_mono_r; lia).
  change (16 ^ 10)%N with (2 ^ 40)%N in *. lia.
Qed.

Lemma hex_text_nth x : forall i c, nth_error x i = Some c ->
  nth_error (hex_text x) (2 * i) = Some (hex_digit (N_of_ascii c / 16)) /\
  nth_error (hex_text x) (2 * i + 1) = Some (hex_digit (N_of_ascii c mod 16)).
Proof.
  induction x as [|b x IH]; intros [|i] c E; try discriminate; cbn in E.
  - injection E as <-. split; reflexivity.
  - replace (2 * S i) with (S (S (2 * i))) by lia. replace (S (S (2 * i)) + 1) with (S (S (2 * i + 1))) by lia.
    change (hex_text (b :: x)) with (hex_digit (N_of_ascii b / 16) :: hex_digit (N_of_ascii b mod 16) :: hex_text x).
    cbn [nth_error]. now apply IH.
Qed.

Lemma line_columns f a x t : (a < 2 ^ 40)%N -> length x <= 16 -> line f a x t ->
  length t = 45 + length x /\
  forall i c, nth_error x i = Some c ->
    nth_error t (11 + 2 * i) = Some (hex_digit (N_of_ascii c / 16)) /\
    nth_error t (11 + 2 * i + 1) = Some (hex_digit (N_of_ascii c mod 16)) /\
    nth_error t (44 + i) = Some (shown c).
Proof.
  intros Ha Hx (addr & H & ->). pose proof (address_width _ _ _ Ha H) as L.
  set (r := repeat " "%char (2 * (16 - length x) + 1)).
  assert (Hr : length r = 2 * (16 - length x) + 1) by apply repeat_length.
  pose proof (hex_text_length x) as Hh. split.
  - rewrite app_length. cbn [length]. rewrite !app_length, map_length. cbn [length]. lia.
  - intros i c E. assert (Hi : i < length x) by (eapply nth_error_some_lt; eauto).
    destruct (hex_text_nth x i c E) as [E1 E2].
    rewrite !(nth_error_app2 addr) by lia. rewrite L.
    replace (11 + 2 * i - 10) with (S (2 * i)) by lia. replace (11 + 2 * i + 1 - 10) with (S (2 * i + 1)) by lia.
    replace (44 + i - 10) with (S (33 + i)) by lia. cbn [nth_error].
    rewrite !(nth_error_app1 (hex_text x)) by lia. rewrite (nth_error_app2 (hex_text x)) by lia.
    rewrite (nth_error_app2 r) by lia. rewrite nth_error_app1 by (rewrite map_length; lia).
    replace (33 + i - length (hex_text x) - length r) with i by lia. rewrite nth_error_map, E. auto.
Qed.

Lemma view_columns f a s t : view f a s t -> (a + N.of_nat (length s) <= 2 ^ 40)%N ->
  length t = 61 * (length s / 16) + (if length s mod 16 =? 0 then 0 else 45 + length s mod 16) /\
  forall i c, nth_error s i = Some c ->
    nth_error t (61 * (i / 16) + 11 + 2 * (i mod 16)) = Some (hex_digit (N_of_ascii c / 16)) /\
    nth_error t (61 * (i / 16) + 11 + 2 * (i mod 16) + 1) = Some (hex_digit (N_of_ascii c mod 16)) /\
    nth_error t (61 * (i / 16) + 44 + i mod 16) = Some (shown c).
Proof.
  intros H. induction H as [f a|f a x t H0 H1 H2|f a x t s u Hx Ht Hu IH]; intros Ha.
  - split; [reflexivity|]. intros [|i] c E; discriminate.
  - destruct (line_columns f a x t) as [L C]; [lia|lia|exact H2|].
    rewrite Nat.div_small, Nat.mod_small by lia. split; [destruct (Nat.eqb_spec (length x) 0); lia|].
    intros i c E. assert (Hi : i < length x) by (eapply nth_error_some_lt; eauto).
    rewrite Nat.div_small, Nat.mod_small by lia. exact (C i c E).
  - rewrite (app_length x s) in *. destruct (line_columns "0" a x t) as [L C]; [lia|lia|exact Ht|].
    destruct IH as [L' C'].
    { destruct s as [|c0 s]; [cbn [length]; assert ((a + 16) mod 2 ^ 64 <= a + 16)%N by (apply N.mod_le; lia); lia|].
      rewrite N.mod_small; cbn [length] in *; lia. }
    rewrite Hx in *. replace (16 + length s) with (length s + 1 * 16) by lia.  rewrite Nat.div_add, Nat.mod_add by lia.
    rewrite (app_length t u). split; [lia|]. intros i c E. destruct (Nat.lt_ge_cases i 16) as [Hi|Hi].
    + rewrite nth_error_app1 in E by lia. rewrite Nat.div_small, Nat.mod_small by lia. rewrite !nth_error_app1 by lia. exact (C i c E).
    + rewrite nth_error_app2 in E by lia. rewrite Hx in E. destruct (C' _ _ E) as (A & B & D).
      replace i with (i - 16 + 1 * 16) by lia. rewrite Nat.div_add, Nat.mod_add by lia.
      rewrite !(nth_error_app2 t) by lia. rewrite L.
      replace (61 * ((i - 16) / 16 + 1) + 11 + 2 * ((i - 16) mod 16) - (45 + 16)) with (61 * ((i - 16) / 16) + 11 + 2 * ((i - 16) mod 16)) by lia.
      replace (61 * ((i - 16) / 16 + 1) + 11 + 2 * ((i - 16) mod 16) + 1 - (45 + 16)) with (61 * ((i - 16) / 16) + 11 + 2 * ((i - 16) mod 16) + 1) by lia.
      replace (61 * ((i - 16) / 16 + 1) + 44 + (i - 16) mod 16 - (45 + 16)) with (61 * ((i - 16) / 16) + 44 + (i - 16) mod 16) by lia. auto.
Qed.
