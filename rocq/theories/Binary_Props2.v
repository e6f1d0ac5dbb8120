(* Property C70: cursor operations, stream loading and refused fields of binary::reader / writer. *)
From Verif Require Import Base Binary_Model Binary_Spec Binary_Proofs Binary_Proofs2 Binary_Proofs3 Binary_Proofs4.
Local Open Scope nat_scope.

(* ---- C70: moving by n bytes (rewind is the backward case) ---- *)
Theorem C70_seek : forall n st, wf st -> (- 2 ^ 31 < n < 2 ^ 31)%Z ->
  seek n st =
    if ((0 <=? Z.of_nat (cur st) + n) && (Z.of_nat (cur st) + n <=? Z.of_nat (length (buf st))))%Z
    then let p := Z.to_nat (Z.of_nat (cur st) + n) in Ok (true, St (buf st) p p (marks st))
    else Ok (false, st).
Proof.
  intros n [b c a m] (Hca & Hcl & _) Hn. cbn [buf cur amt marks] in *. subst a. unfold seek, rewind, advance.
  cbn [buf cur amt marks]. cbv zeta.
  destruct (Z.ltb_spec n 0).
  - destruct (Z.eqb_spec n (- 2 ^ 31)); [lia|].
    destruct (N.leb_spec (Z.to_N (- n)) (N.of_nat c)).
    + destruct (Nat.leb_spec (N.to_nat (Z.to_N (- n))) c); [|lia].
      destruct (Z.leb_spec 0 (Z.of_nat c + n)); [|lia].
      destruct (Z.leb_spec (Z.of_nat c + n) (Z.of_nat (length b))); [|lia]. cbn [andb].
      replace (Z.to_nat (Z.of_nat c + n)) with (c - N.to_nat (Z.to_N (- n))) by lia. reflexivity.
    + destruct (Z.leb_spec 0 (Z.of_nat c + n)); [lia|]. reflexivity.
  - destruct (Z.leb_spec 0 (Z.of_nat c + n)); [|lia]. cbn [andb].
    destruct (Z.ltb_spec 0 n).
    + destruct (N.leb_spec (N.of_nat c + Z.to_N n) (N.of_nat (length b))).
      * destruct (Nat.leb_spec (c + Z.to_nat n) (length b)); [|lia].
        destruct (Z.leb_spec (Z.of_nat c + n) (Z.of_nat (length b))); [|lia].
        replace (Z.to_nat (Z.of_nat c + n)) with (c + Z.to_nat n) by lia. reflexivity.
      * destruct (Z.leb_spec (Z.of_nat c + n) (Z.of_nat (length b))); [lia|]. reflexivity.
    + assert (n = 0%Z) by lia. subst n. rewrite Z.add_0_r, Nat2Z.id.
      destruct (Z.leb_spec (Z.of_nat c) (Z.of_nat (length b))); [|lia]. reflexivity.
Qed.
Print Assumptions C70_seek.

Example C70_seek_case :
  seek (-2) (St (str "abcdef") 3 3 []) = Ok (true, St (str "abcdef") 1 1 []) /\
  seek 3 (St (str "abcdef") 3 3 []) = Ok (true, St (str "abcdef") 6 6 []) /\
  seek 4 (St (str "abcdef") 3 3 []) = Ok (false, St (str "abcdef") 3 3 []).
Proof. repeat split; reflexivity. Qed.

Theorem C70_rewind : forall n st, wf st ->
  rewind n st =
    if (n <=? N.of_nat (cur st))%N
    then let p := cur st - N.to_nat n in Ok (true, St (buf st) p p (marks st))
    else Ok (false, st).
Proof.
  intros n [b c a m] (Hca & Hcl & _). cbn [buf cur amt marks] in *. subst a. unfold rewind. cbn [buf cur amt marks].
  destruct (N.leb_spec n (N.of_nat c)); [|reflexivity]. destruct (Nat.leb_spec (N.to_nat n) c); [reflexivity|lia].
Qed.
Print Assumptions C70_rewind.

Example C70_rewind_case :
  rewind 3 (St (str "abcdef") 3 3 []) = Ok (true, start (str "abcdef")) /\
  rewind 4 (St (str "abcdef") 3 3 []) = Ok (false, St (str "abcdef") 3 3 []).
Proof. split; reflexivity. Qed.

(* ---- C70: marks are a stack ---- *)
Lemma run_all_app {O} (step : O -> bst -> outcome bst) l l' st :
  run_all step (l ++ l') st = (st1 <- run_all step l st ;; run_all step l' st1).
Proof.
  revert st. induction l as [|o l IH]; intros st; [reflexivity|]. cbn [app run_all].
  destruct (step o st); cbn [bind]; auto.
Qed.

Lemma balanced_marks {O} (step : O -> bst -> outcome bst) (good : O -> Prop) (is_mark is_reset : O -> Prop) :
  (forall o st, good o -> wf st -> holds (step o st) (same_size st)) ->
  (forall o st st', ~ is_mark o -> ~ is_reset o -> good o -> wf st -> step o st = Ok st' -> marks st' = marks st) ->
  (forall o st, is_mark o -> step o st = Ok (mark st)) ->
  (forall o st, is_reset o -> step o st = Ok (snd (reset_to_mark st))) ->
  forall l, balanced is_mark is_reset l -> Forall good l -> forall st, wf st ->
  holds (run_all step l st) (fun st' => marks st' = marks st /\ wf st').
Proof.
  intros Hsafe Hop Hmark Hreset l Hb. induction Hb as [|o l Hm Hr Hb IH|m l r l' Hm Hr Hb IH Hb' IH'];
    intros Hg st Hw.
  - cbn. auto.
  - inversion Hg; subst. cbn [run_all].
    destruct (holds_ex (step o st) (same_size st)) as (X & _). destruct (X (Hsafe o st ltac:(auto) Hw)) as (st1 & E & Hs).
    rewrite E. cbn [bind]. eapply holds_weaken; [apply IH; auto; apply Hs|]. cbv beta. intros st' (H1' & H2').
    split; auto. rewrite H1'. eapply Hop; eauto.
  - inversion Hg as [|? ? Hgm Hg']; subst. apply Forall_app in Hg'. destruct Hg' as (Hgl & Hgr). inversion Hgr as [|? ? Hgr' Hgl']; subst.
    cbn [run_all]. rewrite (Hmark m st Hm). cbn [bind]. rewrite run_all_app.
    assert (Hwm : wf (mark st)).
    { destruct Hw as (A & B & C). unfold mark. split; [exact A|]. split; [exact B|]. cbn [marks]. constructor; auto. }
    apply holds_bind2 with (1 := IH Hgl (mark st) Hwm). intros st1 (Hm1 & Hw1).
    cbn [run_all]. rewrite (Hreset r st1 Hr). cbn [bind]. unfold reset_to_mark. rewrite Hm1. unfold mark. cbn [marks snd].
    eapply holds_weaken; [apply IH'; auto|].
    + destruct Hw1 as (A & B & C). rewrite Hm1 in C. unfold mark in C. cbn [marks] in C. inversion C as [|? ? D E]; subst.
      cbn [fst snd] in D. split; [cbn [cur amt]; lia|]. split; [cbn [cur buf]; lia|exact E].
    + cbv beta. cbn [marks]. auto.
Qed.

Lemma rop_marks le ei sz o st st' : o <> RMark -> o <> RResetMark -> rop_ok ei o -> wf st ->
  run_rop le ei sz o st = Ok st' -> marks st' = marks st.
Proof.
  intros Hm Hr Hg Hw. destruct o; cbn [run_rop]; try congruence; cbn [rop_ok] in Hg.
  - pose proof (read_safe le ei sz t Hg v0 st (wf_steady _ Hw)) as H. apply holds_ex in H.
    destruct H as ([[r v] st1] & E & n & _ & E1). rewrite E. cbn [bind]. cbn [snd] in E1. intros X. injection X as <-. now rewrite E1.
  - unfold read_text. destruct (capacity_ok st size); cbn [bind].
    + destruct (get_bytes st (N.to_nat size)); cbn [bind]; try discriminate. intros X. injection X as <-. reflexivity.
    + intros X. injection X as <-. reflexivity.
  - unfold be_to_native, read_u, read_pod. destruct (capacity_ok st (N.of_nat w)); cbn [bind].
    + destruct (get_bytes st w); cbn [bind]; try discriminate. intros X. injection X as <-. reflexivity.
    + intros X. injection X as <-. reflexivity.
  - intros X. injection X as <-. reflexivity.
  - intros X. injection X as <-. reflexivity.
  - rewrite C70_rewind by auto. cbv zeta. destruct (n <=? N.of_nat (cur st))%N; cbn [bind]; intros X; injection X as <-; reflexivity.
  - unfold seek, rewind. destruct (n <? 0)%Z; [destruct (n =? - 2 ^ 31)%Z; [discriminate|]|].
    + destruct (Z.to_N (- n) <=? N.of_nat (amt st))%N; [destruct (N.to_nat (Z.to_N (- n)) <=? cur st)|]; cbn [bind];
        intros X; try discriminate; injection X as <-; reflexivity.
    + destruct (0 <? n)%Z; [destruct (_ <=? N.of_nat (length (buf st)))%N; [destruct (_ <=? length (buf st))|]|]; cbn [bind];
        intros X; try discriminate; injection X as <-; reflexivity.
  - unfold load_stream. destruct (N.of_nat (length (buf st)) <? len)%N; cbn [snd]; intros X; injection X as <-; reflexivity.
  - unfold load_stream_amt. destruct (amt st =? 0); cbn [snd]; intros X; injection X as <-; reflexivity.
Qed.

Lemma wop_marks le ei sz o st st' : o <> WMark -> o <> WResetMark -> wop_ok ei o -> wf st ->
  run_wop le ei sz o st = Ok st' -> marks st' = marks st.
Proof.
  intros Hm Hr Hg Hw. destruct o; cbn [run_wop]; try congruence; cbn [wop_ok] in Hg.
  - pose proof (write_good le ei sz t v st Hg (wf_steady _ Hw)) as H. apply holds_ex in H.
    destruct H as ([r st1] & E & p & q & _ & _ & E1 & _). rewrite E. cbn [bind]. cbn [snd] in E1. intros X. injection X as <-.
    now rewrite E1.
  - unfold write_text. destruct (_ <=? _)%N; [destruct (_ <? _)%N|]; cbn [bind]; try (intros X; injection X as <-; reflexivity).
    unfold write_raw. destruct (negb _); cbn [bind]; [intros X; injection X as <-; reflexivity|].
    destruct (_ <? _)%N; cbn [bind]; [discriminate|]. unfold put_bytes. destruct (_ <=? _); cbn [bind]; [|discriminate].
    intros X; injection X as <-; reflexivity.
  - intros X. injection X as <-. reflexivity.
  - intros X. injection X as <-. reflexivity.
Qed.

(* mark, then any balanced calls, then reset_to_mark: back at the same position, the earlier
   marks as before *)
Theorem C70_reader_marks : forall le ei sz ops st, wf st -> Forall (rop_ok ei) ops ->
  balanced (eq RMark) (eq RResetMark) ops ->
  exists st', run_all (run_rop le ei sz) ops (mark st) = Ok st' /\
    reset_to_mark st' = (true, St (buf st') (cur st) (cur st) (marks st)).
Proof.
  intros le ei sz ops st Hw Hg Hb.
  assert (Hwm : wf (mark st)).
  { destruct Hw as (A & B & C). unfold mark. split; [exact A|]. split; [exact B|]. cbn [marks]. constructor; auto. }
  pose proof (balanced_marks (run_rop le ei sz) (rop_ok ei) (eq RMark) (eq RResetMark)
    (fun o st => rop_safe le ei sz o st)
    (fun o st st' H1 H2 => rop_marks le ei sz o st st' (not_eq_sym H1) (not_eq_sym H2))
    (fun o st H => match H with eq_refl => eq_refl end)
    (fun o st H => match H with eq_refl => eq_refl end) ops Hb Hg (mark st) Hwm) as H.
  apply holds_ex in H. destruct H as (st' & E & Hm & _). exists st'. split; auto.
  unfold reset_to_mark. rewrite Hm. cbn [mark marks]. now rewrite (proj1 Hw).
Qed.
Print Assumptions C70_reader_marks.

Example C70_reader_marks_case :
  match run_all (run_rop true true (fun _ => 32%N)) [RRead (TPod 2) (VBytes []); RRewind 1; RReset] (mark (St (str "abcdef") 3 3 [(1, 1)])) with
  | Ok st => reset_to_mark st = (true, St (str "abcdef") 3 3 [(1, 1)])
  | _ => False
  end.
Proof. vm_compute. reflexivity. Qed.

Theorem C70_writer_marks : forall le ei sz ops st, wf st -> Forall (wop_ok ei) ops ->
  balanced (eq WMark) (eq WResetMark) ops ->
  exists st', run_all (run_wop le ei sz) ops (mark st) = Ok st' /\
    reset_to_mark st' = (true, St (buf st') (cur st) (cur st) (marks st)).
Proof.
  intros le ei sz ops st Hw Hg Hb.
  assert (Hwm : wf (mark st)).
  { destruct Hw as (A & B & C). unfold mark. split; [exact A|]. split; [exact B|]. cbn [marks]. constructor; auto. }
  pose proof (balanced_marks (run_wop le ei sz) (wop_ok ei) (eq WMark) (eq WResetMark)
    (fun o st => wop_safe le ei sz o st)
    (fun o st st' H1 H2 => wop_marks le ei sz o st st' (not_eq_sym H1) (not_eq_sym H2))
    (fun o st H => match H with eq_refl => eq_refl end)
    (fun o st H => match H with eq_refl => eq_refl end) ops Hb Hg (mark st) Hwm) as H.
  apply holds_ex in H. destruct H as (st' & E & Hm & _). exists st'. split; auto.
  unfold reset_to_mark. rewrite Hm. cbn [mark marks]. now rewrite (proj1 Hw).
Qed.
Print Assumptions C70_writer_marks.

Example C70_writer_marks_case :
  match run_all (run_wop true true (fun _ => 32%N)) [WWrite (TPod 2) (VBytes (str "xy")); WMark; WWrite (TPod 1) (VBytes (str "z")); WResetMark]
          (mark (St (str "abcdef") 1 1 [])) with
  | Ok st => reset_to_mark st = (true, St (str "axyzef") 1 1 [])
  | _ => False
  end.
Proof. vm_compute. reflexivity. Qed.

Theorem C70_no_mark : forall st, marks st = [] -> reset_to_mark st = (false, st).
Proof. intros st H. unfold reset_to_mark. now rewrite H. Qed.
Print Assumptions C70_no_mark.

Example C70_marks_case :
  run_all (run_rop true true (fun _ => 32%N)) [RMark; RSeek 3; RMark; RSeek 2; RResetMark; RSeek 1; RResetMark; RSeek 1]
    (mark (St (str "abcdefgh") 1 1 [])) = Ok (St (str "abcdefgh") 2 2 [(1, 1)]) /\
  balanced (eq RMark) (eq RResetMark) [RMark; RSeek 3; RMark; RSeek 2; RResetMark; RSeek 1; RResetMark; RSeek 1].
Proof.
  split; [reflexivity|].
  apply (bal_pair _ _ RMark [RSeek 3; RMark; RSeek 2; RResetMark; RSeek 1] RResetMark [RSeek 1]); auto.
  - apply bal_op; try discriminate.
    apply (bal_pair _ _ RMark [RSeek 2] RResetMark [RSeek 1]); auto; (apply bal_op; try discriminate; constructor).
  - apply bal_op; try discriminate; constructor.
Qed.

(* ---- C70: reset, clear, loading from a stream ---- *)
Theorem C70_reset_clear : forall st,
  (cur (reset st) = 0 /\ amt (reset st) = 0 /\ buf (reset st) = buf st) /\
  (cur (clear st) = 0 /\ amt (clear st) = 0 /\ length (buf (clear st)) = length (buf st) /\
   forall i c, nth_error (buf (clear st)) i = Some c -> c = zero).
Proof.
  intros st. split; [repeat split|]. split; [reflexivity|]. split; [reflexivity|]. unfold clear. cbn [buf].
  split; [apply repeat_length|]. intros i c H. apply nth_error_In, repeat_spec in H. exact H.
Qed.
Print Assumptions C70_reset_clear.

Example C70_reset_clear_case :
  reset (St (str "abc") 2 2 [(1, 1)]) = St (str "abc") 0 0 [(1, 1)] /\
  clear (St (str "abc") 2 2 []) = St [zero; zero; zero] 0 0 [].
Proof. split; reflexivity. Qed.

Lemma loaded_nth (d b : list ascii) k i : k <= length b ->
  nth_error (firstn k d ++ skipn (length (firstn k d)) b) i =
  if i <? Nat.min k (length d) then nth_error d i else nth_error b i.
Proof.
  intros Hk. rewrite firstn_length. destruct (Nat.ltb_spec i (Nat.min k (length d))).
  - rewrite nth_error_app1 by (rewrite firstn_length; lia). rewrite nth_error_firstn.
    destruct (Nat.ltb_spec i k); [reflexivity|lia].
  - rewrite nth_error_app2 by (rewrite firstn_length; lia). rewrite firstn_length, nth_error_skipn. f_equal. lia.
Qed.

(* the bytes delivered by the stream replace the first bytes of the buffer, nothing else changes;
   more bytes than the buffer holds are refused *)
Theorem C70_load : forall data len st,
  (N.of_nat (length (buf st)) < len -> load_stream data len st = (false, st))%N /\
  ((len <= N.of_nat (length (buf st)))%N -> exists b, load_stream data len st = (true, St b (cur st) (amt st) (marks st)) /\
     length b = length (buf st) /\
     forall i, nth_error b i = if i <? Nat.min (N.to_nat len) (length data) then nth_error data i else nth_error (buf st) i).
Proof.
  intros data len st. unfold load_stream. destruct (N.ltb_spec (N.of_nat (length (buf st))) len); split; intros Hl; try lia; auto.
  eexists. split; [reflexivity|]. split.
  - rewrite app_length, skipn_length, firstn_length. lia.
  - intros i. apply loaded_nth. lia.
Qed.
Print Assumptions C70_load.

Example C70_load_short_case :
  load_stream (str "xy") 4 (St (str "abcd") 2 2 [(1, 1)]) = (true, St (str "xycd") 2 2 [(1, 1)]).
Proof. reflexivity. Qed.

Theorem C70_load_amount : forall data st, wf st ->
  (cur st = 0 -> load_stream_amt data st = (false, st)) /\
  (0 < cur st -> exists b, load_stream_amt data st = (true, St b (cur st) (amt st) (marks st)) /\
     length b = length (buf st) /\
     forall i, nth_error b i = if i <? Nat.min (cur st) (length data) then nth_error data i else nth_error (buf st) i).
Proof.
  intros data st (Hc & Hl & _). unfold load_stream_amt. rewrite <- Hc. destruct (Nat.eqb_spec (cur st) 0); split; intros H; try lia; auto.
  eexists. split; [reflexivity|]. split.
  - rewrite app_length, skipn_length, firstn_length. lia.
  - intros i. apply loaded_nth. lia.
Qed.
Print Assumptions C70_load_amount.
Example C70_load_case : load_stream (str "xyz") 2 (St (str "abcd") 1 1 []) = (true, St (str "xycd") 1 1 []) /\
  load_stream (str "xyz") 4 (St (str "abcd") 1 1 []) = (true, St (str "xyzd") 1 1 []) /\
  load_stream (str "xyz") 5 (St (str "abcd") 1 1 []) = (false, St (str "abcd") 1 1 []).
Proof. vm_compute. auto. Qed.

(* ---- C70: text fields and length prefixes that do not fit ---- *)
Theorem C70_read_text : forall (A : Type) (conv : list ascii -> bool * A) size st, wf st ->
  read_text conv size st =
    if (N.of_nat (cur st) + size <=? N.of_nat (length (buf st)))%N
    then let e := cur st + N.to_nat size in
         Ok (Some (conv (sub (buf st) (cur st, e))), St (buf st) e e (marks st))
    else Ok (None, st).
Proof.
  intros A conv size [b c a m] (Hca & Hcl & _). cbn [buf cur amt marks] in *. subst a.
  unfold read_text, capacity_ok, get_bytes, advance. cbn [buf cur amt marks]. rewrite N.add_comm. cbv zeta.
  destruct (N.leb_spec (N.of_nat c + size) (N.of_nat (length b))); [|reflexivity].
  destruct (Nat.leb_spec (c + N.to_nat size) (length b)); [|lia]. cbn [bind]. unfold sub. cbn [fst snd].
  replace (c + N.to_nat size - c) with (N.to_nat size) by lia. reflexivity.
Qed.
Print Assumptions C70_read_text.

Example C70_read_text_case :
  read_text (fun b => (true, length b)) 3 (St (str "abcdef") 3 3 []) = Ok (Some (true, 3), St (str "abcdef") 6 6 []) /\
  read_text (fun b => (true, length b)) 4 (St (str "abcdef") 3 3 []) = Ok (None, St (str "abcdef") 3 3 []).
Proof. split; reflexivity. Qed.

Theorem C70_refused : forall le ei sz st,
  (forall text size rpad pad, wf st ->
     (size < N.of_nat (length text) \/ N.of_nat (length (buf st)) < N.of_nat (cur st) + size)%N ->
     write_text text size rpad pad st = Ok (false, st)) /\
  (forall k b, (2 ^ (8 * N.of_nat k) <= N.of_nat (length b))%N -> write le ei sz (TShort k) (VBytes b) st = Ok (false, st)).
Proof.
  intros le ei sz st. split.
  - intros text size rpad pad (Hc & _) H. unfold write_text. rewrite <- Hc.
    destruct (N.leb_spec (N.of_nat (cur st) + size) (N.of_nat (length (buf st)))); auto.
    destruct (N.ltb_spec size (N.of_nat (length text))); auto. lia.
  - intros k b H. cbn [write].
    assert (2 ^ (8 * N.of_nat k) <> 0)%N by (apply N.pow_nonzero; lia).
    destruct (N.ltb_spec (2 ^ (8 * N.of_nat k) - 1) (N.of_nat (length b))); auto. lia.
Qed.
Print Assumptions C70_refused.
Example C70_text_case :
  read_text (fun b => (true, b)) 3 (St (str "abcdef") 1 1 []) = Ok (Some (true, str "bcd"), St (str "abcdef") 4 4 []) /\
  write_text (str "12345") 4 false "."%char (start (str "......")) = Ok (false, start (str "......")).
Proof. vm_compute. auto. Qed.

(* ---- C23, the other direction: a read that reports success delivered a value of the type whose
   encoding is exactly the bytes passed over ---- *)
Theorem C23_read_sound : forall le ei sz t st v st', wf st -> restorable t = true ->
  read le ei sz t (default t) st = Ok (true, v, st') ->
  has_ty ei t v /\ cur st <= cur st' <= length (buf st) /\ sub (buf st) (cur st, cur st') = enc le t v /\
  st' = St (buf st) (cur st') (cur st') (marks st).
Proof.
  intros le ei sz t st v st' W RE H.
  destruct (read_sound le ei sz t _ _ _ _ RE (or_introl eq_refl) (wf_steady _ W) H) as (Ht & rest & A & ->).
  assert (L : length (enc le t v) <= length (buf st) - cur st).
  { change (length (buf st) - cur st) with (free st). rewrite <- ahead_length, A, app_length. lia. }
  destruct W as (W1 & W2 & _). unfold advance. cbn [cur amt buf marks]. split; auto. split; [lia|]. split.
  - unfold sub. cbn [fst snd]. replace (cur st + length (enc le t v) - cur st) with (length (enc le t v)) by lia.
    fold (ahead st). rewrite A. apply firstn_app_len.
  - now rewrite <- W1.
Qed.
Print Assumptions C23_read_sound.
Example C23_read_sound_case :
  read true true (fun _ => 32%N) (TPair (TPod 1) TStr) (default (TPair (TPod 1) TStr)) (start (str "a" ++ le_bytes 4 2 ++ str "xyz")) =
  Ok (true, VPair (VBytes (str "a")) (VBytes (str "xy")), St (str "a" ++ le_bytes 4 2 ++ str "xyz") 7 7 []).
Proof. vm_compute. reflexivity. Qed.
