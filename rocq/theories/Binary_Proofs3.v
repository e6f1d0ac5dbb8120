From Verif Require Import Base Binary_Model Binary_Spec Endian_Proofs Binary_Proofs Binary_Proofs2.
Open Scope nat_scope.

Lemma write_fields_ok le ei sz l : forall st, Forall (fun f => has_ty ei (fst f) (snd f)) l -> steady st ->
  (room_fields le sz l <= N.of_nat (free st))%N ->
  length (enc_fields le l) <= free st /\
  write_fields le ei sz l st = Ok (true, after st (enc_fields le l)).
Proof.
  induction l as [|[t v] l IH]; intros st H S R; unfold enc_fields, room_fields in *; cbn [write_fields map concat fold_right fst snd] in *.
  - rewrite after_nil. split; [simpl; lia|reflexivity].
  - inversion H as [|? ? Hv Hl]; subst. cbn [fst snd] in Hv.
    rewrite write_ok by (auto; lia). cbn [bind].
    assert (L : length (enc le t v) <= free st) by (pose proof (enc_le_room le sz t ei v Hv); lia).
    destruct (IH (after st (enc le t v)) Hl) as [L2 E2].
    { now apply after_steady. } { rewrite after_free by auto. lia. }
    rewrite after_free in L2 by auto. rewrite E2.
    split; [rewrite app_length; lia|]. rewrite after_app by (auto; rewrite app_length; lia). reflexivity.
Qed.

Lemma read_fields_ok le ei sz l : forall st rest, Forall (fun f => has_ty ei (fst f) (snd f)) l -> steady st ->
  Forall (fun f => restorable (fst f) = true) l ->
  ahead st = enc_fields le l ++ rest ->
  (room_fields le sz l <= N.of_nat (free st))%N ->
  read_fields le ei sz (map fst l) st = Ok (true, map snd l, advance st (length (enc_fields le l))).
Proof.
  induction l as [|[t v] l IH]; intros st rest H S RE A R; unfold enc_fields, room_fields in *; cbn [read_fields map concat fold_right fst snd] in *.
  - now rewrite advance_0.
  - inversion H as [|? ? Hv Hl]; subst. inversion RE as [|? ? Hv2 Hl2]; subst. cbn [fst snd] in Hv, Hv2.
    rewrite <- app_assoc in A.
    rewrite (read_ok le ei sz t v (default t) st _ Hv Hv2 (or_introl eq_refl) S A) by lia. cbn [bind].
    assert (L : length (enc le t v) <= free st) by (rewrite <- ahead_length, A, app_length; lia).
    rewrite (IH _ rest Hl); [| now apply advance_steady | exact Hl2 | exact (ahead_step _ _ _ A) | rewrite advance_free; lia].
    cbn [bind]. now rewrite advance_add, app_length.
Qed.

Lemma room_fields_flat le sz ei l : Forall (fun f => has_ty ei (fst f) (snd f)) l ->
  Forall (fun f => flat (fst f) = true) l -> room_fields le sz l = N.of_nat (length (enc_fields le l)).
Proof.
  induction l as [|[t v] l IH]; intros H F; auto. inversion H; inversion F; subst. cbn [fst snd] in *.
  unfold room_fields, enc_fields in *. cbn [fold_right map concat fst snd]. rewrite IH by auto.
  rewrite (room_flat le sz t ei v) by auto. rewrite app_length. lia.
Qed.

Lemma flat_restorable t : flat t = true -> restorable t = true.
Proof.
  induction t; cbn [flat restorable]; auto; intros H.
  1-3: destruct t; try discriminate; reflexivity.
  apply andb_prop in H. destruct H. now rewrite IHt1, IHt2.
Qed.

Lemma start_steady b : steady (start b).
Proof. split; simpl; lia. Qed.

Lemma start_free b : free (start b) = length b.
Proof. unfold free, start. simpl. lia. Qed.

(* ---------------- histories ---------------- *)
Lemma wf_steady st : wf st -> steady st.
Proof. intros (H1 & H2 & _). split; auto. Qed.

Lemma wf_intro st : steady st -> Forall (fun m => fst m = snd m /\ snd m <= length (buf st)) (marks st) -> wf st.
Proof. intros [H1 H2] H. repeat split; auto. Qed.

Lemma advance_wf st n : wf st -> n <= free st -> wf (advance st n).
Proof. intros W H. apply wf_intro; [apply advance_steady; auto; now apply wf_steady|]. exact (proj2 (proj2 W)). Qed.

Lemma after_wf st b : wf st -> length b <= free st -> wf (after st b).
Proof.
  intros W H. apply wf_intro; [apply after_steady; auto; now apply wf_steady|].
  rewrite after_buf_length by (auto; now apply wf_steady). exact (proj2 (proj2 W)).
Qed.

Definition same_size (st : bst) (st' : bst) : Prop := wf st' /\ length (buf st') = length (buf st).

Lemma rewind_wf n st : wf st -> holds (rewind n st) (fun x => same_size st (snd x)).
Proof.
  intros W. pose proof W as (H1 & H2 & H3). unfold rewind. destruct (N.leb_spec n (N.of_nat (amt st))); [|split; auto].
  destruct (Nat.leb_spec (N.to_nat n) (cur st)); [|lia].
  cbn [holds snd]. split; [|reflexivity]. unfold wf. cbn [buf cur amt marks]. repeat split; auto; lia.
Qed.

Lemma rop_safe le ei sz o st : rop_ok ei o -> wf st -> holds (run_rop le ei sz o st) (same_size st).
Proof.
  intros HO W. pose proof (wf_steady _ W) as S. pose proof W as (H1 & H2 & H3).
  destruct o as [t v0|size|w| | |n|n| | |d n|d]; cbn [run_rop rop_ok] in *.
  - eapply holds_bind2; [apply read_safe; auto|]. intros [[b v] st1] (n & Hn & E). cbn [snd] in E. subst st1.
    split; [now apply advance_wf|reflexivity].
  - unfold read_text. rewrite cap_ok by exact S. destruct (N.leb_spec size (N.of_nat (free st))); [|split; auto].
    rewrite get_ok by (auto; lia). cbn [bind holds]. split; [apply advance_wf; auto; lia|reflexivity].
  - unfold be_to_native. rewrite read_u_spec by exact S. destruct (Nat.leb_spec w (free st)); cbn [bind holds]; [|split; auto].
    split; [now apply advance_wf|reflexivity].
  - split; [|reflexivity]. unfold wf, reset. cbn [buf cur amt marks]. repeat split; auto; lia.
  - unfold clear. cbn [holds]. split; [|cbn [buf]; apply repeat_length].
    unfold wf. cbn [buf cur amt marks]. rewrite repeat_length. repeat split; auto; lia.
  - eapply holds_bind2; [now apply rewind_wf|]. intros [b st1] H. exact H.
  - unfold seek. destruct (Z.ltb_spec n 0) as [L|G].
    + destruct (Z.eqb_spec n (- 2 ^ 31)); [contradiction|].
      eapply holds_bind2; [now apply rewind_wf|]. intros [b st1] H. exact H.
    + destruct (Z.ltb_spec 0 n) as [L2|G2]; [|split; auto].
      destruct (N.leb_spec (N.of_nat (amt st) + Z.to_N n) (N.of_nat (length (buf st)))); [|split; auto].
      destruct (Nat.leb_spec (cur st + Z.to_nat n) (length (buf st))); [|lia].
      cbn [bind holds]. split; [apply advance_wf; auto; unfold free; lia|reflexivity].
  - split; [|reflexivity]. unfold wf, mark. cbn [buf cur amt marks]. repeat split; auto.
  - unfold reset_to_mark. destruct (marks st) as [|[a c] m] eqn:E; cbn [snd holds]; [split; auto|].
    inversion H3 as [|? ? [Ha Hb] Hm]; subst. cbn [fst snd] in Ha, Hb.
    split; [|reflexivity]. unfold wf. cbn [buf cur amt marks]. repeat split; auto.
  - unfold load_stream. destruct (N.ltb_spec (N.of_nat (length (buf st))) n); cbn [snd holds]; [split; auto|].
    assert (L : length (firstn (N.to_nat n) d ++ skipn (length (firstn (N.to_nat n) d)) (buf st)) = length (buf st)).
    { rewrite app_length, skipn_length, firstn_length. lia. }
    split; [|exact L]. unfold wf. cbn [buf cur amt marks]. rewrite L. repeat split; auto.
  - unfold load_stream_amt. destruct (Nat.eqb_spec (amt st) 0); cbn [snd holds]; [split; auto|].
    assert (L : length (firstn (amt st) d ++ skipn (length (firstn (amt st) d)) (buf st)) = length (buf st)).
    { rewrite app_length, skipn_length, firstn_length. lia. }
    split; [|exact L]. unfold wf. cbn [buf cur amt marks]. rewrite L. repeat split; auto.
Qed.

Lemma wop_safe le ei sz o st : wop_ok ei o -> wf st -> holds (run_wop le ei sz o st) (same_size st).
Proof.
  intros HO W. pose proof (wf_steady _ W) as S. pose proof W as (H1 & H2 & H3).
  destruct o as [t v|text size rpad pad| | | |]; cbn [run_wop wop_ok] in *.
  - eapply holds_bind2; [apply write_good; auto|]. intros [b st1] (p & q & E & Lp & Est & _). cbn [snd] in Est. subst st1.
    split; [now apply after_wf|now apply after_buf_length].
  - unfold write_text. destruct (N.leb_spec (N.of_nat (amt st) + size) (N.of_nat (length (buf st)))) as [L|G]; [|split; auto].
    destruct (N.ltb_spec size (N.of_nat (length text))) as [L2|G2]; [split; auto|].
    set (s := if (N.of_nat (length text) <? size)%N then _ else _).
    assert (Hs : (size mod 2 ^ 32 <= N.of_nat (length (s ++ ["000"%char])))%N).
    { pose proof (N.mod_le size (2 ^ 32) ltac:(lia)). rewrite app_length. cbn [length]. unfold s.
      destruct (N.ltb_spec (N.of_nat (length text)) size) as [L3|G3]; [|lia].
      destruct rpad; rewrite app_length, ?firstn_length, repeat_length; [|lia].
      destruct HO as [HO|[HO|HO]]; [discriminate|lia|lia]. }
    cbv zeta. rewrite write_raw_spec by auto.
    destruct (Nat.leb_spec (N.to_nat (size mod 2 ^ 32)) (free st)) as [L3|G3]; cbn [bind holds]; [|split; auto].
    assert (length (firstn (N.to_nat (size mod 2 ^ 32)) (s ++ ["000"%char])) <= free st) by (rewrite firstn_length; lia).
    split; [now apply after_wf|now apply after_buf_length].
  - split; [|reflexivity]. unfold wf, reset. cbn [buf cur amt marks]. repeat split; auto; lia.
  - unfold clear. cbn [holds]. split; [|cbn [buf]; apply repeat_length].
    unfold wf. cbn [buf cur amt marks]. rewrite repeat_length. repeat split; auto; lia.
  - split; [|reflexivity]. unfold wf, mark. cbn [buf cur amt marks]. repeat split; auto.
  - unfold reset_to_mark. destruct (marks st) as [|[a c] m] eqn:E; cbn [snd holds]; [split; auto|].
    inversion H3 as [|? ? [Ha Hb] Hm]; subst. cbn [fst snd] in Ha, Hb.
    split; [|reflexivity]. unfold wf. cbn [buf cur amt marks]. repeat split; auto.
Qed.

Lemma run_all_safe {O} (step : O -> bst -> outcome bst) (good : O -> Prop) :
  (forall o st, good o -> wf st -> holds (step o st) (same_size st)) ->
  forall ops st, Forall good ops -> wf st -> holds (run_all step ops st) (same_size st).
Proof.
  intros H ops. induction ops as [|o ops IH]; intros st G W; cbn [run_all].
  - split; auto.
  - inversion G; subst. eapply holds_bind2; [apply H; auto|]. intros st1 [W1 L1].
    eapply holds_weaken; [apply IH; auto|]. intros st2 [W2 L2]. split; auto. congruence.
Qed.

Lemma start_wf b : wf (start b).
Proof. unfold wf, start. simpl. repeat split; auto. lia. Qed.

Lemma failed_atomic le ei sz t v st st' : wf st -> has_ty ei t v ->
  match t with TPod _ | TFix _ _ | TVec (TPod _) => True | _ => False end ->
  write le ei sz t v st = Ok (false, st') -> st' = st.
Proof.
  intros W H T. pose proof (wf_steady _ W) as S.
  destruct t as [|w| |w|n w|k|t'|t'|t'|a b]; try contradiction; destruct v as [|bs|na bs|l|x y]; cbn [has_ty] in H; try contradiction; cbn [write].
  - rewrite write_pod_spec by exact S. destruct (length bs <=? free st); congruence.
  - rewrite <- H, write_raw_all by exact S. destruct (length bs <=? free st); congruence.
  - destruct t' as [|w| |w|n w|k|t''|t''|t''|a b]; try contradiction. destruct H as (H1 & H2 & H3). rewrite u32_small by exact H1.
    cbv zeta. rewrite cap_ok by exact S. cbn [sizeof].
    destruct (N.leb_spec (N.of_nat (length l) * N.of_nat w + 4) (N.of_nat (free st))) as [L|G]; cbn [negb]; [|congruence].
    rewrite store_host, write_pod_spec, host_bytes_length by exact S.
    destruct (Nat.leb_spec 4 (free st)); [|lia]. cbn [bind].
    destruct (ei && (length l =? 0)); [discriminate|]. 
    destruct (length (concat (map vbytes l)) <? N.to_nat (N.of_nat (length l) * N.of_nat w)); [discriminate|].
    destruct (put_bytes _ _); cbn [bind]; discriminate.
Qed.

Lemma failed_read_atomic le ei sz t v0 st v st' : wf st ->
  match t with TPod _ | TFix _ _ => True | _ => False end ->
  read le ei sz t v0 st = Ok (false, v, st') -> st' = st /\ v = v0.
Proof.
  intros W T. pose proof (wf_steady _ W) as S.
  destruct t as [|w| |w|n w|k|t'|t'|t'|a b]; try contradiction; cbn [read].
  - rewrite read_pod_spec by exact S. destruct (w <=? free st); cbn [bind]; intros E; inversion E; auto.
  - rewrite read_raw_spec by exact S. destruct (_ <=? _)%N; cbn [bind]; intros E; inversion E; auto.
Qed.

Lemma right_pad_ub text size pad st : wf st -> 2 <= length text -> (N.of_nat (length text) < size)%N -> (size < 2 ^ 32)%N ->
  (size <= N.of_nat (free st))%N -> write_text text size true pad st = UB.
Proof.
  intros W H1 H2 H3 H4. pose proof W as (W1 & W2 & _). pose proof (wf_steady _ W) as S. unfold free in H4. unfold write_text.
  destruct (N.leb_spec (N.of_nat (amt st) + size) (N.of_nat (length (buf st)))); [|lia].
  destruct (N.ltb_spec size (N.of_nat (length text))); [lia|].
  destruct (N.ltb_spec (N.of_nat (length text)) size); [|lia]. cbv zeta. unfold write_raw.
  rewrite cap_ok by exact S. rewrite N.mod_small by exact H3.
  destruct (N.leb_spec size (N.of_nat (free st))); [|unfold free in *; lia]. cbn [negb].
  rewrite !app_length, firstn_length, repeat_length. cbn [length].
  match goal with |- (if ?c then _ else _) = _ => replace c with true; [reflexivity|symmetry; apply N.ltb_lt; lia] end.
Qed.

(* byte order of be/le transfers *)
Lemma native_to_be_ok le w conv v st : reverses w conv -> steady st -> w <= free st ->
  native_to_be le w conv v st = Ok (true, after st (be_bytes w v)).
Proof.
  intros R S L. unfold native_to_be. destruct le; rewrite store_host, write_pod_spec, host_bytes_length by exact S;
  (destruct (Nat.leb_spec w (free st)); [|lia]); unfold host_bytes; auto.
  rewrite (reverses_bytes w conv v R). reflexivity.
Qed.

Lemma native_to_le_ok le w conv v st : reverses w conv -> steady st -> w <= free st ->
  native_to_le le w conv v st = Ok (true, after st (le_bytes w v)).
Proof.
  intros R S L. unfold native_to_le. destruct le; rewrite store_host, write_pod_spec, host_bytes_length by exact S;
  (destruct (Nat.leb_spec w (free st)); [|lia]); unfold host_bytes, be_bytes; auto.
  rewrite (reverses_bytes w conv v R), rev_involutive. reflexivity.
Qed.

Lemma be_to_native_ok le w conv v st rest : reverses w conv -> steady st -> (v < 256 ^ N.of_nat w)%N ->
  ahead st = be_bytes w v ++ rest -> be_to_native le w conv st = Ok (Some v, advance st w).
Proof.
  intros R S H A. unfold be_to_native. destruct le.
  - assert (E : be_bytes w v = host_bytes true w (conv v)) by (unfold host_bytes, be_bytes; now rewrite (reverses_bytes w conv v R)).
    rewrite E in A. rewrite (read_u_ok true w _ _ st S (proj1 (R v)) A). cbn [bind].
    now rewrite (reverses_involution w conv v R H).
  - rewrite (read_u_ok false w _ _ st S H A). reflexivity.
Qed.

Lemma le_to_native_ok le w conv v st rest : reverses w conv -> steady st -> (v < 256 ^ N.of_nat w)%N ->
  ahead st = le_bytes w v ++ rest -> le_to_native le w conv st = Ok (Some v, advance st w).
Proof.
  intros R S H A. unfold le_to_native. destruct le.
  - rewrite (read_u_ok true w _ _ st S H A). reflexivity.
  - assert (E : le_bytes w v = host_bytes false w (conv v)).
    { unfold host_bytes, be_bytes. now rewrite (reverses_bytes w conv v R), rev_involutive. }
    rewrite E in A. rewrite (read_u_ok false w _ _ st S (proj1 (R v)) A). cbn [bind].
    now rewrite (reverses_involution w conv v R H).
Qed.

Lemma left_pad_ok text size pad st : wf st -> (N.of_nat (length text) <= size)%N -> (size < 2 ^ 32)%N ->
  (size <= N.of_nat (free st))%N ->
  write_text text size false pad st = Ok (true, after st (repeat pad (N.to_nat size - length text) ++ text)).
Proof.
  intros W H1 H2 H3. pose proof W as (W1 & W2 & _). pose proof (wf_steady _ W) as S. unfold write_text.
  destruct (N.leb_spec (N.of_nat (amt st) + size) (N.of_nat (length (buf st)))); [|unfold free in *; lia].
  destruct (N.ltb_spec size (N.of_nat (length text))); [lia|]. cbv zeta.
  rewrite N.mod_small by exact H2.
  set (s := if (N.of_nat (length text) <? size)%N then _ else _).
  assert (E : s = repeat pad (N.to_nat size - length text) ++ text).
  { unfold s. destruct (N.ltb_spec (N.of_nat (length text)) size); auto.
    replace (N.to_nat size - length text) with 0 by lia. reflexivity. }
  clearbody s. subst s.
  set (s := repeat pad (N.to_nat size - length text) ++ text).
  assert (Ls : length s = N.to_nat size) by (unfold s; rewrite app_length, repeat_length; lia).
  rewrite write_raw_spec by (auto; rewrite app_length; lia).
  destruct (Nat.leb_spec (N.to_nat size) (free st)); [|lia].
  rewrite <- Ls at 1. now rewrite firstn_app_len.
Qed.
