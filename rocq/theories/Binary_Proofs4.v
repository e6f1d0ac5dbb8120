(* Successful reads are justified by the bytes. *)
From Verif Require Import Base Binary_Model Binary_Spec Endian_Proofs Binary_Proofs Binary_Proofs2.
Local Open Scope nat_scope.

Lemma le_value_lt b : (le_value b < 256 ^ N.of_nat (length b))%N.
Proof.
  induction b as [|c b IH]; [reflexivity|]. cbn [le_value length]. rewrite Nat2N.inj_succ, N.pow_succ_r'.
  pose proof (N_ascii_bounded c). lia.
Qed.
Lemma le_digits_value b : le_digits (length b) (le_value b) = b.
Proof.
  induction b as [|c b IH]; [reflexivity|]. cbn [length le_digits le_value].
  pose proof (N_ascii_bounded c).
  assert (E1 : ((N_of_ascii c + 256 * le_value b) mod 256 = N_of_ascii c)%N).
  { symmetry. apply N.mod_unique with (q := le_value b); lia. }
  assert (E2 : ((N_of_ascii c + 256 * le_value b) / 256 = le_value b)%N).
  { symmetry. apply N.div_unique with (r := N_of_ascii c); lia. }
  now rewrite E1, E2, ascii_N_embedding, IH.
Qed.
Lemma host_load le w b : length b = w -> host_bytes le w (load le b) = b /\ (load le b < 256 ^ N.of_nat w)%N.
Proof.
  intros <-. rewrite <- store_host. unfold store, load. destruct le.
  - split; [apply le_digits_value|apply le_value_lt].
  - rewrite <- (rev_length b). split; [|apply le_value_lt]. rewrite le_digits_value. apply rev_involutive.
Qed.

Section S.
Variable le ei : bool.
Variable sz : ty -> N.

Definition sound_read (t : ty) : Prop := forall v0 st v st', restorable t = true ->
  (v0 = default t \/ no_append t = true) -> steady st -> read le ei sz t v0 st = Ok (true, v, st') ->
  has_ty ei t v /\ exists rest, ahead st = enc le t v ++ rest /\ st' = advance st (length (enc le t v)).

Lemma read_u_inv w st n st1 : steady st -> read_u le w st = Ok (Some n, st1) ->
  w <= free st /\ (n < 256 ^ N.of_nat w)%N /\ st1 = advance st w /\ steady st1 /\
  ahead st = host_bytes le w n ++ ahead st1.
Proof.
  intros S. rewrite read_u_spec by exact S. destruct (Nat.leb_spec w (free st)) as [L|]; [|discriminate].
  intros H. injection H as <- <-.
  destruct (host_load le w (firstn w (ahead st))) as (H1 & H2); [rewrite firstn_length, ahead_length; lia|].
  repeat split; auto; try now apply advance_steady.
  rewrite H1, advance_ahead. now rewrite firstn_skipn.
Qed.
Lemma read_raw_inv raw st b st1 : steady st -> read_raw raw st = Ok (Some b, st1) ->
  N.of_nat (length b) = raw /\ st1 = advance st (length b) /\ exists rest, ahead st = b ++ rest.
Proof.
  intros S. rewrite read_raw_spec by exact S. destruct (N.leb_spec raw (N.of_nat (free st))) as [L|]; [|discriminate].
  intros H. injection H as <- <-.
  assert (E : length (firstn (N.to_nat raw) (ahead st)) = N.to_nat raw) by (rewrite firstn_length, ahead_length; lia).
  rewrite E. repeat split; [lia|]. exists (skipn (N.to_nat raw) (ahead st)). now rewrite firstn_skipn.
Qed.

Lemma sound_read_n t' : sound_read t' -> no_append t' = true -> restorable t' = true ->
  forall n v0 st l st', steady st -> read_n (read le ei sz t') n v0 st = Ok (true, l, st') ->
  length l = n /\ Forall (has_ty ei t') l /\
  exists rest, ahead st = concat (map (enc le t') l) ++ rest /\ st' = advance st (length (concat (map (enc le t') l))).
Proof.
  intros IH NA RE n. induction n as [|n IHn]; intros v0 st l st' S; cbn [read_n].
  - intros H. injection H as <- <-. split; auto. split; [constructor|]. exists (ahead st). split; auto. now rewrite advance_0.
  - destruct (read le ei sz t' v0 st) as [[[b v] st1]| |] eqn:E; cbn [bind]; try discriminate.
    destruct b; [|discriminate].
    destruct (IH v0 st v st1 RE (or_intror NA) S E) as (Hv & rest & A & ->).
    assert (L : length (enc le t' v) <= free st) by (rewrite <- ahead_length, A, app_length; lia).
    destruct (read_n (read le ei sz t') n v _) as [[[b2 l2] st2]| |] eqn:E2; cbn [bind]; try discriminate.
    intros H. injection H as -> <- <-.
    destruct (IHn v _ l2 st2 (advance_steady _ _ S L) E2) as (Hl & Hf & rest2 & A2 & ->).
    split; [cbn; lia|]. split; [constructor; auto|]. exists rest2. cbn [map concat].
    rewrite advance_add, app_length. split; auto.
    rewrite (ahead_step _ _ _ A) in A2. now rewrite A, A2, app_assoc.
Qed.

Lemma chunks_facts w n b : length b = w * n -> length (chunks w n b) = n /\
  Forall (fun c => length c = w) (chunks w n b) /\ concat (chunks w n b) = b.
Proof.
  revert b. induction n as [|n IH]; intros b H; cbn [chunks].
  - split; auto. split; [constructor|]. destruct b; [reflexivity|cbn in H; lia].
  - destruct (IH (skipn w b)) as (H1 & H2 & H3); [rewrite skipn_length; nia|].
    split; [cbn; lia|]. split; [constructor; auto; rewrite firstn_length; nia|]. cbn [concat]. now rewrite H3, firstn_skipn.
Qed.

Lemma counted n st1 st (e : list ascii) : ahead st = host_bytes le 4 n ++ ahead st1 -> st1 = advance st 4 ->
  (exists rest, ahead st1 = e ++ rest) ->
  exists rest, ahead st = (host_bytes le 4 n ++ e) ++ rest /\
    advance st1 (length e) = advance st (length (host_bytes le 4 n ++ e)).
Proof.
  intros A -> (rest & A1). exists rest. rewrite A, A1, <- app_assoc. split; auto.
  now rewrite advance_add, app_length, host_bytes_length.
Qed.

Lemma read_sound t : sound_read t.
Proof.
  induction t as [|w| |w|n w|k|t' IH|t' IH|t' IH|a IHa b IHb]; intros v0 st v st' RE NA S H; cbn [read] in H.
  - injection H as <- <-. cbn. split; auto. exists (ahead st). now rewrite advance_0.
  - rewrite read_pod_spec in H by exact S. destruct (Nat.leb_spec w (free st)) as [L|]; cbn [bind] in H; [|discriminate].
    injection H as <- <-. cbn [has_ty enc].
    assert (E : length (firstn w (ahead st)) = w) by (rewrite firstn_length, ahead_length; lia).
    split; auto. exists (skipn w (ahead st)). rewrite E. split; auto. now rewrite firstn_skipn.
  - destruct (read_u le 4 st) as [[[n|] st1]| |] eqn:E; cbn [bind] in H; try discriminate.
    destruct (read_u_inv _ _ _ _ S E) as (L & Hn & E1 & S1 & A).
    destruct (read_raw n st1) as [[[b|] st2]| |] eqn:E2; cbn [bind] in H; try discriminate.
    injection H as <- <-. destruct (read_raw_inv _ _ _ _ S1 E2) as (<- & -> & Hr).
    cbn [has_ty enc]. split; [exact Hn|]. eapply counted; eauto.
  - destruct (read_u le 4 st) as [[[n|] st1]| |] eqn:E; cbn [bind] in H; try discriminate.
    destruct (read_u_inv _ _ _ _ S E) as (L & Hn & E1 & S1 & A).
    destruct (read_raw (n * N.of_nat w) st1) as [[[b|] st2]| |] eqn:E2; cbn [bind] in H; try discriminate.
    injection H as <- <-. destruct (read_raw_inv _ _ _ _ S1 E2) as (Hl & -> & Hr).
    cbn [has_ty enc]. split; [split; [exact Hn|exact Hl]|]. eapply counted; eauto.
  - destruct (read_raw (N.of_nat (n * w)) st) as [[[b|] st2]| |] eqn:E2; cbn [bind] in H; try discriminate.
    injection H as <- <-. destruct (read_raw_inv _ _ _ _ S E2) as (Hl & -> & rest & Hr).
    cbn [has_ty enc]. split; [lia|]. exists rest. auto.
  - destruct (read_u le k st) as [[[n|] st1]| |] eqn:E; cbn [bind] in H; try discriminate.
    destruct (read_u_inv _ _ _ _ S E) as (L & Hn & E1 & S1 & A).
    destruct (read_raw n st1) as [[[b|] st2]| |] eqn:E2; cbn [bind] in H; try discriminate.
    injection H as <- <-. destruct (read_raw_inv _ _ _ _ S1 E2) as (<- & -> & rest & Hr).
    cbn [has_ty enc]. split; [rewrite <- pow256; exact Hn|]. exists rest. rewrite A, Hr, <- app_assoc. split; auto.
    rewrite E1, advance_add, app_length, host_bytes_length. reflexivity.
  - destruct (read_u le 4 st) as [[[n|] st1]| |] eqn:E; cbn [bind] in H; try discriminate.
    destruct (read_u_inv _ _ _ _ S E) as (L & Hn & E1 & S1 & A).
    rewrite cap_ok in H by exact S1. destruct (N.leb_spec (n * sizeof sz t') (N.of_nat (free st1))) as [Lc|]; cbn [negb] in H; [|discriminate].
    cbv zeta in H. cbn [restorable] in RE. apply andb_prop in RE. destruct RE as (NA' & RE').
    assert (Gen : is_pod t' = false ->
      (' (b, l, st2) <- read_n (read le ei sz t') (N.to_nat n) (default t') st1 ;;
       Ok (b, VList (l ++ skipn (length l) (vresize (N.to_nat n) (default t') (vlist v0))), st2)) = Ok (true, v, st') ->
      has_ty ei (TVec t') v /\ exists rest, ahead st = enc le (TVec t') v ++ rest /\ st' = advance st (length (enc le (TVec t') v))).
    { clear H. intros Hp H. destruct (read_n _ _ _ st1) as [[[b l] st2]| |] eqn:E2; cbn [bind] in H; try discriminate.
      injection H as -> <- <-.
      destruct (sound_read_n t' IH NA' RE' _ _ _ _ _ S1 E2) as (Hl & Hf & rest & A2 & ->).
      assert (Hv : l ++ skipn (length l) (vresize (N.to_nat n) (default t') (vlist v0)) = l).
      { rewrite skipn_all2; [apply app_nil_r|]. unfold vresize. rewrite app_length, firstn_length, repeat_length. lia. }
      rewrite Hv. assert (Hnl : N.of_nat (length l) = n) by lia. cbn [has_ty enc]. rewrite Hnl. split.
      - split; [exact Hn|]. split; auto. intros _ X. congruence.
      - eapply counted; eauto. }
    destruct t' as [|w| |w|m w|k|t''|t''|t''|a b]; try (apply Gen; [reflexivity|exact H]).
    clear Gen IH. destruct (ei && (N.to_nat n =? 0)) eqn:Ei; [discriminate|]. cbn [sizeof] in Lc.
    rewrite get_ok in H by (auto; nia). cbn [bind] in H. injection H as <- <-.
    set (bs := firstn (w * N.to_nat n) (ahead st1)).
    assert (Hb : length bs = w * N.to_nat n) by (unfold bs; rewrite firstn_length, ahead_length; nia).
    destruct (chunks_facts w (N.to_nat n) bs Hb) as (C1 & C2 & C3).
    assert (Hnl : N.of_nat (length (map VBytes (chunks w (N.to_nat n) bs))) = n) by (rewrite map_length; lia).
    assert (He : concat (map (enc le (TPod w)) (map VBytes (chunks w (N.to_nat n) bs))) = bs).
    { rewrite map_map. cbn [enc]. now rewrite map_id. }
    cbn [has_ty enc]. change (map (fun v => match v with VBytes b => b | _ => [] end)) with (map (enc le (TPod w))).
    rewrite Hnl, He. split.
    + split; [exact Hn|]. split.
      * apply Forall_forall. intros x Hx. apply in_map_iff in Hx. destruct Hx as (c & <- & Hc). cbn [has_ty].
        rewrite Forall_forall in C2. now apply C2.
      * intros -> _ X. assert (length (chunks w (N.to_nat n) bs) = 0) by (destruct (chunks w (N.to_nat n) bs); [reflexivity|discriminate]).
        cbn [andb] in Ei. apply Nat.eqb_neq in Ei. lia.
    + rewrite <- Hb. eapply counted; eauto. exists (skipn (w * N.to_nat n) (ahead st1)). unfold bs. now rewrite firstn_skipn.
  - destruct (read_u le 4 st) as [[[n|] st1]| |] eqn:E; cbn [bind] in H; try discriminate.
    destruct (read_u_inv _ _ _ _ S E) as (L & Hn & E1 & S1 & A).
    rewrite cap_ok in H by exact S1. destruct (N.leb_spec (n * sizeof sz t') (N.of_nat (free st1))) as [Lc|]; cbn [negb] in H; [|discriminate].
    cbn [restorable] in RE. apply andb_prop in RE. destruct RE as (NA' & RE').
    destruct NA as [->|NA]; [|discriminate].
    destruct (read_n _ _ _ st1) as [[[b l] st2]| |] eqn:E2; cbn [bind default vlist app] in H; try discriminate.
    injection H as -> <- <-. destruct (sound_read_n t' IH NA' RE' _ _ _ _ _ S1 E2) as (Hl & Hf & rest & A2 & ->).
    assert (Hnl : N.of_nat (length l) = n) by lia. cbn [has_ty enc]. rewrite Hnl. split; [split; auto|].
    eapply counted; eauto.
  - destruct (read_u le 4 st) as [[[n|] st1]| |] eqn:E; cbn [bind] in H; try discriminate.
    destruct (read_u_inv _ _ _ _ S E) as (L & Hn & E1 & S1 & A).
    rewrite cap_ok in H by exact S1. destruct (N.leb_spec (n * sizeof sz t') (N.of_nat (free st1))) as [Lc|]; cbn [negb] in H; [|discriminate].
    cbn [restorable] in RE. apply andb_prop in RE. destruct RE as (NA' & RE').
    destruct NA as [->|NA]; [|discriminate].
    destruct (read_n _ _ _ st1) as [[[b l] st2]| |] eqn:E2; cbn [bind default vlist app] in H; try discriminate.
    injection H as -> <- <-. destruct (sound_read_n t' IH NA' RE' _ _ _ _ _ S1 E2) as (Hl & Hf & rest & A2 & ->).
    assert (Hnl : N.of_nat (length l) = n) by lia. cbn [has_ty enc]. rewrite Hnl. split; [split; auto|].
    eapply counted; eauto.
  - cbn [restorable] in RE. apply andb_prop in RE. destruct RE as (REa & REb).
    destruct (match v0 with VPair x y => (x, y) | _ => (default a, default b) end) as [va vb] eqn:Ev.
    assert (Hd : (va = default a \/ no_append a = true) /\ (vb = default b \/ no_append b = true)).
    { destruct NA as [->|NA].
      - cbn [default] in Ev. injection Ev as <- <-. auto.
      - cbn [no_append] in NA. apply andb_prop in NA. tauto. }
    destruct Hd as (Hda & Hdb).
    destruct (read le ei sz a va st) as [[[r x] st1]| |] eqn:E; cbn [bind] in H; try discriminate.
    destruct r; [|discriminate]. destruct (IHa va st x st1 REa Hda S E) as (Hx & rest & A & ->).
    assert (L : length (enc le a x) <= free st) by (rewrite <- ahead_length, A, app_length; lia).
    destruct (read le ei sz b vb _) as [[[r y] st2]| |] eqn:E2; cbn [bind] in H; try discriminate.
    injection H as -> <- <-.
    destruct (IHb vb _ y st2 REb Hdb (advance_steady _ _ S L) E2) as (Hy & rest2 & A2 & ->).
    cbn [has_ty enc]. split; auto. exists rest2. rewrite (ahead_step _ _ _ A) in A2. rewrite A, A2, app_assoc. split; auto.
    now rewrite advance_add, app_length.
Qed.
End S.
