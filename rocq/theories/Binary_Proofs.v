From Verif Require Import Base Binary_Model Binary_Spec Endian_Proofs.
Open Scope nat_scope.

Definition steady (st : bst) : Prop := cur st = amt st /\ cur st <= length (buf st).
Definition free (st : bst) : nat := length (buf st) - cur st.

Lemma after_nil st : after st [] = st.
Proof.
  destruct st as [b c a m]. unfold after. cbn [buf cur amt marks length app]. rewrite !Nat.add_0_r.
  now rewrite firstn_skipn.
Qed.

Lemma after_buf_length st b : steady st -> length b <= free st -> length (buf (after st b)) = length (buf st).
Proof.
  intros [H1 H2] H. unfold free in H. unfold after. cbn [buf].
  rewrite !app_length, firstn_length, skipn_length. lia.
Qed.

Lemma after_steady st b : steady st -> length b <= free st -> steady (after st b).
Proof.
  intros S H. pose proof (after_buf_length st b S H) as L. destruct S as [H1 H2]. unfold free in H.
  split; [|rewrite L]; unfold after; cbn [cur amt]; lia.
Qed.

Lemma after_free st b : steady st -> length b <= free st -> free (after st b) = free st - length b.
Proof.
  intros S H. pose proof (after_buf_length st b S H) as L. unfold free. rewrite L. unfold after. cbn [cur]. lia.
Qed.

Lemma after_app st a b : steady st -> length (a ++ b) <= free st -> after (after st a) b = after st (a ++ b).
Proof.
  intros [H1 H2] H. unfold free in H. rewrite app_length in H. unfold after. cbn [buf cur amt marks].
  rewrite app_length, !Nat.add_assoc. f_equal.
  set (c := cur st) in *. set (l := buf st) in *. clearbody c l.
  assert (E : forall (x : list ascii), length x = c + length a ->
     firstn (c + length a) (x ++ skipn (c + length a) l) = x /\
     skipn (c + length a + length b) (x ++ skipn (c + length a) l) = skipn (c + length a + length b) l).
  { intros x Hx. rewrite <- Hx at 1 4. split; [apply firstn_app_len|].
    rewrite Nat.add_comm, <- skipn_skipn, <- Hx, skipn_app_len, skipn_skipn. reflexivity. }
  rewrite (app_assoc (firstn c l) a (skipn _ _)). destruct (E (firstn c l ++ a)) as [E1 E2]; [rewrite app_length, firstn_length; lia|].
  rewrite E1, E2, <- !app_assoc. reflexivity.
Qed.

Lemma cap_ok st req : steady st -> capacity_ok st req = (req <=? N.of_nat (free st))%N.
Proof.
  intros [H1 H2]. unfold capacity_ok, free. rewrite <- H1.
  destruct (N.leb_spec (req + N.of_nat (cur st)) (N.of_nat (length (buf st))));
  destruct (N.leb_spec req (N.of_nat (length (buf st) - cur st))); auto; lia.
Qed.

Lemma put_ok st b : steady st -> length b <= free st ->
  (st1 <- put_bytes st b ;; Ok (true, advance st1 (length b))) = Ok (true, after st b).
Proof.
  intros [H1 H2] H. unfold free in H. unfold put_bytes.
  destruct (Nat.leb_spec (cur st + length b) (length (buf st))); [|lia]. reflexivity.
Qed.

Lemma write_pod_spec st b : steady st ->
  write_pod b st = if length b <=? free st then Ok (true, after st b) else Ok (false, st).
Proof.
  intros S. unfold write_pod. destruct (Nat.leb_spec (length b) (free st)) as [L|G].
  - pose proof S as [H1 H2]. unfold free in L.
    destruct (N.ltb_spec (N.of_nat (length (buf st))) (N.of_nat (length b) + N.of_nat (amt st))); [lia|].
    apply put_ok; auto.
  - destruct S as [H1 H2]. unfold free in G.
    destruct (N.ltb_spec (N.of_nat (length (buf st))) (N.of_nat (length b) + N.of_nat (amt st))); [auto|lia].
Qed.

Lemma write_raw_spec st src raw : steady st -> (raw <= N.of_nat (length src))%N ->
  write_raw src raw st =
  if N.to_nat raw <=? free st then Ok (true, after st (firstn (N.to_nat raw) src)) else Ok (false, st).
Proof.
  intros S Hs. unfold write_raw. rewrite cap_ok by exact S.
  destruct (Nat.leb_spec (N.to_nat raw) (free st)) as [L|G].
  - destruct (N.leb_spec raw (N.of_nat (free st))); [|lia]. cbn [negb].
    destruct (N.ltb_spec (N.of_nat (length src)) raw); [lia|].
    rewrite <- put_ok by (auto; rewrite firstn_length; lia). rewrite firstn_length. f_equal.
    replace (Nat.min (N.to_nat raw) (length src)) with (N.to_nat raw) by lia. reflexivity.
  - destruct (N.leb_spec raw (N.of_nat (free st))); [lia|]. reflexivity.
Qed.

Lemma write_raw_all st src : steady st ->
  write_raw src (N.of_nat (length src)) st =
  if length src <=? free st then Ok (true, after st src) else Ok (false, st).
Proof. intros S. rewrite write_raw_spec by (auto; lia). rewrite Nat2N.id, firstn_all. reflexivity. Qed.

Lemma u32_small n : (N.of_nat n < 2 ^ 32)%N -> u32 n = N.of_nat n.
Proof. intros H. unfold u32. now apply N.mod_small. Qed.

Lemma concat_vbytes_length ei w l : Forall (has_ty ei (TPod w)) l -> length (concat (map vbytes l)) = length l * w.
Proof.
  induction 1 as [|v l Hv Hl IH]; auto. cbn [map concat length]. rewrite app_length, IH.
  destruct v; simpl in Hv; try contradiction. simpl vbytes. rewrite Hv. lia.
Qed.

Lemma enc_pods le ei w l : Forall (has_ty ei (TPod w)) l -> concat (map (enc le (TPod w)) l) = concat (map vbytes l).
Proof.
  induction 1 as [|v l Hv Hl IH]; auto. cbn [map concat]. rewrite IH. f_equal.
  destruct v; simpl in Hv; try contradiction. reflexivity.
Qed.

Section W.
Variable le ei : bool.
Variable sz : ty -> N.

(* every write leaves a prefix of the encoding; with enough room, all of it *)
Definition good_write (t : ty) (v : val) (st : bst) : Prop :=
  holds (write le ei sz t v st) (fun x =>
    exists p q, enc le t v = p ++ q /\ length p <= free st /\ snd x = after st p /\
      (fst x = true -> q = []) /\
      ((room le sz t v <= N.of_nat (free st))%N -> fst x = true)).

Lemma enc_le_room t : forall ei' v, has_ty ei' t v -> (N.of_nat (length (enc le t v)) <= room le sz t v)%N.
Proof.
  assert (C : forall t', (forall ei' v, has_ty ei' t' v -> (N.of_nat (length (enc le t' v)) <= room le sz t' v)%N) ->
    forall ei' l, Forall (has_ty ei' t') l ->
    (N.of_nat (length (concat (map (enc le t') l))) <=
     fold_right (fun x r => N.max (room le sz t' x) (N.of_nat (length (enc le t' x)) + r)) 0 l)%N).
  { intros t' IH ei' l H. induction H as [|v l Hv Hl IHl]; cbn [map concat fold_right].
    - simpl; lia.
    - rewrite app_length. lia. }
  induction t; intros ei' v H; try (simpl; lia).
  1-3: destruct v; cbn [has_ty] in H; try contradiction; cbn [enc room];
       rewrite app_length, host_bytes_length; destruct H as [H1 H2]; try destruct H2 as [H2 H3];
       pose proof (C t IHt ei' l H2); lia.
  destruct v; cbn [has_ty] in H; try contradiction. cbn [enc room]. rewrite app_length. destruct H as [H1 H2].
  specialize (IHt1 ei' _ H1). specialize (IHt2 ei' _ H2). lia.
Qed.

Lemma write_list_good t' : (forall v st, has_ty ei t' v -> steady st -> good_write t' v st) ->
  forall l st, Forall (has_ty ei t') l -> steady st ->
  holds (write_list (write le ei sz t') l st) (fun x =>
    exists p q, concat (map (enc le t') l) = p ++ q /\ length p <= free st /\ snd x = after st p /\
      (fst x = true -> q = []) /\
      ((fold_right (fun x r => N.max (room le sz t' x) (N.of_nat (length (enc le t' x)) + r)) 0 l
        <= N.of_nat (free st))%N -> fst x = true)).
Proof.
  intros IH l. induction l as [|v l IHl]; intros st Hl S; cbn [write_list map concat fold_right].
  - cbn [holds]. exists [], []. cbn [fst snd length app]. rewrite after_nil. repeat split; auto. lia.
  - inversion Hl as [|? ? Hv Hl']; subst. pose proof (IH v st Hv S) as G. unfold good_write in G.
    eapply holds_bind2; [exact G|]. clear G. intros [b st1] (p & q & E & Lp & Est & Ht & Hr). cbn [fst snd] in *.
    destruct b.
    + rewrite (Ht eq_refl), app_nil_r in E. subst p st1.
      assert (Hroom := enc_le_room t' ei v Hv).
      eapply holds_weaken; [apply IHl; auto; now apply after_steady|]. cbn beta.
      intros [b2 st2] (p2 & q2 & E2 & Lp2 & Est2 & Ht2 & Hr2). cbn [fst snd] in *.
      rewrite after_free in Lp2, Hr2 by auto.
      exists (enc le t' v ++ p2), q2. rewrite E2, app_assoc. split; [reflexivity|].
      split; [rewrite app_length; lia|]. split; [rewrite Est2; apply after_app; auto; rewrite app_length; lia|].
      split; [exact Ht2|]. intros Hroom2. apply Hr2. lia.
    + cbn [holds fst snd]. exists p, (q ++ concat (map (enc le t') l)). rewrite E, app_assoc.
      split; [reflexivity|]. split; [exact Lp|]. split; [exact Est|]. split; [discriminate|].
      intros Hroom2. apply Hr. lia.
Qed.

Lemma write_u_step (w : nat) (n : N) (e : list ascii) (rm : N) (st : bst) (k : bst -> outcome (bool * bst)) : steady st ->
  (N.of_nat w <= rm)%N ->
  (forall st1, steady st1 -> st1 = after st (host_bytes le w n) -> w <= free st -> holds (k st1) (fun x =>
     exists p q, e = p ++ q /\ length p <= free st1 /\ snd x = after st1 p /\ (fst x = true -> q = []) /\
     ((rm <= N.of_nat (free st))%N -> fst x = true))) ->
  holds (' (r, st1) <- write_pod (store le w n) st ;; if (r : bool) then k st1 else Ok (false, st1)) (fun x =>
    exists p q, host_bytes le w n ++ e = p ++ q /\ length p <= free st /\ snd x = after st p /\
      (fst x = true -> q = []) /\ ((rm <= N.of_nat (free st))%N -> fst x = true)).
Proof.
  intros S Hrm Hk. rewrite store_host, write_pod_spec by exact S. rewrite host_bytes_length.
  destruct (Nat.leb_spec w (free st)) as [L|G]; cbn [bind].
  - assert (L' : length (host_bytes le w n) <= free st) by now rewrite host_bytes_length.
    eapply holds_weaken; [apply Hk; auto; now apply after_steady|]. cbn beta.
    intros [b st2] (p & q & E & Lp & Est & Ht & Hr). cbn [fst snd] in *.
    rewrite after_free, host_bytes_length in Lp by auto.
    exists (host_bytes le w n ++ p), q. subst e. rewrite app_assoc. split; [reflexivity|].
    split; [rewrite app_length, host_bytes_length; lia|].
    split; [rewrite Est; apply after_app; auto; rewrite app_length, host_bytes_length; lia|]. auto.
  - cbn [holds]. exists [], (host_bytes le w n ++ e). cbn [app length fst snd]. rewrite after_nil.
    repeat split; auto; try lia; discriminate.
Qed.

Lemma raw_good e st : steady st ->
  holds (write_raw e (N.of_nat (length e)) st) (fun x =>
    exists p q, e = p ++ q /\ length p <= free st /\ snd x = after st p /\ (fst x = true -> q = []) /\
    ((N.of_nat (length e) <= N.of_nat (free st))%N -> fst x = true)).
Proof.
  intros S. rewrite write_raw_all by exact S. destruct (Nat.leb_spec (length e) (free st)); cbn [holds fst snd].
  - exists e, []. rewrite app_nil_r. repeat split; auto.
  - exists [], e. cbn [app length]. rewrite after_nil. repeat split; auto; try lia; discriminate.
Qed.

Lemma write_good t : forall v st, has_ty ei t v -> steady st -> good_write t v st.
Proof.
  induction t as [|w| |w|n w|k|t' IH|t' IH|t' IH|a IHa b IHb]; intros v st H S; unfold good_write;
    destruct v as [|bs|na bs|l|x y]; cbn [has_ty] in H; try contradiction; cbn [write enc room].
  - cbn [holds]. exists [], []. rewrite after_nil. simpl. repeat split; auto; lia.
  - subst w. rewrite write_pod_spec by exact S.
    destruct (Nat.leb_spec (length bs) (free st)); cbn [holds fst snd].
    + exists bs, []. rewrite app_nil_r. repeat split; auto.
    + exists [], bs. cbn [app length]. rewrite after_nil. repeat split; auto; try lia; discriminate.
  - rewrite u32_small by exact H.
    apply write_u_step; auto; [rewrite app_length, host_bytes_length; lia|].
    intros st1 S1 E1 F1. eapply holds_weaken; [now apply raw_good|]. cbn beta.
    intros [r st2] (p & q & E & Lp & Est & Ht & Hr). exists p, q. repeat split; auto.
    intros HH. apply Hr. rewrite app_length, host_bytes_length in HH. subst st1.
    rewrite after_free by (auto; now rewrite host_bytes_length). rewrite host_bytes_length. lia.
  - destruct H as [H1 H2]. rewrite <- H2.
    apply write_u_step; auto; [rewrite app_length, host_bytes_length; lia|].
    intros st1 S1 E1 F1. eapply holds_weaken; [now apply raw_good|]. cbn beta.
    intros [r st2] (p & q & E & Lp & Est & Ht & Hr). exists p, q. repeat split; auto.
    intros HH. apply Hr. rewrite app_length, host_bytes_length in HH. subst st1.
    rewrite after_free by (auto; now rewrite host_bytes_length). rewrite host_bytes_length. lia.
  - rewrite <- H. now apply raw_good.
  - destruct (N.ltb_spec (2 ^ (8 * N.of_nat k) - 1) (N.of_nat (length bs))); [lia|].
    apply write_u_step; auto; [rewrite app_length, host_bytes_length; lia|].
    intros st1 S1 E1 F1. eapply holds_weaken; [now apply raw_good|]. cbn beta.
    intros [r st2] (p & q & E & Lp & Est & Ht & Hr). exists p, q. repeat split; auto.
    intros HH. apply Hr. rewrite app_length, host_bytes_length in HH. subst st1.
    rewrite after_free by (auto; now rewrite host_bytes_length). rewrite host_bytes_length. lia.
  - destruct H as (H1 & H2 & H3). rewrite u32_small by exact H1.
    set (rm := (4 + N.max (N.of_nat (length l) * sizeof sz t') (fold_right (fun x r => N.max (room le sz t' x) (N.of_nat (length (enc le t' x)) + r)) 0 l))%N).
    rewrite cap_ok by exact S. cbv zeta.
    destruct (N.leb_spec (N.of_nat (length l) * sizeof sz t' + 4) (N.of_nat (free st))) as [L|G]; cbn [negb].
    2:{ cbn [holds fst snd]. exists [], (host_bytes le 4 (N.of_nat (length l)) ++ concat (map (enc le t') l)).
        cbn [app length]. rewrite after_nil. repeat split; auto; try lia; discriminate. }
    apply write_u_step; auto; [unfold rm; lia|]. intros st1 S1 E1 F1.
    assert (F2 : free st1 = free st - 4).
    { subst st1. rewrite after_free by (auto; now rewrite host_bytes_length). now rewrite host_bytes_length. }
    assert (Gen : holds (write_list (write le ei sz t') l st1) (fun x =>
       exists p q, concat (map (enc le t') l) = p ++ q /\ length p <= free st1 /\ snd x = after st1 p /\
       (fst x = true -> q = []) /\ ((rm <= N.of_nat (free st))%N -> fst x = true))).
    { eapply holds_weaken; [now apply write_list_good|]. cbn beta.
      intros [r st2] (p & q & E & Lp & Est & Ht & Hr). exists p, q. repeat split; auto.
      intros HH. apply Hr. unfold rm in HH. lia. }
    destruct t' as [|w| |w|n w|k|t''|t''|t''|a b]; try exact Gen.
    assert (Hne : ei && (length l =? 0) = false).
    { destruct ei; auto. cbn [andb]. destruct l; [exfalso; apply H3; auto|reflexivity]. }
    rewrite Hne. pose proof (concat_vbytes_length ei w l H2) as CL. cbn [sizeof] in *.
    replace (N.to_nat (N.of_nat (length l) * N.of_nat w)) with (length (concat (map vbytes l))) by (rewrite CL; lia).
    rewrite Nat.ltb_irrefl, firstn_all, put_ok by (auto; lia).
    cbn [holds fst snd]. exists (concat (map vbytes l)), []. rewrite app_nil_r.
    rewrite (enc_pods le ei w l H2). repeat split; auto. lia.
  - destruct H as (H1 & H2). rewrite u32_small by exact H1. apply write_u_step; auto; [lia|]. intros st1 S1 E1 F1.
    assert (F2 : free st1 = free st - 4).
    { subst st1. rewrite after_free by (auto; now rewrite host_bytes_length). now rewrite host_bytes_length. }
    eapply holds_weaken; [now apply write_list_good|]. cbn beta.
    intros [r st2] (p & q & E & Lp & Est & Ht & Hr). exists p, q. repeat split; auto.
    intros HH. apply Hr. lia.
  - destruct H as (H1 & H2). rewrite u32_small by exact H1. cbv zeta. apply write_u_step; auto; [lia|]. intros st1 S1 E1 F1.
    assert (F2 : free st1 = free st - 4).
    { subst st1. rewrite after_free by (auto; now rewrite host_bytes_length). now rewrite host_bytes_length. }
    rewrite cap_ok by exact S1.
    destruct (N.leb_spec (N.of_nat (length l) * sizeof sz t') (N.of_nat (free st1))) as [L|G]; cbn [negb].
    2:{ cbn [holds fst snd]. exists [], (concat (map (enc le t') l)).
        cbn [app length]. rewrite after_nil. repeat split; auto; try lia; discriminate. }
    eapply holds_weaken; [now apply write_list_good|]. cbn beta.
    intros [r st2] (p & q & E & Lp & Est & Ht & Hr). exists p, q. repeat split; auto.
    intros HH. apply Hr. lia.
  - destruct H as (H1 & H2). pose proof (IHa x st H1 S) as G. unfold good_write in G.
    eapply holds_bind2; [exact G|]. clear G. intros [r st1] (p & q & E & Lp & Est & Ht & Hr). cbn [fst snd] in *.
    destruct r.
    + rewrite (Ht eq_refl), app_nil_r in E. subst p st1.
      eapply holds_weaken; [apply IHb; auto; now apply after_steady|]. cbn beta.
      intros [b2 st2] (p2 & q2 & E2 & Lp2 & Est2 & Ht2 & Hr2). cbn [fst snd] in *.
      rewrite after_free in Lp2, Hr2 by auto.
      exists (enc le a x ++ p2), q2. rewrite E2, app_assoc. split; [reflexivity|].
      split; [rewrite app_length; lia|]. split; [rewrite Est2; apply after_app; auto; rewrite app_length; lia|].
      split; [exact Ht2|]. intros Hroom2. apply Hr2. lia.
    + cbn [holds fst snd]. exists p, (q ++ enc le b y). rewrite E, app_assoc.
      split; [reflexivity|]. split; [exact Lp|]. split; [exact Est|]. split; [discriminate|].
      intros Hroom2. apply Hr. lia.
Qed.

Lemma write_ok t v st : has_ty ei t v -> steady st -> (room le sz t v <= N.of_nat (free st))%N ->
  write le ei sz t v st = Ok (true, after st (enc le t v)).
Proof.
  intros H S R. pose proof (write_good t v st H S) as G. unfold good_write in G.
  apply holds_eq. eapply holds_weaken; [exact G|]. cbn beta. intros [b st'] (p & q & E & Lp & Est & Ht & Hr).
  cbn [fst snd] in *. rewrite (Hr R) in *. rewrite (Ht eq_refl), app_nil_r in E. subst. reflexivity.
Qed.

Lemma room_flat t : forall ei' v, flat t = true -> has_ty ei' t v -> room le sz t v = N.of_nat (length (enc le t v)).
Proof.
  assert (C : forall w ei' l, Forall (has_ty ei' (TPod w)) l ->
    (fold_right (fun x r => N.max (room le sz (TPod w) x) (N.of_nat (length (enc le (TPod w) x)) + r)) 0 l)%N
     = N.of_nat (length l * w) /\ length (concat (map (enc le (TPod w)) l)) = length l * w).
  { intros w ei' l H. induction H as [|v l Hv Hl [IH1 IH2]]; cbn [fold_right map concat length]; [split; reflexivity|].
    rewrite IH1, app_length, IH2. destruct v; cbn [has_ty] in Hv; try contradiction. cbn [room enc].
    rewrite Hv. lia. }
  induction t as [|w| |w|n w|k|t' IH|t' IH|t' IH|a IHa b IHb]; intros ei' v F H; auto;
    destruct v as [|bs|na bs|l|x y]; cbn [has_ty] in H; try contradiction; cbn [flat] in F.
  1-3: destruct t'; try discriminate; cbn [room enc sizeof]; rewrite app_length, host_bytes_length;
       destruct H as [H1 H2]; try destruct H2 as [H2 _]; destruct (C w ei' l H2) as [C1 C2]; cbn [room enc] in C1, C2; rewrite C1, C2; lia.
  apply andb_prop in F. destruct F as [F1 F2]. destruct H as [H1 H2]. cbn [room enc].
  rewrite (IHa ei' x F1 H1), (IHb ei' y F2 H2), app_length. lia.
Qed.

End W.
