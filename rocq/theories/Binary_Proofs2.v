From Verif Require Import Base Binary_Model Binary_Spec Endian_Proofs Binary_Proofs.
From Verif Require Export Binary_Spec2.
Open Scope nat_scope.

Definition ahead (st : bst) : list ascii := skipn (cur st) (buf st).

Lemma ahead_length st : length (ahead st) = free st.
Proof. unfold ahead, free. apply skipn_length. Qed.

Lemma advance_0 st : advance st 0 = st.
Proof. destruct st as [b c a m]. unfold advance. cbn [buf cur amt marks]. now rewrite !Nat.add_0_r. Qed.

Lemma advance_add st a b : advance (advance st a) b = advance st (a + b).
Proof. unfold advance. cbn [buf cur amt marks]. f_equal; lia. Qed.

Lemma advance_steady st n : steady st -> n <= free st -> steady (advance st n).
Proof. intros [H1 H2] H. unfold free in H. unfold steady, advance. cbn [buf cur amt]. lia. Qed.

Lemma advance_free st n : free (advance st n) = free st - n.
Proof. unfold free, advance. cbn [buf cur]. lia. Qed.

Lemma advance_ahead st n : ahead (advance st n) = skipn n (ahead st).
Proof. unfold ahead, advance. cbn [buf cur]. rewrite skipn_skipn. f_equal. lia. Qed.

Lemma ahead_step st a r : ahead st = a ++ r -> ahead (advance st (length a)) = r.
Proof. intros H. now rewrite advance_ahead, H, skipn_app_len. Qed.

Lemma get_ok st n : n <= free st -> steady st -> get_bytes st n = Ok (firstn n (ahead st)).
Proof.
  intros H [H1 H2]. unfold free in H. unfold get_bytes.
  destruct (Nat.leb_spec (cur st + n) (length (buf st))); [reflexivity|lia].
Qed.

Lemma read_pod_spec w st : steady st ->
  read_pod w st = if w <=? free st then Ok (Some (firstn w (ahead st)), advance st w) else Ok (None, st).
Proof.
  intros S. unfold read_pod. rewrite cap_ok by exact S. destruct (Nat.leb_spec w (free st)) as [L|G].
  - destruct (N.leb_spec (N.of_nat w) (N.of_nat (free st))); [|lia]. rewrite get_ok by auto. reflexivity.
  - destruct (N.leb_spec (N.of_nat w) (N.of_nat (free st))); [lia|reflexivity].
Qed.

Lemma read_raw_spec raw st : steady st ->
  read_raw raw st = if (raw <=? N.of_nat (free st))%N
    then Ok (Some (firstn (N.to_nat raw) (ahead st)), advance st (N.to_nat raw)) else Ok (None, st).
Proof.
  intros S. unfold read_raw. rewrite cap_ok by exact S. destruct (N.leb_spec raw (N.of_nat (free st))); auto.
  rewrite get_ok by (auto; lia). reflexivity.
Qed.

Lemma read_u_spec le w st : steady st ->
  read_u le w st = if w <=? free st then Ok (Some (load le (firstn w (ahead st))), advance st w) else Ok (None, st).
Proof. intros S. unfold read_u. rewrite read_pod_spec by exact S. destruct (w <=? free st); reflexivity. Qed.

Lemma read_u_ok le w n rest st : steady st -> (n < 256 ^ N.of_nat w)%N -> ahead st = host_bytes le w n ++ rest ->
  read_u le w st = Ok (Some n, advance st w).
Proof.
  intros S Hn A. rewrite read_u_spec by exact S.
  assert (w <= free st) by (rewrite <- ahead_length, A, app_length, host_bytes_length; lia).
  destruct (Nat.leb_spec w (free st)); [|lia]. rewrite A.
  rewrite <- (host_bytes_length le w n) at 1. rewrite firstn_app_len, load_host by exact Hn. reflexivity.
Qed.

Lemma read_raw_ok b rest st : steady st -> ahead st = b ++ rest ->
  read_raw (N.of_nat (length b)) st = Ok (Some b, advance st (length b)).
Proof.
  intros S A. rewrite read_raw_spec by exact S.
  assert (length b <= free st) by (rewrite <- ahead_length, A, app_length; lia).
  destruct (N.leb_spec (N.of_nat (length b)) (N.of_nat (free st))); [|lia].
  now rewrite Nat2N.id, A, firstn_app_len.
Qed.

Lemma chunks_pods ei w l : Forall (has_ty ei (TPod w)) l ->
  map VBytes (chunks w (length l) (concat (map vbytes l))) = l.
Proof.
  induction 1 as [|v l Hv Hl IH]; auto. cbn [length map concat chunks].
  destruct v; cbn [has_ty] in Hv; try contradiction. cbn [vbytes map]. subst w.
  rewrite firstn_app_len, skipn_app_len, IH. reflexivity.
Qed.

Section R.
Variable le ei : bool.
Variable sz : ty -> N.

Definition good_read (t : ty) : Prop := forall v v0 st rest, has_ty ei t v ->
  restorable t = true -> (v0 = default t \/ no_append t = true) -> steady st ->
  ahead st = enc le t v ++ rest -> (room le sz t v <= N.of_nat (free st))%N ->
  read le ei sz t v0 st = Ok (true, v, advance st (length (enc le t v))).

Lemma read_n_ok t' : good_read t' -> no_append t' = true -> restorable t' = true ->
  forall l v0 st rest, Forall (has_ty ei t') l -> steady st ->
  ahead st = concat (map (enc le t') l) ++ rest ->
  (fold_right (fun x r => N.max (room le sz t' x) (N.of_nat (length (enc le t' x)) + r)) 0 l <= N.of_nat (free st))%N ->
  read_n (read le ei sz t') (length l) v0 st = Ok (true, l, advance st (length (concat (map (enc le t') l)))).
Proof.
  intros IH NA RE l. induction l as [|v l IHl]; intros v0 st rest Hl S A R; cbn [length read_n map concat].
  - now rewrite advance_0.
  - inversion Hl as [|? ? Hv Hl']; subst. cbn [map concat fold_right] in A, R. rewrite <- app_assoc in A.
    rewrite (IH v v0 st _ Hv RE (or_intror NA) S A) by lia. cbn [bind].
    assert (L : length (enc le t' v) <= free st) by (rewrite <- ahead_length, A, app_length; lia).
    rewrite (IHl v _ rest Hl') ; [| now apply advance_steady | exact (ahead_step _ _ _ A) | rewrite advance_free; lia].
    cbn [bind]. now rewrite advance_add, app_length.
Qed.

Lemma pow32 n : (n < 2 ^ 32)%N -> (n < 256 ^ N.of_nat 4)%N.
Proof. intros H. exact H. Qed.

Lemma vlist_default t : vlist (default t) = [].
Proof. destruct t; reflexivity. Qed.

Lemma read_ok t : good_read t.
Proof.
  induction t as [|w| |w|n w|k|t' IH|t' IH|t' IH|a IHa b IHb]; intros v v0 st rest H RE NA S A R;
    destruct v as [|bs|na bs|l|x y]; cbn [has_ty] in H; try contradiction; cbn [read enc] in *.
  - simpl. now rewrite advance_0.
  - subst w. rewrite read_pod_spec by exact S.
    assert (L : length bs <= free st) by (rewrite <- ahead_length, A, app_length; lia).
    destruct (Nat.leb_spec (length bs) (free st)); [|lia]. cbn [bind]. now rewrite A, firstn_app_len.
  - rewrite <- app_assoc in A. rewrite (read_u_ok le 4 _ _ st S (pow32 _ H) A). cbn [bind].
    assert (L : 4 <= free st) by (rewrite <- ahead_length, A, app_length, host_bytes_length; lia).
    pose proof (ahead_step _ _ _ A) as A2. rewrite host_bytes_length in A2.
    rewrite (read_raw_ok bs rest) by (auto; now apply advance_steady). cbn [bind].
    now rewrite advance_add, app_length, host_bytes_length.
  - destruct H as [H1 H2]. rewrite <- app_assoc in A. rewrite (read_u_ok le 4 _ _ st S (pow32 _ H1) A). cbn [bind].
    assert (L : 4 <= free st) by (rewrite <- ahead_length, A, app_length, host_bytes_length; lia).
    pose proof (ahead_step _ _ _ A) as A2. rewrite host_bytes_length in A2.
    rewrite <- H2. rewrite (read_raw_ok bs rest) by (auto; now apply advance_steady). cbn [bind].
    now rewrite advance_add, app_length, host_bytes_length.
  - rewrite <- H. rewrite (read_raw_ok bs rest) by auto. reflexivity.
  - rewrite <- app_assoc in A.
    assert (H' : (N.of_nat (length bs) < 256 ^ N.of_nat k)%N) by (rewrite pow256; exact H).
    rewrite (read_u_ok le k _ _ st S H' A). cbn [bind].
    assert (L : k <= free st) by (rewrite <- ahead_length, A, app_length, host_bytes_length; lia).
    pose proof (ahead_step _ _ _ A) as A2. rewrite host_bytes_length in A2.
    rewrite (read_raw_ok bs rest) by (auto; now apply advance_steady). cbn [bind].
    now rewrite advance_add, app_length, host_bytes_length.
  - destruct H as (H1 & H2 & H3). rewrite <- app_assoc in A. rewrite (read_u_ok le 4 _ _ st S (pow32 _ H1) A). cbn [bind].
    assert (L : 4 <= free st) by (rewrite <- ahead_length, A, app_length, host_bytes_length; lia).
    pose proof (ahead_step _ _ _ A) as A2. rewrite host_bytes_length in A2.
    cbn [room] in R. rewrite cap_ok by now apply advance_steady. rewrite advance_free.
    destruct (N.leb_spec (N.of_nat (length l) * sizeof sz t') (N.of_nat (free st - 4))) as [Lc|Gc]; [|lia].
    cbn [negb]. cbv zeta. rewrite Nat2N.id.
    cbn [restorable no_append] in RE. apply andb_prop in RE. destruct RE as [NA' RE'].
    assert (Gen : (' (b, l0, st2) <- read_n (read le ei sz t') (length l) (default t') (advance st 4) ;;
            Ok (b, VList (l0 ++ skipn (length l0) (vresize (length l) (default t') (vlist v0))), st2)) =
        Ok (true, VList l, advance st (length (host_bytes le 4 (N.of_nat (length l)) ++ concat (map (enc le t') l))))).
    { rewrite (read_n_ok t' IH NA' RE' l (default t') (advance st 4) rest) ; auto;
        [|now apply advance_steady|rewrite advance_free; lia].
      cbn [bind]. rewrite advance_add, app_length, host_bytes_length.
      rewrite skipn_all2, app_nil_r; [reflexivity|]. unfold vresize. rewrite app_length, firstn_length, repeat_length. lia. }
    destruct t' as [|w| |w|n w|k|t''|t''|t''|a b]; try exact Gen.
    assert (Hne : ei && (length l =? 0) = false).
    { destruct ei; auto. cbn [andb]. destruct l; [exfalso; apply H3; auto|reflexivity]. }
    rewrite Hne. cbn [sizeof] in *.
    pose proof (concat_vbytes_length ei w l H2) as CL. pose proof (enc_pods le ei w l H2) as EP.
    rewrite EP in A2 |- *. replace (w * length l) with (length (concat (map vbytes l))) by (rewrite CL; lia).
    rewrite get_ok; [| rewrite advance_free, CL; lia | now apply advance_steady].
    cbn [bind]. rewrite A2, firstn_app_len, (chunks_pods ei w l H2).
    now rewrite advance_add, app_length, host_bytes_length.
  - destruct H as (H1 & H2). rewrite <- app_assoc in A. rewrite (read_u_ok le 4 _ _ st S (pow32 _ H1) A). cbn [bind].
    assert (L : 4 <= free st) by (rewrite <- ahead_length, A, app_length, host_bytes_length; lia).
    pose proof (ahead_step _ _ _ A) as A2. rewrite host_bytes_length in A2.
    cbn [room] in R. rewrite cap_ok by now apply advance_steady. rewrite advance_free.
    destruct (N.leb_spec (N.of_nat (length l) * sizeof sz t') (N.of_nat (free st - 4))) as [Lc|Gc]; [|lia].
    cbn [negb]. rewrite Nat2N.id.
    cbn [restorable no_append] in RE, NA. apply andb_prop in RE. destruct RE as [NA' RE'].
    destruct NA as [-> | NA]; [|discriminate]. cbn [default vlist app].
    rewrite (read_n_ok t' IH NA' RE' l (default t') (advance st 4) rest) ; auto;
        [|now apply advance_steady|rewrite advance_free; lia].
    cbn [bind]. now rewrite advance_add, app_length, host_bytes_length.
  - destruct H as (H1 & H2). rewrite <- app_assoc in A. rewrite (read_u_ok le 4 _ _ st S (pow32 _ H1) A). cbn [bind].
    assert (L : 4 <= free st) by (rewrite <- ahead_length, A, app_length, host_bytes_length; lia).
    pose proof (ahead_step _ _ _ A) as A2. rewrite host_bytes_length in A2.
    cbn [room] in R. rewrite cap_ok by now apply advance_steady. rewrite advance_free.
    destruct (N.leb_spec (N.of_nat (length l) * sizeof sz t') (N.of_nat (free st - 4))) as [Lc|Gc]; [|lia].
    cbn [negb]. rewrite Nat2N.id.
    cbn [restorable no_append] in RE, NA. apply andb_prop in RE. destruct RE as [NA' RE'].
    destruct NA as [-> | NA]; [|discriminate]. cbn [default vlist app].
    rewrite (read_n_ok t' IH NA' RE' l (default t') (advance st 4) rest) ; auto;
        [|now apply advance_steady|rewrite advance_free; lia].
    cbn [bind]. now rewrite advance_add, app_length, host_bytes_length.
  - destruct H as (H1 & H2). rewrite <- app_assoc in A. cbn [restorable no_append] in RE, NA. cbn [room] in R.
    apply andb_prop in RE. destruct RE as [RE1 RE2].
    assert (L : length (enc le a x) <= free st) by (rewrite <- ahead_length, A, app_length; lia).
    assert (Gen : forall va vb, (va = default a \/ no_append a = true) -> (vb = default b \/ no_append b = true) ->
      (' (r, va1, st1) <- read le ei sz a va st;;
       (if r then ' (r2, vb1, st2) <- read le ei sz b vb st1 ;; Ok (r2, VPair va1 vb1, st2)
        else Ok (false, VPair va1 vb, st1)))
      = Ok (true, VPair x y, advance st (length (enc le a x ++ enc le b y)))).
    { intros va vb Da Db. rewrite (IHa x va st _ H1 RE1 Da S A) by lia. cbn [bind].
      rewrite (IHb y vb (advance st (length (enc le a x))) rest H2 RE2 Db);
        [| now apply advance_steady | exact (ahead_step _ _ _ A) | rewrite advance_free; lia].
      cbn [bind]. now rewrite advance_add, app_length. }
    destruct NA as [-> | NA].
    + cbn [default]. apply Gen; now left.
    + apply andb_prop in NA. destruct NA as [N1 N2].
      destruct v0; apply Gen; now right.
Qed.

(* safety: any bytes whatsoever *)
Definition safe_read (t : ty) : Prop := forall v0 st, steady st ->
  holds (read le ei sz t v0 st) (fun x => exists n, n <= free st /\ snd x = advance st n).

Lemma safe_read_n t' : safe_read t' -> forall n v0 st, steady st ->
  holds (read_n (read le ei sz t') n v0 st) (fun x => exists n, n <= free st /\ snd x = advance st n).
Proof.
  intros IH n. induction n as [|n IHn]; intros v0 st S; cbn [read_n].
  - exists 0. split; [lia|]. now rewrite advance_0.
  - eapply holds_bind2; [apply IH; exact S|]. intros [[b t1] st1] (k & Hk & E). cbn [snd] in E. subst st1.
    destruct b; [|exists k; auto].
    eapply holds_bind2; [apply IHn; now apply advance_steady|]. intros [[b2 l] st2] (k2 & Hk2 & E2). cbn [snd] in E2. subst st2.
    rewrite advance_free in Hk2. exists (k + k2). split; [lia|]. cbn [snd]. now rewrite advance_add.
Qed.

Lemma safe_u (w : nat) st (K : option N -> bst -> outcome (bool * val * bst)) : steady st ->
  (forall st1, holds (K None st1) (fun x => snd x = st1)) ->
  (forall n st1, steady st1 -> holds (K (Some n) st1) (fun x => exists n, n <= free st1 /\ snd x = advance st1 n)) ->
  holds (' (o, st1) <- read_u le w st ;; K o st1) (fun x => exists n, n <= free st /\ snd x = advance st n).
Proof.
  intros S HN HK. rewrite read_u_spec by exact S. destruct (Nat.leb_spec w (free st)) as [L|G]; cbn [bind].
  - eapply holds_weaken; [apply HK; now apply advance_steady|]. cbn beta. intros x (n & Hn & E).
    rewrite advance_free in Hn. rewrite advance_add in E. exists (w + n). split; [lia|exact E].
  - eapply holds_weaken; [apply HN|]. cbn beta. intros x E. exists 0. split; [lia|]. now rewrite advance_0.
Qed.

Lemma safe_raw raw st (K : option (list ascii) -> bst -> outcome (bool * val * bst)) : steady st ->
  (forall o st1, holds (K o st1) (fun x => snd x = st1)) ->
  holds (' (o, st1) <- read_raw raw st ;; K o st1) (fun x => exists n, n <= free st /\ snd x = advance st n).
Proof.
  intros S HK. rewrite read_raw_spec by exact S. destruct (N.leb_spec raw (N.of_nat (free st))) as [L|G]; cbn [bind].
  - eapply holds_weaken; [apply HK|]. cbn beta. intros x E. exists (N.to_nat raw). split; [lia|exact E].
  - eapply holds_weaken; [apply HK|]. cbn beta. intros x E. exists 0. split; [lia|]. now rewrite advance_0.
Qed.

Lemma read_safe t : (ei = false \/ pod_vec_free t = true) -> safe_read t.
Proof.
  induction t as [|w| |w|n w|k|t' IH|t' IH|t' IH|a IHa b IHb]; intros HE v0 st S; cbn [read].
  - exists 0. split; [lia|]. now rewrite advance_0.
  - rewrite read_pod_spec by exact S. destruct (Nat.leb_spec w (free st)); cbn [bind holds].
    + exists w. auto.
    + exists 0. split; [lia|]. now rewrite advance_0.
  - apply (safe_u 4 st (fun o st1 => match o with None => _ | Some len => _ end)); auto.
    + intros; reflexivity.
    + intros len st1 S1. apply (safe_raw len st1 (fun r st2 => match r with Some b => _ | None => _ end)); auto.
      intros [b|] st2; reflexivity.
  - apply (safe_u 4 st (fun o st1 => match o with None => _ | Some len => _ end)); auto.
    + intros; reflexivity.
    + intros len st1 S1. apply (safe_raw (len * N.of_nat w) st1 (fun r st2 => match r with Some b => _ | None => _ end)); auto.
      intros [b|] st2; reflexivity.
  - apply (safe_raw (N.of_nat (n * w)) st (fun r st2 => match r with Some b => _ | None => _ end)); auto.
    intros [b|] st2; reflexivity.
  - apply (safe_u k st (fun o st1 => match o with None => _ | Some len => _ end)); auto.
    + intros; reflexivity.
    + intros len st1 S1. apply (safe_raw len st1 (fun r st2 => match r with Some b => _ | None => _ end)); auto.
      intros [b|] st2; reflexivity.
  - apply (safe_u 4 st (fun o st1 => match o with None => _ | Some len => _ end)); auto.
    + intros; reflexivity.
    + intros len st1 S1. rewrite cap_ok by exact S1.
      destruct (N.leb_spec (len * sizeof sz t') (N.of_nat (free st1))) as [L|G]; cbn [negb].
      2:{ exists 0. split; [lia|]. now rewrite advance_0. }
      cbv zeta.
      assert (HE' : ei = false \/ pod_vec_free t' = true).
      { destruct HE as [HE|HE]; auto. right. cbn [pod_vec_free] in HE. now apply andb_prop in HE. }
      assert (Gen : holds (' (b, l, st2) <- read_n (read le ei sz t') (N.to_nat len) (default t') st1 ;;
           Ok (b, VList (l ++ skipn (length l) (vresize (N.to_nat len) (default t') (vlist v0))), st2))
           (fun x => exists n, n <= free st1 /\ snd x = advance st1 n)).
      { eapply holds_bind2; [apply safe_read_n; auto|]. intros [[b l] st2] (n & Hn & E). exists n. auto. }
      destruct t' as [|w| |w|n w|k|t''|t''|t''|a b]; try exact Gen.
      destruct HE as [-> | HE]; [|discriminate]. cbn [andb sizeof] in *.
      rewrite get_ok by (auto; lia). cbn [bind holds]. exists (w * N.to_nat len). split; [lia|reflexivity].
  - apply (safe_u 4 st (fun o st1 => match o with None => _ | Some len => _ end)); auto.
    + intros; reflexivity.
    + intros len st1 S1. rewrite cap_ok by exact S1.
      destruct (N.leb_spec (len * sizeof sz t') (N.of_nat (free st1))) as [L|G]; cbn [negb].
      2:{ exists 0. split; [lia|]. now rewrite advance_0. }
      eapply holds_bind2; [apply safe_read_n; auto|]. intros [[b l] st2] (n & Hn & E). exists n. auto.
  - apply (safe_u 4 st (fun o st1 => match o with None => _ | Some len => _ end)); auto.
    + intros; reflexivity.
    + intros len st1 S1. rewrite cap_ok by exact S1.
      destruct (N.leb_spec (len * sizeof sz t') (N.of_nat (free st1))) as [L|G]; cbn [negb].
      2:{ exists 0. split; [lia|]. now rewrite advance_0. }
      eapply holds_bind2; [apply safe_read_n; auto|]. intros [[b l] st2] (n & Hn & E). exists n. auto.
  - assert (HEa : ei = false \/ pod_vec_free a = true).
    { destruct HE as [HE|HE]; auto. right. cbn [pod_vec_free] in HE. now apply andb_prop in HE. }
    assert (HEb : ei = false \/ pod_vec_free b = true).
    { destruct HE as [HE|HE]; auto. right. cbn [pod_vec_free] in HE. now apply andb_prop in HE. }
    destruct (match v0 with VPair x y => (x, y) | _ => (default a, default b) end) as [va vb].
    eapply holds_bind2; [apply IHa; auto|]. intros [[r va1] st1] (n & Hn & E). cbn [snd] in E. subst st1.
    destruct r; [|exists n; auto].
    eapply holds_bind2; [apply IHb; auto; now apply advance_steady|]. intros [[r2 vb1] st2] (n2 & Hn2 & E2).
    cbn [snd] in E2. subst st2. rewrite advance_free in Hn2. exists (n + n2). split; [lia|]. cbn [snd]. now rewrite advance_add.
Qed.

End R.
