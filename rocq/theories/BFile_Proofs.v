(* Proofs about saving and loading Bloom filters. *)
From Verif Require Import Base Binary_Model Binary_Spec Endian_Proofs Binary_Proofs Binary_Proofs2 Binary_Proofs3
  Bloom_Model IO_Model BFile_Model BFile_Spec.
Local Open Scope nat_scope.

(* ---------------- what is written ---------------- *)
(* the members with the table cut to its 32-bit length *)
Definition cut (f : filter) (t : list N) : list N := firstn (N.to_nat (Bloom_Model.u32 (raw_table_size f))) t.

Lemma members_has_ty le f d t : typed f d -> in_use f t ->
  Forall (fun x => has_ty true (fst x) (snd x)) (members le f d (cut f t)).
Proof.
  intros T I. pose proof (iu_salts f t I) as Hs. pose proof (iu_some f t I) as H1. pose proof (ty_count f d T) as H2.
  repeat (apply Forall_cons; [cbn [fst snd has_ty]; try (rewrite store_host; apply host_bytes_length); try apply (ty_fpp f d T)|]); [..|apply Forall_nil].
  - rewrite map_length. split; [lia|]. split.
    + apply Forall_map, Forall_forall. intros s _. cbn [has_ty]. rewrite store_host. apply host_bytes_length.
    + intros _ _ E. apply map_eq_nil in E. rewrite E in Hs. cbn in Hs. lia.
  - pose proof (N.mod_lt (raw_table_size f) (2 ^ 32)) as Hm. unfold Bloom_Model.u32 in *. split; [apply Hm; discriminate|].
    pose proof (iu_length f t I) as Hl. pose proof (N.mod_le (raw_table_size f) (2 ^ 32)) as Hle.
    rewrite map_length. unfold cut, Bloom_Model.u32. rewrite firstn_length. lia.
Qed.

Lemma members_flat le f d t : Forall (fun x => flat (fst x) = true) (members le f d t).
Proof. repeat constructor. Qed.

(* only the first [u32 raw] bytes of the table are looked at *)
Lemma write_arr_cut le ei sz n b st : (n <= N.of_nat (length b))%N ->
  write le ei sz (TArr 1) (VArr n b) st = write le ei sz (TArr 1) (VArr n (firstn (N.to_nat n) b)) st.
Proof.
  intros H. cbn [write]. destruct (write_pod (store le 4 n) st) as [[r st1]| |]; cbn [bind]; auto.
  destruct r; auto. unfold write_raw. rewrite firstn_length. replace (n * N.of_nat 1)%N with n by lia.
  replace (N.of_nat (Nat.min (N.to_nat n) (length b)) <? n)%N with (N.of_nat (length b) <? n)%N
    by (destruct (N.ltb_spec (N.of_nat (length b)) n); symmetry; [apply N.ltb_lt|apply N.ltb_ge]; lia).
  now rewrite firstn_firstn, Nat.min_id.
Qed.

Lemma write_fields_cut le ei sz f d t st : (Bloom_Model.u32 (raw_table_size f) <= N.of_nat (length t))%N ->
  write_fields le ei sz (members le f d t) st = write_fields le ei sz (members le f d (cut f t)) st.
Proof.
  intros H. unfold members. cbn [write_fields].
  repeat (match goal with |- bind ?a _ = bind ?a _ => destruct a as [[[|] ?]| |] end; cbn [bind]; auto).
  rewrite write_arr_cut by now rewrite map_length. now rewrite firstn_map.
Qed.

Lemma enc_members le f d t : (N.of_nat (length (salt f)) < 2 ^ 32)%N -> enc_fields le (members le f d t) =
  host_bytes le 4 (salt_count f) ++ host_bytes le 8 (tsize f) ++ host_bytes le 8 (raw_table_size f) ++
  host_bytes le 8 (projected_count f) ++ host_bytes le 4 (inserted_count f) ++ host_bytes le 8 (seed f) ++
  d ++
  host_bytes le 4 (N.of_nat (length (salt f))) ++ concat (map (host_bytes le 4) (salt f)) ++
  host_bytes le 4 (Bloom_Model.u32 (raw_table_size f)) ++ map ascii_of_N t.
Proof.
  intros H. unfold enc_fields, members. cbn [map concat fst snd enc]. rewrite !store_host, map_length, map_map, app_nil_r.
  cbn [enc]. rewrite <- !app_assoc. do 8 f_equal. f_equal. f_equal.
  apply map_ext. intros s. apply store_host.
Qed.

Lemma image_eq le f d t : (raw_table_size f < 2 ^ 32)%N -> in_use f t -> typed f d ->
  enc_fields le (members le f d (cut f t)) = file_image le f d t /\ cut f t = t.
Proof.
  intros H I T. assert (E : cut f t = t).
  { unfold cut, Bloom_Model.u32. rewrite N.mod_small by exact H. apply firstn_all2. pose proof (iu_length f t I). lia. }
  split; [|exact E]. rewrite E, enc_members.
  - unfold Bloom_Model.u32. rewrite N.mod_small by exact H. reflexivity.
  - pose proof (iu_salts f t I). pose proof (ty_count f d T). lia.
Qed.

Lemma concat_host_length le w l : length (concat (map (host_bytes le w) l)) = w * length l.
Proof. induction l as [|x l IH]; cbn [map concat length]; [lia|]. rewrite app_length, host_bytes_length, IH. lia. Qed.

Lemma write_members le f d t : typed f d -> in_use f t ->
  let st := start (repeat "000"%char (N.to_nat (buffer_size f))) in
  write_fields le true no_class (members le f d t) (Binary_Model.clear st) =
    Ok (true, after st (enc_fields le (members le f d (cut f t)))).
Proof.
  intros T I st.
  assert (Hc : Binary_Model.clear st = st) by (unfold Binary_Model.clear, st, start; cbn; now rewrite repeat_length).
  rewrite Hc. pose proof (iu_length f t I) as Hl. pose proof (N.mod_le (raw_table_size f) (2 ^ 32)) as Hm.
  rewrite write_fields_cut by (unfold Bloom_Model.u32; lia).
  destruct (write_fields_ok le true no_class (members le f d (cut f t)) st (members_has_ty le f d t T I) (start_steady _)) as [_ E]; [|exact E].
  rewrite (room_fields_flat le no_class true _ (members_has_ty le f d t T I) (members_flat le f d _)).
  pose proof (iu_salts f t I) as Hs. pose proof (ty_count f d T) as Ht. pose proof (ty_fpp f d T) as Hd.
  rewrite enc_members by lia. unfold st. rewrite start_free, repeat_length. unfold buffer_size, cut, Bloom_Model.u32.
  rewrite !app_length, !host_bytes_length, concat_host_length, map_length, firstn_length. lia.
Qed.

Lemma write_file_ok le fs n f d t : typed f d -> in_use f t -> f_write fs n = true ->
  write_to_file le true fs n f d =
    Ok (true, IO_Model.append (set_file fs n (Some [])) n (enc_fields le (members le f d (cut f t)))).
Proof.
  intros T I W. unfold write_to_file. pose proof (iu_size f t I) as Hz.
  destruct (N.eqb_spec 0 (tsize f)); [lia|]. unfold open_out. rewrite W. cbn [negb].
  unfold table. rewrite (iu_table f t I). cbn [bind]. cbv zeta. rewrite write_members by auto. cbn [bind].
  do 3 f_equal. cbn [after amt start buf cur plus firstn app]. apply firstn_app_len.
Qed.

(* a table shorter than its length field says *)
Lemma write_fields_app le ei sz l1 l2 st : write_fields le ei sz (l1 ++ l2) st =
  ' (r, st1) <- write_fields le ei sz l1 st ;; if (r : bool) then write_fields le ei sz l2 st1 else Ok (false, st1).
Proof.
  revert st. induction l1 as [|[t v] l1 IH]; intros st; cbn [app write_fields bind]; auto.
  destruct (write le ei sz t v st) as [[[|] st1]| |]; cbn [bind]; auto.
Qed.

Definition heads (le : bool) (f : filter) (d : fpp) : list (ty * val) := firstn 8 (members le f d []).
Lemma heads_has_ty le f d : typed f d -> N.of_nat (length (salt f)) = salt_count f -> (0 < salt_count f)%N ->
  Forall (fun x => has_ty true (fst x) (snd x)) (heads le f d).
Proof.
  intros T Hs H1. pose proof (ty_count f d T) as H2.
  repeat (apply Forall_cons; [cbn [fst snd has_ty]; try (rewrite store_host; apply host_bytes_length); try apply (ty_fpp f d T)|]); [..|apply Forall_nil].
  rewrite map_length. split; [lia|]. split.
  - apply Forall_map, Forall_forall. intros s _. cbn [has_ty]. rewrite store_host. apply host_bytes_length.
  - intros _ _ E. apply map_eq_nil in E. rewrite E in Hs. cbn in Hs. lia.
Qed.

Lemma write_short le fs n f d t : typed f d -> N.of_nat (length (salt f)) = salt_count f -> (0 < salt_count f)%N ->
  (0 < tsize f)%N -> bit_table f = Some t -> (N.of_nat (length t) < Bloom_Model.u32 (raw_table_size f))%N ->
  f_write fs n = true -> write_to_file le true fs n f d = UB.
Proof.
  intros T Hs H1 Hz Ht Hl W. unfold write_to_file. destruct (N.eqb_spec 0 (tsize f)); [lia|].
  unfold open_out. rewrite W. cbn [negb]. unfold table. rewrite Ht. cbn [bind]. cbv zeta.
  set (st := start (repeat "000"%char (N.to_nat (buffer_size f)))).
  assert (Hc : Binary_Model.clear st = st) by (unfold Binary_Model.clear, st, start; cbn; now rewrite repeat_length).
  rewrite Hc. change (members le f d t) with (heads le f d ++ [(TArr 1, VArr (Bloom_Model.u32 (raw_table_size f)) (map ascii_of_N t))]).
  rewrite write_fields_app.
  assert (L8 : length (enc_fields le (heads le f d)) = 52 + 4 * length (salt f)).
  { unfold enc_fields, heads, members. cbn [firstn map concat fst snd enc].
    rewrite !store_host, map_length, map_map, !app_length, !host_bytes_length, (ty_fpp f d T). cbn [enc].
    rewrite (map_ext _ (host_bytes le 4)) by (intros s; apply store_host). rewrite concat_host_length. cbn [length]. lia. }
  pose proof (heads_has_ty le f d T Hs H1) as Hh.
  assert (Hf : free st = N.to_nat (buffer_size f)) by (unfold st; now rewrite start_free, repeat_length).
  pose proof (N.mod_le (raw_table_size f) (2 ^ 32)) as Hm. pose proof (N.mod_lt (raw_table_size f) (2 ^ 32)) as Hm2.
  destruct (write_fields_ok le true no_class (heads le f d) st Hh (start_steady _)) as [L E].
  { rewrite (room_fields_flat le no_class true _ Hh); [|repeat constructor]. rewrite L8, Hf. unfold buffer_size. lia. }
  rewrite E. cbn [bind write_fields]. assert (S1 : steady (after st (enc_fields le (heads le f d)))) by (apply after_steady; auto; apply start_steady).
  cbn [write]. unfold Bloom_Model.u32 in *.
  rewrite write_pod_spec by exact S1. rewrite store_host, host_bytes_length.
  assert (F1 : free (after st (enc_fields le (heads le f d))) = N.to_nat (buffer_size f) - (52 + 4 * length (salt f)))
    by (rewrite after_free by (auto; apply start_steady); lia).
  unfold buffer_size in F1. destruct (Nat.leb_spec 4 (free (after st (enc_fields le (heads le f d))))); [|lia]. cbn [bind].
  unfold write_raw. rewrite cap_ok by (apply after_steady; [exact S1|rewrite host_bytes_length; lia]).
  rewrite after_free by (auto; rewrite host_bytes_length; lia). rewrite host_bytes_length, F1.
  destruct (N.leb_spec (raw_table_size f mod 2 ^ 32 * N.of_nat 1)
    (N.of_nat (N.to_nat (4 + 8 + 8 + 8 + 4 + 8 + 8 + salt_count f * 4 + raw_table_size f * 1 + 64) -
               (52 + 4 * length (salt f)) - 4))) as [C|C]; [|lia]. cbn [negb].
  rewrite map_length. destruct (N.ltb_spec (N.of_nat (length t)) (raw_table_size f mod 2 ^ 32 * N.of_nat 1)); [reflexivity|lia].
Qed.

(* ---------------- what is read ---------------- *)
Definition field_types : list ty := [TPod 4; TPod 8; TPod 8; TPod 8; TPod 4; TPod 8; TPod 8; TVec (TPod 4); TArr 1].

Lemma read_file_eq le ei c fs n g d : can_open fs n = true -> bit_table g <> None ->
  read_from_file le ei c fs n g d =
    ' (result, vs, _) <- read_fields le ei no_class field_types (start (contents fs n)) ;;
    Ok (result : bool, loaded le vs (if c then sizes g else [pod_at le vs 1]), loaded_fpp vs).
Proof.
  intros H Hg. unfold read_from_file. rewrite H. cbn [negb]. unfold table.
  destruct (bit_table g); [|contradiction]. cbn [bind]. cbv zeta. unfold load_stream, file_size. rewrite H.
  cbn [Binary_Model.clear start buf]. rewrite !repeat_length, N.ltb_irrefl. cbn [cur amt marks].
  rewrite Nat2N.id, firstn_all, skipn_all2 by (rewrite repeat_length; lia). rewrite app_nil_r. reflexivity.
Qed.

Lemma bytes_back t : Forall (fun c => (c < 256)%N) t -> map N_of_ascii (map ascii_of_N t) = t.
Proof. intros H. rewrite map_map. rewrite <- (map_id t) at 2. apply map_ext_in. intros c Hc.
  apply N_ascii_embedding. rewrite Forall_forall in H. auto. Qed.

Lemma salts_back le l : Forall (fun s => (s < 2 ^ 32)%N) l ->
  map (fun v => load le (vbytes v)) (map (fun s => VBytes (store le 4 s)) l) = l.
Proof.
  intros H. rewrite map_map. rewrite <- (map_id l) at 2. apply map_ext_in. intros s Hs. cbn [vbytes].
  rewrite store_host. apply load_host. rewrite Forall_forall in H. apply (H s Hs).
Qed.

Definition reloaded (f : filter) (t : list N) (sz : list N) : filter :=
  Filter (salt f) (Some t) (salt_count f) (tsize f) (Bloom_Model.u32 (raw_table_size f))
         (projected_count f) (inserted_count f) (seed f) sz.

Lemma loaded_members le f d t sz : typed f d -> Forall (fun c => (c < 256)%N) t ->
  loaded le (map snd (members le f d t)) sz = reloaded f t sz /\ loaded_fpp (map snd (members le f d t)) = d /\
  pod_at le (map snd (members le f d t)) 1 = tsize f.
Proof.
  intros T Hb. destruct T.
  assert (H4 : forall v, (v < 2 ^ 32)%N -> load le (store le 4 v) = v)
    by (intros v Hv; rewrite store_host; apply load_host; exact Hv).
  assert (H8 : forall v, (v < 2 ^ 64)%N -> load le (store le 8 v) = v)
    by (intros v Hv; rewrite store_host; apply load_host; exact Hv).
  unfold loaded, loaded_fpp, pod_at, reloaded, members. cbn [map snd nth_error].
  rewrite salts_back by assumption. rewrite bytes_back by exact Hb. rewrite !H4, !H8 by assumption. auto.
Qed.

Lemma read_file_ok le c fs n f d t g d' rest : typed f d -> in_use f t -> can_open fs n = true ->
  contents fs n = enc_fields le (members le f d (cut f t)) ++ rest -> bit_table g <> None ->
  read_from_file le true c fs n g d' =
    Ok (true, reloaded f (cut f t) (if c then sizes g else [tsize f]), d).
Proof.
  intros T I Ho E Hg. rewrite read_file_eq by assumption. rewrite E.
  pose proof (members_has_ty le f d t T I) as Hh.
  assert (HR : Forall (fun f => restorable (fst f) = true) (members le f d (cut f t)))
    by (eapply Forall_impl; [|apply members_flat]; intros x; apply flat_restorable).
  change field_types with (map fst (members le f d (cut f t))).
  rewrite (read_fields_ok le true no_class _ _ rest Hh (start_steady _) HR eq_refl).
  - cbn [bind]. destruct (loaded_members le f d (cut f t) (if c then sizes g else [tsize f]) T) as (A & B & C).
    { apply Forall_forall. intros x Hx. pose proof (iu_bytes f t I) as Hb. rewrite Forall_forall in Hb. apply Hb.
      unfold cut in Hx. rewrite <- (firstn_skipn (N.to_nat (Bloom_Model.u32 (raw_table_size f))) t). apply in_or_app. auto. }
    rewrite C, A, B. reflexivity.
  - rewrite (room_fields_flat le no_class true _ Hh (members_flat le f d _)), start_free, app_length. lia.
Qed.

(* ---------------- truncated files ---------------- *)
Section Trunc.
Variable le : bool.
Definition truncatable (t : ty) (v : val) : Prop := forall v0 st q, steady st -> q <> [] ->
  enc le t v = ahead st ++ q -> exists v' st', read le true no_class t v0 st = Ok (false, v', st').

Lemma short st q e : ahead st ++ q = e -> q <> [] -> free st < length e.
Proof. intros <- Hq. rewrite app_length, <- ahead_length. destruct q; [contradiction|cbn; lia]. Qed.

Lemma trunc_pod w b : length b = w -> truncatable (TPod w) (VBytes b).
Proof.
  intros Hb v0 st q S Hq E. cbn [enc] in E. pose proof (short _ _ _ (eq_sym E) Hq) as L. cbn [read].
  rewrite read_pod_spec by exact S. destruct (Nat.leb_spec w (free st)); [lia|]. cbn [bind]. eauto.
Qed.

(* a 4-byte count and that many bytes *)
Lemma trunc_count n b st q : (n < 2 ^ 32)%N -> host_bytes le 4 n ++ b = ahead st ++ q -> steady st -> q <> [] ->
  read_u le 4 st = Ok (None, st) \/
  (read_u le 4 st = Ok (Some n, advance st 4) /\ steady (advance st 4) /\ free (advance st 4) < length b).
Proof.
  intros Hn E S Hq. pose proof (short _ _ _ (eq_sym E) Hq) as L. rewrite app_length, host_bytes_length in L.
  destruct (Nat.leb_spec 4 (free st)) as [L4|L4].
  - right. split; [|split; [now apply advance_steady|rewrite advance_free; lia]].
    apply (read_u_ok le 4 n (skipn 4 (ahead st)) st S Hn).
    rewrite <- (firstn_skipn 4 (ahead st)) at 1. f_equal.
    apply (f_equal (firstn 4)) in E. rewrite !firstn_app, host_bytes_length, ahead_length in E.
    replace (4 - free st) with 0 in E by lia. rewrite Nat.sub_diag, !firstn_O, !app_nil_r in E.
    rewrite firstn_all2 in E by (rewrite host_bytes_length; lia). symmetry. exact E.
  - left. rewrite read_u_spec by exact S. destruct (Nat.leb_spec 4 (free st)); [lia|reflexivity].
Qed.

Lemma trunc_vec l : (N.of_nat (length l) < 2 ^ 32)%N -> Forall (has_ty true (TPod 4)) l -> truncatable (TVec (TPod 4)) (VList l).
Proof.
  intros Hn Hl v0 st q S Hq E. cbn [enc] in E.
  destruct (trunc_count _ _ _ _ Hn E S Hq) as [E1|(E1 & S1 & L)]; cbn [read]; rewrite E1; cbn [bind]; eauto.
  fold (enc le) in L. change (fun v => match v with VBytes b => b | _ => [] end) with (enc le (TPod 4)) in L.
  rewrite (enc_pods le true 4) in L by exact Hl. rewrite (concat_vbytes_length true 4) in L by exact Hl.
  rewrite cap_ok by exact S1. cbn [sizeof].
  destruct (N.leb_spec (N.of_nat (length l) * N.of_nat 4) (N.of_nat (free (advance st 4)))) as [C|C]; [lia|]. cbn [negb]. eauto.
Qed.

Lemma trunc_arr n b : (n < 2 ^ 32)%N -> N.of_nat (length b) = n -> truncatable (TArr 1) (VArr n b).
Proof.
  intros Hn Hb v0 st q S Hq E. cbn [enc] in E.
  destruct (trunc_count _ _ _ _ Hn E S Hq) as [E1|(E1 & S1 & L)]; cbn [read]; rewrite E1; cbn [bind]; eauto.
  rewrite read_raw_spec by exact S1.
  destruct (N.leb_spec (n * N.of_nat 1) (N.of_nat (free (advance st 4)))) as [C|C]; [lia|]. cbn [bind]. eauto.
Qed.

Lemma trunc_fields l : forall st q, Forall (fun x => has_ty true (fst x) (snd x)) l ->
  Forall (fun x => flat (fst x) = true) l ->
  Forall (fun x => truncatable (fst x) (snd x)) l ->
  steady st -> q <> [] -> enc_fields le l = ahead st ++ q ->
  exists k st', k < length l /\ read_fields le true no_class (map fst l) st = Ok (false, map snd (firstn k l), st').
Proof.
  induction l as [|[t v] l IH]; intros st q Hh Hf Ht S Hq E.
  - destruct (ahead st); [destruct q; [contradiction|discriminate]|discriminate].
  - inversion Hh as [|? ? Hv Hl]; subst. inversion Hf as [|? ? Fv Fl]; subst. inversion Ht as [|? ? Tv Tl]; subst.
    cbn [fst snd] in *. unfold enc_fields in E. cbn [map concat fst snd] in E. fold (enc_fields le l) in E.
    cbn [map fst read_fields].
    destruct (Nat.leb_spec (length (enc le t v)) (free st)) as [L|L].
    + assert (A : ahead st = enc le t v ++ skipn (length (enc le t v)) (ahead st)).
      { rewrite <- (firstn_skipn (length (enc le t v)) (ahead st)) at 1. f_equal.
        apply (f_equal (firstn (length (enc le t v)))) in E. rewrite firstn_app_len, firstn_app in E.
        rewrite ahead_length in E. replace (length (enc le t v) - free st) with 0 in E by lia.
        rewrite firstn_O, app_nil_r in E. now symmetry. }
      assert (E2 : enc_fields le l = ahead (advance st (length (enc le t v))) ++ q).
      { rewrite advance_ahead. rewrite A, <- app_assoc in E. now apply app_inv_head in E. }
      rewrite (read_ok le true no_class t v (default t) st _ Hv (flat_restorable t Fv) (or_introl eq_refl) S A).
      2:{ rewrite (room_flat le no_class t true v Fv Hv). lia. }
      cbn [bind]. destruct (IH _ q Hl Fl Tl (advance_steady _ _ S L) Hq E2) as (k & st' & Hk & ->). cbn [bind].
      exists (k + 1), st'. rewrite Nat.add_1_r. split; [cbn; lia|reflexivity].
    + assert (A : enc le t v = ahead st ++ firstn (length (enc le t v) - free st) q).
      { apply (f_equal (firstn (length (enc le t v)))) in E. rewrite firstn_app_len, firstn_app in E.
        rewrite ahead_length in E. rewrite firstn_all2 in E by (rewrite ahead_length; lia). exact E. }
      assert (Hne : firstn (length (enc le t v) - free st) q <> []).
      { intros H. apply (f_equal (@length ascii)) in A. rewrite H, app_length, ahead_length in A. cbn in A. lia. }
      destruct (Tv (default t) st _ S Hne A) as (v' & st' & ->).
      cbn [bind]. exists 0, st'. split; [cbn; lia|reflexivity].
Qed.
End Trunc.

Lemma members_trunc le f d t : typed f d -> in_use f t ->
  Forall (fun x => truncatable le (fst x) (snd x)) (members le f d (cut f t)).
Proof.
  intros T I. pose proof (members_has_ty le f d t T I) as Hh. unfold members in *.
  assert (P : forall w b, has_ty true (TPod w) (VBytes b) -> truncatable le (TPod w) (VBytes b)) by (intros w b H; now apply trunc_pod).
  repeat match goal with H : Forall _ (_ :: _) |- _ => apply Forall_cons_iff in H; destruct H end. cbn [fst snd] in *.
  repeat (apply Forall_cons; [cbn [fst snd]; try (apply P; assumption)|]); [..|apply Forall_nil].
  - match goal with H : has_ty true (TVec _) _ |- _ => destruct H as (A & B & _) end. now apply trunc_vec.
  - match goal with H : has_ty true (TArr _) _ |- _ => destruct H as (A & B) end. apply trunc_arr; [exact A|lia].
Qed.

Lemma read_truncated le c fs n f d t g d' q : typed f d -> in_use f t -> can_open fs n = true ->
  enc_fields le (members le f d (cut f t)) = contents fs n ++ q -> q <> [] -> bit_table g <> None ->
  exists k, k < 9 /\
  read_from_file le true c fs n g d' =
    Ok (false, loaded le (map snd (firstn k (members le f d (cut f t))))
                 (if c then sizes g else [pod_at le (map snd (firstn k (members le f d (cut f t)))) 1]),
        loaded_fpp (map snd (firstn k (members le f d (cut f t))))).
Proof.
  intros T I Ho E Hq Hg.
  destruct (trunc_fields le (members le f d (cut f t)) (start (contents fs n)) q (members_has_ty le f d t T I)
    (members_flat le f d _) (members_trunc le f d t T I) (start_steady _) Hq E) as (k & st' & Hk & Er).
  exists k. split; [exact Hk|]. rewrite read_file_eq by assumption. change field_types with (map fst (members le f d (cut f t))).
  rewrite Er. reflexivity.
Qed.

(* any contents at all, when v[0] on an empty vector does no harm *)
Lemma read_any le c fs n g d : bit_table g <> None ->
  holds (read_from_file le false c fs n g d) (fun _ => True).
Proof.
  intros Hg. destruct (can_open fs n) eqn:Ho.
  - rewrite read_file_eq by assumption.
    assert (R : forall l st, steady st -> holds (read_fields le false no_class l st) (fun _ => True)).
    { induction l as [|t l IH]; intros st S; cbn [read_fields]; [exact I|].
      eapply holds_bind2; [apply (read_safe le false no_class t (or_introl eq_refl)); exact S|].
      intros [[r v] st1] (k & Hk & Es). cbn [snd] in Es. subst st1. destruct r; [|exact I].
      eapply holds_bind2; [apply IH; now apply advance_steady|]. intros [[r2 vs] st2] _. exact I. }
    eapply holds_bind2; [apply R, start_steady|]. intros [[r vs] st'] _. exact I.
  - unfold read_from_file. rewrite Ho. exact I.
Qed.
