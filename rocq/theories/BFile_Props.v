(* Properties C91-C92: saving a Bloom filter to a file and loading it. *)
From Verif Require Import Base Binary_Model Binary_Spec Endian_Proofs Binary_Proofs Binary_Proofs2 Binary_Proofs3
  Bloom_Model Bloom_Spec Bloom_Proofs IO_Model BFile_Model BFile_Spec BFile_Proofs BFile_Proofs2.
Local Open Scope N_scope.

Lemma appended fs n (d : list ascii) : let fs' := IO_Model.append (set_file fs n (Some [])) n d in
  f_data fs' n = Some d /\ contents fs' n = d /\ (f_read fs n = true -> can_open fs' n = true) /\
  (forall m, m <> n -> f_data fs' m = f_data fs m) /\ f_read fs' = f_read fs /\ f_write fs' = f_write fs.
Proof.
  intros fs'. assert (E : f_data fs' n = Some d).
  { unfold fs', IO_Model.append, set_file, contents. cbn [f_data]. now rewrite Nat.eqb_refl. }
  split; [exact E|]. unfold contents, can_open. rewrite E. split; auto.
  split; [intros H; change (f_read fs') with (f_read fs); now rewrite H|].
  split; [|split; reflexivity]. intros m Hm. unfold fs', IO_Model.append, set_file. cbn [f_data].
  destruct (Nat.eqb_spec m n); [contradiction|reflexivity].
Qed.

(* ---- C91 ---- *)
(* The file holds the nine members in order; no other file is touched. *)
Theorem C91_format : forall le fuel rnd prm f0 p d fs n,
  new_filter fuel rnd prm = Ok f0 -> good_size (table_size prm) -> table_size prm < 2 ^ 35 ->
  0 < number_of_hashes prm < 2 ^ 32 -> projected prm < 2 ^ 64 -> length d = 8%nat -> f_write fs n = true ->
  exists f t fs', run f0 p = Ok f /\ bit_table f = Some t /\
    write_to_file le true fs n f d = Ok (true, fs') /\
    f_data fs' n = Some (file_image le f d t) /\
    (forall m, m <> n -> f_data fs' m = f_data fs m) /\ f_read fs' = f_read fs /\ f_write fs' = f_write fs.
Proof.
  intros le fuel rnd prm f0 p d fs n E Hg Hs Hk Hp Hd W.
  destruct (run_fits fuel rnd prm f0 d p E Hg Hk) as (f & t & Er & T & I & _ & _ & Hr); auto.
  { apply N.lt_trans with (2 ^ 35); [exact Hs|reflexivity]. }
  assert (Hraw : raw_table_size f < 2 ^ 32) by (rewrite Hr; apply N.div_lt_upper_bound; [lia|exact Hs]).
  exists f, t. destruct (appended fs n (enc_fields le (members le f d (cut f t)))) as (A & _ & _ & B & C & D).
  eexists. split; [exact Er|]. split; [apply (iu_table f t I)|].
  split; [exact (write_file_ok le fs n f d t T I W)|]. rewrite A. destruct (image_eq le f d t Hraw I T) as [Ei _]. rewrite Ei in *.
  split; [reflexivity|]. split; [exact B|]. split; [exact C|exact D].
Qed.
Print Assumptions C91_format.

Example C91_format_ex :
  let f := Filter [7; 9] (Some [1; 255]) 2 16 2 1 3 5 [16] in
  match write_to_file true true (FSys (fun _ => None) (fun _ => true) (fun _ => true)) 7 f (repeat "000"%char 8) with
  | Ok (true, fs) => f_data fs 7%nat = Some (file_image true f (repeat "000"%char 8) [1; 255]) /\ f_data fs 8%nat = None
  | _ => False
  end.
Proof. vm_compute. auto. Qed.

(* Whatever filter a program has built, saving it and loading the file into any other filter
   (default constructed or in use) restores it completely. *)
Theorem C91_round_trip : forall le fuel rnd prm f0 p d fs n,
  new_filter fuel rnd prm = Ok f0 -> good_size (table_size prm) -> table_size prm < 2 ^ 35 ->
  0 < number_of_hashes prm < 2 ^ 32 -> projected prm < 2 ^ 64 -> length d = 8%nat ->
  f_write fs n = true -> f_read fs n = true ->
  exists f fs', run f0 p = Ok f /\ write_to_file le true fs n f d = Ok (true, fs') /\
    forall g d', bit_table g <> None -> read_from_file le true false fs' n g d' = Ok (true, f, d).
Proof.
  intros le fuel rnd prm f0 p d fs n E Hg Hs Hk Hp Hd W R.
  destruct (run_fits fuel rnd prm f0 d p E Hg Hk) as (f & t & Er & T & I & Hsz & Hts & Hr); auto.
  { apply N.lt_trans with (2 ^ 35); [exact Hs|reflexivity]. }
  assert (Hraw : raw_table_size f < 2 ^ 32) by (rewrite Hr; apply N.div_lt_upper_bound; [lia|exact Hs]).
  destruct (appended fs n (enc_fields le (members le f d (cut f t)))) as (_ & A & Ho & _).
  exists f. eexists. split; [exact Er|]. split; [exact (write_file_ok le fs n f d t T I W)|]. intros g d' Hgt.
  rewrite (read_file_ok le false _ n f d t g d' [] T I) by (rewrite ?app_nil_r; auto).
  destruct (image_eq le f d t Hraw I T) as [_ ->].
  do 2 f_equal. unfold reloaded. unfold Bloom_Model.u32. rewrite N.mod_small by exact Hraw. f_equal.
  rewrite <- Hsz, <- (iu_table f t I). now destruct f.
Qed.
Print Assumptions C91_round_trip.

Definition some_files : fsys := FSys (fun _ => None) (fun _ => true) (fun _ => true).
Definition small : parameters := Params 1 (2 ^ 64 - 1) 1 (2 ^ 32 - 1) 50 42 2 16.
Definition half : list ascii := repeat "000"%char 6 ++ ["224"%char; "063"%char].
Definition saved (p : prog) : outcome (bool * fsys * filter) :=
  f0 <- new_filter 0 (fun _ _ => 0) small ;; f <- run f0 p ;;
  ' (b, fs) <- write_to_file true true some_files 7 f half ;; Ok (b, fs, f).
Example C91_ex :
  match saved (Insert (Insert New (str "alpha")) (str "beta")) with
  | Ok (true, fs, f) =>
      length (contents fs 7) = 66%nat /\
      read_from_file true true false fs 7 default_filter fpp_zero = Ok (true, f, half) /\
      contains f (str "alpha") = Ok true /\ contains f (str "gamma") = Ok false
  | _ => False
  end.
Proof. vm_compute. auto. Qed.

(* A compressible filter keeps its own list of sizes when it loads a file. *)
Theorem C91_compressible : forall le fuel rnd prm f0 p d fs n,
  new_filter fuel rnd prm = Ok f0 -> good_size (table_size prm) -> table_size prm < 2 ^ 35 ->
  0 < number_of_hashes prm < 2 ^ 32 -> projected prm < 2 ^ 64 -> length d = 8%nat ->
  f_write fs n = true -> f_read fs n = true ->
  exists f fs', run f0 p = Ok f /\ write_to_file le true fs n f d = Ok (true, fs') /\
    forall g d', bit_table g <> None -> exists h, read_from_file le true true fs' n g d' = Ok (true, h, d) /\
      sizes h = sizes g /\ (sizes g = [table_size prm] -> h = f).
Proof.
  intros le fuel rnd prm f0 p d fs n E Hg Hs Hk Hp Hd W R.
  destruct (run_fits fuel rnd prm f0 d p E Hg Hk) as (f & t & Er & T & I & Hsz & Hts & Hr); auto.
  { apply N.lt_trans with (2 ^ 35); [exact Hs|reflexivity]. }
  assert (Hraw : raw_table_size f < 2 ^ 32) by (rewrite Hr; apply N.div_lt_upper_bound; [lia|exact Hs]).
  destruct (appended fs n (enc_fields le (members le f d (cut f t)))) as (_ & A & Ho & _).
  exists f. eexists. split; [exact Er|]. split; [exact (write_file_ok le fs n f d t T I W)|]. intros g d' Hgt.
  exists (reloaded f t (sizes g)).
  rewrite (read_file_ok le true _ n f d t g d' [] T I) by (rewrite ?app_nil_r; auto).
  destruct (image_eq le f d t Hraw I T) as [_ ->]. split; [reflexivity|]. split; [reflexivity|].
  intros Hsg. unfold reloaded. unfold Bloom_Model.u32. rewrite N.mod_small by exact Hraw.
  rewrite Hsg, <- Hts, <- Hsz, <- (iu_table f t I). now destruct f.
Qed.
Print Assumptions C91_compressible.

Example C91_compressible_ex :
  match saved (Insert New (str "alpha")) with
  | Ok (true, fs, f) =>
      match new_filter 0 (fun _ _ => 0) small with
      | Ok g => read_from_file true true true fs 7 g fpp_zero = Ok (true, f, half)
      | _ => False
      end
  | _ => False
  end.
Proof. vm_compute. reflexivity. Qed.

(* ... so loading into a compressible filter of another size forgets keys, or reads outside the table. *)
Theorem C91_compressible_refuted :
  exists f fs, saved (Insert New (str "beta")) = Ok (true, fs, f) /\ contains f (str "beta") = Ok true /\
  (exists small_one h, new_filter 0 (fun _ _ => 0) (Params 1 (2 ^ 64 - 1) 1 (2 ^ 32 - 1) 50 42 2 8) = Ok small_one /\
     read_from_file true true true fs 7 small_one fpp_zero = Ok (true, h, half) /\ contains h (str "beta") = Ok false) /\
  (exists big_one h, new_filter 0 (fun _ _ => 0) (Params 1 (2 ^ 64 - 1) 1 (2 ^ 32 - 1) 50 42 2 128) = Ok big_one /\
     read_from_file true true true fs 7 big_one fpp_zero = Ok (true, h, half) /\ contains h (str "beta") = UB).
Proof.
  eexists. eexists. split; [vm_compute; reflexivity|]. split; [vm_compute; reflexivity|].
  split; eexists; eexists; (split; [vm_compute; reflexivity|]); split; vm_compute; reflexivity.
Qed.
Print Assumptions C91_compressible_refuted.

(* After a successful compression the table is shorter than raw_table_size_ says: saving the
   filter reads beyond it. *)
Theorem C91_compressed_refuted : forall le fuel rnd prm f0 tg f1 d fs n,
  new_filter fuel rnd prm = Ok f0 -> good_size (table_size prm) -> table_size prm < 2 ^ 35 ->
  0 < number_of_hashes prm < 2 ^ 32 -> projected prm < 2 ^ 64 -> length d = 8%nat -> f_write fs n = true ->
  compress true tg f0 = Ok (Some f1) -> write_to_file le true fs n f1 d = UB.
Proof.
  intros le fuel rnd prm f0 tg f1 d fs n E Hg Hs Hk Hp Hd W Ec.
  destruct (run_fits fuel rnd prm f0 d New E Hg Hk) as (f & t & Er & T & I & Hsz & Hts & Hr); auto.
  { apply N.lt_trans with (2 ^ 35); [exact Hs|reflexivity]. }
  cbn [run] in Er. injection Er as <-.
  assert (Hraw : raw_table_size f0 < 2 ^ 32) by (rewrite Hr; apply N.div_lt_upper_bound; [lia|exact Hs]).
  destruct (new_filter_plain fuel rnd prm f0 E Hg) as (t0 & (Hw & _ & Hr0) & _ & _ & Hsz0 & _).
  assert (Hl : last (sizes f0) 0 = table_size prm) by now rewrite Hsz0.
  pose proof (compress_ok f0 t0 true tg Hw) as H. cbv zeta in H.
  destruct (accepted (last (sizes f0) 0) true tg) eqn:Ea; [|congruence].
  destruct (N.leb_spec (last (sizes f0) 0) (2 * new_size tg)); [|congruence].
  destruct H as (t' & f' & E' & Hw' & Hs' & Hsalt & Hr' & Htsz & Hsc & Hseed & Hins & Hlen & _).
  rewrite Ec in E'. injection E' as <-.
  assert (Hshort : N.of_nat (length t') < raw_table_size f1).
  { unfold accepted in Ea. rewrite !andb_true_iff in Ea. destruct Ea as [_ Ea]. apply N.ltb_lt in Ea.
    pose proof Hw as (_ & _ & _ & Hlast). pose proof Hw' as (_ & _ & _ & Hlast'). rewrite Hs', last_last in Hlast'.
    rewrite Hr'. lia. }
  assert (Hproj : projected_count f1 = projected_count f0).
  { unfold compress in Ec. cbn [negb] in Ec. destruct (_ || _); [discriminate|].
    destruct (table f0) as [x| |]; cbn [bind] in Ec; try discriminate.
    destruct (Bloom_Model.copy_n _ _) as [y| |]; cbn [bind] in Ec; try discriminate.
    destruct (for_up _ _ _ _) as [z| |]; cbn [bind] in Ec; try discriminate. injection Ec as <-. reflexivity. }
  destruct T. destruct I. destruct Hw' as (Ht' & _).
  apply (write_short le fs n f1 d t'); auto; try congruence.
  - constructor; congruence.
  - unfold Bloom_Model.u32. rewrite N.mod_small by congruence. exact Hshort.
Qed.
Print Assumptions C91_compressed_refuted.
Example C91_compressed_ex :
  (f0 <- new_filter 0 (fun _ _ => 0) small ;; o <- compress true 8 f0 ;;
   match o with Some f1 => ' (b, _) <- write_to_file true true some_files 7 f1 half ;; Ok b | None => Ok true end) = UB.
Proof. vm_compute. reflexivity. Qed.

Lemma reduce_total l : forall h, reduce l h = UB \/ exists i, reduce l h = Ok i.
Proof. induction l as [|m l IH]; intros h; cbn [reduce]; eauto. destruct (m =? 0); auto. Qed.
Lemma contains_no_cells f : salt f <> [] -> bit_table f = Some [] -> forall k, contains f k = UB.
Proof.
  intros Hs Ht k. unfold contains, table. rewrite Ht. destruct (salt f) as [|s ss]; [contradiction|]. cbn [bind contains_salts].
  rewrite hsh_ok. cbn [bind]. unfold compute_indices. destruct (reduce_total (sizes f) (hsh k s)) as [->|(i & ->)]; cbn [bind]; auto.
  rewrite mask_ok by (apply N.mod_lt; discriminate). cbn [bind]. unfold rd. now destruct (N.to_nat _).
Qed.

(* Tables of 2^32 bytes and more: the length is stored in 32 bits.  Both calls report success, and
   the filter comes back with the table cut to the size modulo 2^32. *)
Theorem C91_large_refuted : forall le fuel rnd prm f0 p d fs n,
  new_filter fuel rnd prm = Ok f0 -> good_size (table_size prm) -> 2 ^ 35 <= table_size prm < 2 ^ 64 ->
  0 < number_of_hashes prm < 2 ^ 32 -> projected prm < 2 ^ 64 -> length d = 8%nat ->
  f_write fs n = true -> f_read fs n = true ->
  exists f fs', run f0 p = Ok f /\ write_to_file le true fs n f d = Ok (true, fs') /\
    forall g d', bit_table g <> None -> exists h t, read_from_file le true false fs' n g d' = Ok (true, h, d) /\
      bit_table h = Some t /\ N.of_nat (length t) = table_size prm / 8 mod 2 ^ 32 /\ tsize h = table_size prm /\
      8 * N.of_nat (length t) < tsize h /\ h <> f /\
      (table_size prm / 8 mod 2 ^ 32 = 0 -> forall k, contains h k = UB).
Proof.
  intros le fuel rnd prm f0 p d fs n E Hg Hs Hk Hp Hd W R.
  destruct (run_fits fuel rnd prm f0 d p E Hg Hk) as (f & t & Er & T & I & Hsz & Hts & Hr); auto; try apply Hs.
  destruct (appended fs n (enc_fields le (members le f d (cut f t)))) as (_ & A & Ho & _).
  assert (Hq : 2 ^ 32 <= table_size prm / 8) by (apply N.div_le_lower_bound; [lia|]; apply Hs).
  assert (Hm : table_size prm / 8 mod 2 ^ 32 < 2 ^ 32) by (apply N.mod_lt; discriminate).
  assert (Hlen : N.of_nat (length (cut f t)) = table_size prm / 8 mod 2 ^ 32).
  { unfold cut, Bloom_Model.u32. rewrite firstn_length. pose proof (iu_length f t I). rewrite Hr in *. lia. }
  exists f. eexists. split; [exact Er|]. split; [exact (write_file_ok le fs n f d t T I W)|]. intros g d' Hgt.
  exists (reloaded f (cut f t) [tsize f]), (cut f t).
  split; [apply (read_file_ok le false _ n f d t g d' [] T I); rewrite ?app_nil_r; auto|].
  split; [reflexivity|]. split; [exact Hlen|]. split; [exact Hts|]. split; [|split].
  - cbn [tsize reloaded]. rewrite Hts, Hlen. pose proof (N.div_mod (table_size prm) 8). lia.
  - intros Heq. apply (f_equal raw_table_size) in Heq. cbn [raw_table_size reloaded] in Heq.
    unfold Bloom_Model.u32 in Heq. rewrite Hr in Heq. lia.
  - intros H0 k. apply contains_no_cells.
    + cbn [salt reloaded]. intros E0. pose proof (iu_salts f t I) as Hls. rewrite E0 in Hls. pose proof (iu_some f t I). cbn in Hls. lia.
    + cbn [bit_table reloaded]. f_equal. destruct (cut f t); [reflexivity|]. cbn [length] in Hlen. lia.
Qed.
Print Assumptions C91_large_refuted.
(* such filters exist for every number of hash functions up to 128 (C25_construction); the cut
   itself, on numbers *)
Example C91_large_ex : good_size (2 ^ 35) /\ 2 ^ 35 / 8 mod 2 ^ 32 = 0 /\ Bloom_Model.u32 (2 ^ 35 / 8) = 0.
Proof. vm_compute. auto. Qed.

(* ---- C92 ---- *)
(* A file that cannot be opened leaves the filter alone. *)
Theorem C92_no_file : forall le ei c fs n g d, can_open fs n = false ->
  read_from_file le ei c fs n g d = Ok (false, g, d).
Proof. intros le ei c fs n g d H. unfold read_from_file. now rewrite H. Qed.
Print Assumptions C92_no_file.

Example C92_no_file_ex :
  match saved (Insert New (str "alpha")) with
  | Ok (true, fs, f) => read_from_file true true false fs 8 f half = Ok (false, f, half) /\ contains f (str "alpha") = Ok true
  | _ => False
  end.
Proof. vm_compute. auto. Qed.

(* A filter without a table is not saved and no file is touched; an unwritable file is reported. *)
Theorem C92_not_saved : forall le ei fs n f d, tsize f = 0 \/ f_write fs n = false ->
  write_to_file le ei fs n f d = Ok (false, fs).
Proof.
  intros le ei fs n f d H. unfold write_to_file. destruct (N.eqb_spec 0 (tsize f)); auto.
  destruct H as [H|H]; [lia|]. unfold open_out. rewrite H. reflexivity.
Qed.
Print Assumptions C92_not_saved.
Example C92_not_saved_ex :
  write_to_file true true some_files 7 default_filter fpp_zero = Ok (false, some_files) /\
  read_from_file true true false some_files 3 default_filter half = Ok (false, default_filter, half).
Proof. split; reflexivity. Qed.

(* Every truncated copy of a saved filter is refused.  The object is left without a table, and with
   the salts of the file or with none. *)
Theorem C92_truncated : forall le c fuel rnd prm f0 p d fs n q,
  new_filter fuel rnd prm = Ok f0 -> good_size (table_size prm) -> table_size prm < 2 ^ 35 ->
  0 < number_of_hashes prm < 2 ^ 32 -> projected prm < 2 ^ 64 -> length d = 8%nat ->
  exists f t, run f0 p = Ok f /\ bit_table f = Some t /\
    (can_open fs n = true -> contents fs n ++ q = file_image le f d t -> q <> [] ->
     forall g d', bit_table g <> None ->
     exists h e, read_from_file le true c fs n g d' = Ok (false, h, e) /\ bit_table h = Some [] /\
       (salt h = [] \/ salt h = salt f)).
Proof.
  intros le c fuel rnd prm f0 p d fs n q E Hg Hs Hk Hp Hd.
  destruct (run_fits fuel rnd prm f0 d p E Hg Hk) as (f & t & Er & T & I & Hsz & Hts & Hr); auto.
  { apply N.lt_trans with (2 ^ 35); [exact Hs|reflexivity]. }
  assert (Hraw : raw_table_size f < 2 ^ 32) by (rewrite Hr; apply N.div_lt_upper_bound; [lia|exact Hs]).
  exists f, t. split; [exact Er|]. split; [apply (iu_table f t I)|]. intros Ho Hc Hq g d' Hgt.
  destruct (image_eq le f d t Hraw I T) as [Ei Ec]. rewrite <- Ei in Hc.
  destruct (read_truncated le c fs n f d t g d' q T I Ho (eq_sym Hc) Hq Hgt) as (k & Hk9 & ->).
  eexists. eexists. split; [reflexivity|]. pose proof (ty_salt f d T) as Hw.
  do 9 (destruct k as [|k]; [cbn [members firstn map snd loaded bit_table salt nth_error];
    split; [reflexivity|]; auto; right; now apply salts_back|]). lia.
Qed.
Print Assumptions C92_truncated.
Definition cut_file (k : nat) (fs : fsys) : fsys := set_file fs 7 (Some (firstn k (contents fs 7))).
Example C92_truncated_ex :
  match saved (Insert New (str "alpha")) with
  | Ok (true, fs, f) =>
      match read_from_file true true false (cut_file 65 fs) 7 f half with
      | Ok (false, h, _) => bit_table h = Some [] /\ salt h = salt f /\ contains h (str "alpha") = UB
      | _ => False
      end /\
      match read_from_file true true false (cut_file 20 fs) 7 f half with
      | Ok (false, h, _) => bit_table h = Some [] /\ salt h = [] /\ contains h (str "gamma") = Ok true
      | _ => False
      end
  | _ => False
  end.
Proof. vm_compute. repeat split. Qed.

(* ... and each of its other members is the one of the file or zero. *)
Theorem C92_cut_members : forall le c fuel rnd prm f0 p d fs n q,
  new_filter fuel rnd prm = Ok f0 -> good_size (table_size prm) -> table_size prm < 2 ^ 35 ->
  0 < number_of_hashes prm < 2 ^ 32 -> projected prm < 2 ^ 64 -> length d = 8%nat ->
  exists f t, run f0 p = Ok f /\ bit_table f = Some t /\
    (can_open fs n = true -> contents fs n ++ q = file_image le f d t -> q <> [] ->
     forall g d', bit_table g <> None ->
     exists h e, read_from_file le true c fs n g d' = Ok (false, h, e) /\ (e = fpp_zero \/ e = d) /\
       sizes h = (if c then sizes g else [tsize h]) /\
       Forall (fun m : filter -> N => m h = 0 \/ m h = m f)
         [salt_count; tsize; raw_table_size; projected_count; inserted_count; seed]).
Proof.
  intros le c fuel rnd prm f0 p d fs n q E Hg Hs Hk Hp Hd.
  destruct (run_fits fuel rnd prm f0 d p E Hg Hk) as (f & t & Er & T & I & Hsz & Hts & Hr); auto.
  { apply N.lt_trans with (2 ^ 35); [exact Hs|reflexivity]. }
  assert (Hraw : raw_table_size f < 2 ^ 32) by (rewrite Hr; apply N.div_lt_upper_bound; [lia|exact Hs]).
  exists f, t. split; [exact Er|]. split; [apply (iu_table f t I)|]. intros Ho Hc Hq g d' Hgt.
  destruct (image_eq le f d t Hraw I T) as [Ei Ec]. rewrite <- Ei in Hc.
  destruct (read_truncated le c fs n f d t g d' q T I Ho (eq_sym Hc) Hq Hgt) as (k & Hk9 & ->).
  eexists. eexists. split; [reflexivity|]. destruct T.
  assert (H4 : forall v, v < 2 ^ 32 -> load le (store le 4 v) = v)
    by (intros v Hv; rewrite store_host; apply load_host; exact Hv).
  assert (H8 : forall v, v < 2 ^ 64 -> load le (store le 8 v) = v)
    by (intros v Hv; rewrite store_host; apply load_host; exact Hv).
  do 9 (destruct k as [|k]; [cbn [members firstn map snd loaded loaded_fpp pod_at bit_table salt nth_error
      salt_count tsize raw_table_size projected_count inserted_count seed sizes];
    (split; [auto|]; split; [destruct c; reflexivity|]; repeat (apply Forall_cons || apply Forall_nil); first [left; reflexivity|right; first [now apply H4|now apply H8]])|]). lia.
Qed.
Print Assumptions C92_cut_members.
Example C92_cut_members_ex :
  match saved (Insert New (str "alpha")) with
  | Ok (true, fs, f) =>
      match read_from_file true true false (cut_file 15 fs) 7 f half with
      | Ok (false, h, e) => salt_count h = salt_count f /\ salt_count f = 2 /\ tsize h = tsize f /\ raw_table_size h = 0 /\ e = fpp_zero
      | _ => False
      end /\
      read_from_file true true false (cut_file 3 fs) 7 f half = Ok (false, default_filter, fpp_zero)
  | _ => False
  end.
Proof. vm_compute. repeat split. Qed.

(* After a refused load the object must not be asked for keys: it claims to contain every key, or
   the question is undefined. *)
Theorem C92_after_failure_refuted : forall le c fuel rnd prm f0 p d fs n q,
  new_filter fuel rnd prm = Ok f0 -> good_size (table_size prm) -> table_size prm < 2 ^ 35 ->
  0 < number_of_hashes prm < 2 ^ 32 -> projected prm < 2 ^ 64 -> length d = 8%nat ->
  exists f t, run f0 p = Ok f /\ bit_table f = Some t /\
    (can_open fs n = true -> contents fs n ++ q = file_image le f d t -> q <> [] ->
     forall g d', bit_table g <> None ->
     exists h e, read_from_file le true c fs n g d' = Ok (false, h, e) /\
       ((forall k, contains h k = Ok true) \/ (forall k, contains h k = UB))).
Proof.
  intros le c fuel rnd prm f0 p d fs n q E Hg Hs Hk Hp Hd.
  destruct (C92_truncated le c fuel rnd prm f0 p d fs n q E Hg Hs Hk Hp Hd) as (f & t & Er & Et & H).
  exists f, t. split; [exact Er|]. split; [exact Et|]. intros Ho Hc Hq g d' Hgt.
  destruct (H Ho Hc Hq g d' Hgt) as (h & e & Ee & Hb & Hsalt). exists h, e. split; [exact Ee|].
  destruct (salt h) eqn:Eh.
  - left. intros k. unfold contains. now rewrite Eh.
  - right. apply contains_no_cells; [congruence|exact Hb].
Qed.
Print Assumptions C92_after_failure_refuted.

(* With an implementation that tolerates &v[0] on an empty vector, no file contents at all make
   loading itself undefined. *)
Theorem C92_any_contents : forall le c fs n g d, bit_table g <> None ->
  exists r, read_from_file le false c fs n g d = Ok r.
Proof.
  intros le c fs n g d Hg. pose proof (read_any le c fs n g d Hg) as H. apply holds_ex in H.
  destruct H as (r & E & _). now exists r.
Qed.
Print Assumptions C92_any_contents.
Definition file_of (s : list ascii) : fsys := FSys (fun _ => Some s) (fun _ => true) (fun _ => true).
Example C92_any_contents_ex :
  read_from_file true false false (file_of (repeat "000"%char 60)) 0 default_filter half =
    Ok (true, default_filter, fpp_zero) /\
  read_from_file true true false (file_of (repeat "000"%char 60)) 0 default_filter half = UB.
Proof. split; vm_compute; reflexivity. Qed.

(* The members are not checked against each other: a loaded file can claim more bits than its table
   has, and the first question is then undefined. *)
Theorem C92_inconsistent_refuted : exists s h d, 
  read_from_file true true false (file_of s) 0 default_filter half = Ok (true, h, d) /\
  contains h (str "alpha") = UB /\ Bloom_Model.insert h (str "alpha") = UB.
Proof.
  exists (le_bytes 4 1 ++ le_bytes 8 64 ++ le_bytes 8 8 ++ le_bytes 8 50 ++ le_bytes 4 0 ++ le_bytes 8 1 ++ half ++
          le_bytes 4 1 ++ le_bytes 4 5 ++ le_bytes 4 0). eexists. eexists.
  split; [vm_compute; reflexivity|]. split; vm_compute; reflexivity.
Qed.
Print Assumptions C92_inconsistent_refuted.
