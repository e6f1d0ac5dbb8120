(* Properties C130 (lists of records in a buffer and in a file) and C131 (integers as fixed-width text). *)
From Verif Require Import Base Binary_Model Binary_Spec Binary_Proofs Binary_Proofs2 Binary_Proofs3 Binary_Props2
  Num_Model Num_Spec Num_Proofs Num_Proofs2 Num_Proofs3 Num_Spec2 Num_Props IO_Model Serial_Model Serial_Spec Serial_Proofs.
Local Open Scope nat_scope.

(* ---- C130 ---- *)
(* Records written one after the other into a buffer: if they fit they are all read back equal,
   otherwise the first one that does not fit is reported. *)
Theorem C130_buffer : forall le same b ps, Forall shaped ps -> Forall (numbers same) ps ->
  (length (images le ps) <= length b -> example02 le same b ps = Ok Done) /\
  (length b < length (images le ps) -> exists k, first_not_fitting le ps (length b) k /\ example02 le same b ps = Ok (Could_not_write k)).
Proof.
  intros le same b ps Hs Hn. unfold example02. rewrite cleared_start.
  pose proof (write_people_ok le ps 0 _ Hs (start_steady (repeat "000"%char (length b)))) as W.
  rewrite start_free, repeat_length in W. destruct (Nat.leb_spec (length (images le ps)) (length b)) as [H|H]; split; intros H2; try lia.
  - rewrite W. cbn [bind]. destruct (filled b (images le ps) H) as [-> _].
    apply (read_people_ok le same false ps _ _ _ (repeat "000"%char (length b - length (images le ps)))); auto. apply start_steady.
  - destruct W as (k & st' & Hk & ->). cbn [bind Nat.add]. now exists k.
Qed.
Print Assumptions C130_buffer.

Definition eqb_bytes : list ascii -> list ascii -> bool := same_bytes.
Definition ann : person := Person (str "00000001") (str "Ann") (str "0030") (str "00000171") (str "0065") (str "n").
Definition bo : person := Person (str "00000002") [] (str "0031") (str "00000182") (str "0080") (str "y").
Example C130_buffer_example :
  length (images true [ann; bo]) = 61 /\
  example02 true eqb_bytes (repeat "x"%char 61) [ann; bo] = Ok Done /\
  example02 true eqb_bytes (repeat "x"%char 60) [ann; bo] = Ok (Could_not_write 1) /\
  example02 false eqb_bytes (repeat "x"%char 31) [ann; bo] = Ok (Could_not_write 0).
Proof. repeat split; vm_compute; reflexivity. Qed.

(* Through a file: nothing is created unless all records fit; then the file consists of the
   records, no other file is touched, and they are read back equal. *)
Theorem C130_file : forall le same b fs n ps, Forall shaped ps -> Forall (numbers same) ps -> f_write fs n = true ->
  length (images le ps) <= length b ->
  exists fs', example03 le same b fs n ps = Ok (if f_read fs n then Done else Could_not_open_2, fs') /\
    f_data fs' n = Some (images le ps) /\ forall m, m <> n -> f_data fs' m = f_data fs m.
Proof.
  intros le same b fs n ps Hs Hn W H. unfold example03. rewrite cleared_start.
  pose proof (write_people_ok le ps 0 _ Hs (start_steady (repeat "000"%char (length b)))) as E.
  rewrite start_free, repeat_length in E. destruct (Nat.leb_spec (length (images le ps)) (length b)) as [_|H2]; [|lia].
  rewrite E. cbn [bind]. unfold open_out. rewrite W. cbn [negb].
  destruct (filled b (images le ps) H) as [Eb Ea]. cbv zeta in Eb, Ea. rewrite Eb, Ea, firstn_app_len.
  set (fs' := IO_Model.append (set_file fs n (Some [])) n (images le ps)).
  assert (D : f_data fs' n = Some (images le ps)) by (unfold fs', IO_Model.append, set_file, contents; cbn [f_data]; now rewrite Nat.eqb_refl).
  assert (C : contents fs' n = images le ps) by (unfold contents; now rewrite D).
  assert (O : can_open fs' n = f_read fs n) by (unfold can_open; rewrite D; change (f_read fs') with (f_read fs); now destruct (f_read fs n)).
  exists fs'. split; [|split; [exact D|]].
  - cbv zeta. unfold file_size. rewrite O, C. destruct (f_read fs n); cbn [negb]; [|reflexivity].
    rewrite cleared_start. unfold load_stream. cbn [buf start].
    rewrite repeat_length, app_length, repeat_length.
    destruct (N.ltb_spec (N.of_nat (length (images le ps) + (length b - length (images le ps)))) (N.of_nat (length (images le ps)))) as [L|L]; [lia|].
    rewrite Nat2N.id, firstn_all, skip_repeat. unfold Binary_Model.reset. cbn [buf marks cur amt start].
    rewrite (read_people_ok le same true ps _ _ _ (repeat "000"%char (length (images le ps) + (length b - length (images le ps)) - length (images le ps)))); auto.
    apply start_steady.
  - intros m Hm. unfold fs', IO_Model.append, set_file. cbn [f_data]. destruct (Nat.eqb_spec m n); [contradiction|reflexivity].
Qed.
Print Assumptions C130_file.

Definition disk (r w : bool) : fsys := FSys (fun m => if m =? 5 then Some (str "other") else None) (fun _ => r) (fun _ => w).
Example C130_file_example :
  match example03 true eqb_bytes (repeat "x"%char 100) (disk true true) 7 [ann; bo] with
  | Ok (Done, fs) => f_data fs 7 = Some (images true [ann; bo]) /\ f_data fs 5 = Some (str "other")
  | _ => False
  end.
Proof. vm_compute. auto. Qed.

Theorem C130_not_saved : forall le same b fs n ps, Forall shaped ps ->
  (length b < length (images le ps) -> exists k, first_not_fitting le ps (length b) k /\ example03 le same b fs n ps = Ok (Could_not_write k, fs)) /\
  (length (images le ps) <= length b -> f_write fs n = false -> example03 le same b fs n ps = Ok (Could_not_open_1, fs)).
Proof.
  intros le same b fs n ps Hs. unfold example03. rewrite cleared_start.
  pose proof (write_people_ok le ps 0 _ Hs (start_steady (repeat "000"%char (length b)))) as E.
  rewrite start_free, repeat_length in E. destruct (Nat.leb_spec (length (images le ps)) (length b)) as [H|H]; split; intros H2; try lia.
  - intros W. rewrite E. cbn [bind]. unfold open_out. now rewrite W.
  - destruct E as (k & st' & Hk & ->). cbn [bind Nat.add]. now exists k.
Qed.
Print Assumptions C130_not_saved.

Example C130_not_saved_example :
  example03 true eqb_bytes (repeat "x"%char 60) (disk true true) 7 [ann; bo] = Ok (Could_not_write 1, disk true true) /\
  example03 true eqb_bytes (repeat "x"%char 61) (disk true false) 7 [ann; bo] = Ok (Could_not_open_1, disk true false).
Proof. split; vm_compute; reflexivity. Qed.

(* A record whose height is not a number is stored and read back, yet the program reports a
   difference. *)
Theorem C130_nan_refuted : forall le same b p ps, Forall shaped (p :: ps) -> length (images le (p :: ps)) <= length b ->
  same (p_height p) (p_height p) = false -> example02 le same b (p :: ps) = Ok (Differs 0).
Proof.
  intros le same b p ps Hs H N. unfold example02. rewrite cleared_start.
  pose proof (write_people_ok le (p :: ps) 0 _ Hs (start_steady (repeat "000"%char (length b)))) as W.
  rewrite start_free, repeat_length in W. destruct (Nat.leb_spec (length (images le (p :: ps))) (length b)) as [_|H2]; [|lia].
  rewrite W. cbn [bind]. destruct (filled b (images le (p :: ps)) H) as [-> _]. cbn [read_people].
  inversion Hs; subst.
  rewrite (read_person le _ p _ (images le ps ++ repeat "000"%char (length b - length (images le (p :: ps))))); auto using start_steady.
  - cbn [bind negb]. rewrite person_back. unfold person_eqb. rewrite N, !andb_false_r. reflexivity.
  - unfold ahead. cbn [start cur buf skipn]. change (images le (p :: ps)) with (image le p ++ images le ps). now rewrite <- !app_assoc.
Qed.
Print Assumptions C130_nan_refuted.

Example C130_nan_refuted_example :
  let same a b := eqb_bytes a b && negb (eqb_bytes a (str "--nan---")) in
  example02 true same (repeat "x"%char 99) [Person (str "00000001") [] (str "0030") (str "--nan---") (str "0065") (str "n"); ann] = Ok (Differs 0).
Proof. vm_compute. reflexivity. Qed.

(* ---- C131 ---- *)
(* A number that is not negative, written with leading zeros into a field at least as wide as its
   text, is read back from there, for every integer type. *)
Theorem C131_round_trip : forall format parse bottom top, integers format parse bottom top ->
  forall z w st, (0 <= z <= top)%Z -> wf st -> (w < 2 ^ 32)%N -> (w <= N.of_nat (length (buf st) - cur st))%N ->
  exists text, canonical text z /\
    ((N.of_nat (length text) <= w)%N -> exists st', write_number format z w "0"%char st = Ok (true, st') /\
       sub (buf st') (cur st, cur st + N.to_nat w) = repeat "0"%char (N.to_nat w - length text) ++ text /\
       read_number parse w (St (buf st') (cur st) (amt st) (marks st)) = Ok (Some z, st')) /\
    ((w < N.of_nat (length text))%N -> write_number format z w "0"%char st = Ok (false, st)).
Proof.
  intros format parse bottom top I z w st Hz W Hw Hf. destruct (integers_ok _ _ _ _ I) as (F & P & _).
  assert (bottom <= 0)%Z by (destruct I as [? ? ? ? []| | | |]; lia). destruct (F z ltac:(lia)) as (text & E & C). exists text. split; [exact C|].
  unfold write_number. rewrite E. cbn [bind]. split.
  - intros L. rewrite left_pad_ok by auto. set (x := repeat "0"%char (N.to_nat w - length text) ++ text).
    assert (Lx : length x = N.to_nat w) by (unfold x; rewrite app_length, repeat_length; lia).
    exists (after st x). split; [reflexivity|]. pose proof (padded_value (N.to_nat w - length text) text z C ltac:(lia)) as [D V]. fold x in D, V.
    split; [|rewrite text_field by (auto; unfold free; lia); rewrite (P x z) by (auto; lia); reflexivity].
    unfold sub, after. cbn [fst snd buf]. replace (cur st + N.to_nat w - cur st) with (length x) by lia.
    destruct W as (_ & Wl & _). rewrite skipn_app, skipn_firstn_comm, Nat.sub_diag, firstn_length. cbn [firstn app].
    replace (cur st - Nat.min (cur st) (length (buf st))) with 0 by lia. cbn [skipn]. now rewrite firstn_app_len.
  - intros L. apply (C70_refused true true no_class); auto.
Qed.
Print Assumptions C131_round_trip.

Definition write_int := write_number (format_signed t_int).
Definition read_int := read_number (parse_signed t_int n_int).
Example C131_round_trip_example :
  write_int 123 4 "0"%char (start (str "........")) = Ok (true, St (str "0123....") 4 4 []) /\
  read_int 4 (start (str "0123....")) = Ok (Some 123%Z, St (str "0123....") 4 4 []) /\
  write_int 123456 4 "0"%char (start (str "........")) = Ok (false, start (str "........")) /\
  write_int 0 2 "0"%char (start (str "..")) = Ok (true, St (str "00") 2 2 []) /\
  read_int 2 (start (str "00")) = Ok (Some 0%Z, St (str "00") 2 2 []).
Proof. repeat split; vm_compute; reflexivity. Qed.

(* A text that fills the field comes back whatever its sign. *)
Theorem C131_full : forall T n bottom top, signed_integers T n bottom top ->
  forall z pad st text, (bottom <= z <= top)%Z -> wf st -> canonical text z -> length text <= length (buf st) - cur st ->
  (N.of_nat (length text) < 2 ^ 32)%N ->
  let w := N.of_nat (length text) in
  exists st', write_number (format_signed T) z w pad st = Ok (true, st') /\
    read_number (parse_signed T n) w (St (buf st') (cur st) (amt st) (marks st)) = Ok (Some z, st').
Proof.
  intros T n bottom top I z pad st text Hz W C L H32 w.
  assert (R : exists s, format_signed T z = Ok s /\ canonical s z /\ parse_signed T n s = Ok (Some z)).
  { destruct C20_signed_round_trip as (R1 & R2 & R3 & R4).
    assert (G : signed_round_trip T n bottom top /\ (lo T <= bottom)%Z /\ (top <= hi T)%Z)
      by (destruct I; split; auto; cbn; lia).
    destruct G as (G & G1 & G2). destruct (G z ltac:(lia)) as (s & A & B & D). exists s. auto. }
  destruct R as (s & E & Cs & Ps). assert (text = s) by (apply (C20_canonical_unique text s z C Cs)). subst text.
  unfold write_number. rewrite E. cbn [bind]. rewrite left_pad_ok by (auto; unfold w, free; rewrite ?Nat2N.id in *; lia).
  replace (N.to_nat w - length s) with 0 by (unfold w; lia). cbn [repeat app].
  exists (after st s). split; [reflexivity|]. rewrite text_field by (auto; unfold w; lia). rewrite Ps. reflexivity.
Qed.
Print Assumptions C131_full.

Example C131_full_example :
  write_int (-45) 3 " "%char (start (str "......")) = Ok (true, St (str "-45...") 3 3 []) /\
  read_int 3 (start (str "-45...")) = Ok (Some (-45)%Z, St (str "-45...") 3 3 []).
Proof. split; vm_compute; reflexivity. Qed.

(* A negative number padded with zeros, or any number padded with something that is neither a
   digit nor a sign (the default padding is the blank), is not accepted by the reader. *)
Theorem C131_padding_refuted : forall format parse bottom top, integers format parse bottom top ->
  forall z pad w st, (bottom <= z <= top)%Z -> wf st -> (w < 2 ^ 32)%N -> (w <= N.of_nat (length (buf st) - cur st))%N ->
  pad <> "+"%char -> pad <> "-"%char -> (~ is_digit pad \/ (z < 0)%Z) ->
  exists text, canonical text z /\ ((N.of_nat (length text) < w)%N ->
    exists st', write_number format z w pad st = Ok (true, st') /\
      read_number parse w (St (buf st') (cur st) (amt st) (marks st)) = Ok (None, st')).
Proof.
  intros format parse bottom top I z pad w st Hz W Hw Hf Hp Hm Hd. destruct (integers_ok _ _ _ _ I) as (F & _ & N).
  destruct (F z Hz) as (text & E & C). exists text. split; [exact C|]. intros L.
  unfold write_number. rewrite E. cbn [bind]. rewrite left_pad_ok by (auto; lia). set (x := repeat pad (N.to_nat w - length text) ++ text).
  assert (Lx : length x = N.to_nat w) by (unfold x; rewrite app_length, repeat_length; lia).
  exists (after st x). split; [reflexivity|]. rewrite text_field by (auto; unfold free; lia).
  rewrite N; [reflexivity|]. intros v. unfold x. apply (padded_no_number pad _ text z); auto. lia.
Qed.
Print Assumptions C131_padding_refuted.

Example C131_padding_refuted_example :
  write_int (-45) 5 "0"%char (start (str ".....")) = Ok (true, St (str "00-45") 5 5 []) /\
  read_int 5 (start (str "00-45")) = Ok (None, St (str "00-45") 5 5 []) /\
  write_int 45 4 " "%char (start (str "....")) = Ok (true, St (str "  45") 4 4 []) /\
  read_int 4 (start (str "  45")) = Ok (None, St (str "  45") 4 4 []).
Proof. repeat split; vm_compute; reflexivity. Qed.

(* Padding by one minus sign changes the number. *)
Theorem C131_sign_refuted : exists st, write_int 45 3 "-"%char (start (str "...")) = Ok (true, st) /\
  read_int 3 (start (buf st)) = Ok (Some (-45)%Z, st).
Proof. exists (St (str "-45") 3 3 []). split; vm_compute; reflexivity. Qed.
Print Assumptions C131_sign_refuted.
