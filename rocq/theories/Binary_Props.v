(* C22, C23, C24, C54. *)
From Verif Require Import Base Binary_Model Binary_Spec Endian_Proofs Binary_Proofs Binary_Proofs2 Binary_Proofs3.
Open Scope N_scope.

(* ---- C22: byte order ---- *)
Theorem C22_convert_reverses_bytes : forall v,
  le_bytes 2 (convert16 v) = rev (le_bytes 2 v) /\ le_bytes 8 (convert64 v) = rev (le_bytes 8 v).
Proof. intros v. split; [exact (reverses_bytes 2 _ v reverses16)|exact (reverses_bytes 8 _ v reverses64)]. Qed.
Print Assumptions C22_convert_reverses_bytes.
Example C22_convert_case : convert16 0x1234 = 0x3412 /\ convert64 0x0123456789ABCDEF = 0xEFCDAB8967452301.
Proof. vm_compute. split; reflexivity. Qed.

Theorem C22_convert_involution : forall v,
  (v < 2 ^ 16 -> convert16 (convert16 v) = v) /\ (v < 2 ^ 64 -> convert64 (convert64 v) = v).
Proof. intros v. split; intros H; [exact (reverses_involution 2 _ v reverses16 H)|exact (reverses_involution 8 _ v reverses64 H)]. Qed.
Print Assumptions C22_convert_involution.

Example C22_involution_case :
  convert16 (convert16 0xBEEF) = 0xBEEF /\ convert64 (convert64 0xFEDCBA9876543210) = 0xFEDCBA9876543210.
Proof. vm_compute. split; reflexivity. Qed.

(* signed overloads *)
Theorem C22_signed_involution : forall z : Z,
  ((- 2 ^ 15 <= z < 2 ^ 15)%Z -> convert_s16 (convert_s16 z) = z) /\
  ((- 2 ^ 63 <= z < 2 ^ 63)%Z -> convert_s64 (convert_s64 z) = z).
Proof.
  intros z. unfold convert_s16, convert_s64. split; intros H.
  - rewrite to_unsigned_signed by (try apply convert16_lt; lia).
    rewrite (proj1 (C22_convert_involution _)) by apply to_unsigned_lt. apply to_signed_unsigned; [lia|exact H].
  - rewrite to_unsigned_signed by (try apply convert64_lt; lia).
    rewrite (proj2 (C22_convert_involution _)) by apply to_unsigned_lt. apply to_signed_unsigned; [lia|exact H].
Qed.
Print Assumptions C22_signed_involution.
Example C22_signed_case : convert_s16 (-2)%Z = (-257)%Z /\ convert_s16 (-257)%Z = (-2)%Z.
Proof. vm_compute. split; reflexivity. Qed.

(* the two's complement bytes of a signed value *)
Definition signed_bytes (w : nat) (z : Z) : list ascii := le_bytes w (Z.to_N (z mod 256 ^ Z.of_nat w)).
Theorem C22_signed_bytes : forall z : Z,
  ((- 2 ^ 15 <= convert_s16 z < 2 ^ 15)%Z /\ signed_bytes 2 (convert_s16 z) = rev (signed_bytes 2 z)) /\
  ((- 2 ^ 63 <= convert_s64 z < 2 ^ 63)%Z /\ signed_bytes 8 (convert_s64 z) = rev (signed_bytes 8 z)).
Proof.
  intros z. unfold signed_bytes, convert_s16, convert_s64.
  change (256 ^ Z.of_nat 2)%Z with (2 ^ Z.of_N 16)%Z. change (256 ^ Z.of_nat 8)%Z with (2 ^ Z.of_N 64)%Z.
  fold (to_unsigned 16 z) (to_unsigned 64 z).
  fold (to_unsigned 16 (to_signed 16 (convert16 (to_unsigned 16 z)))) (to_unsigned 64 (to_signed 64 (convert64 (to_unsigned 64 z)))).
  rewrite !to_unsigned_signed by (first [apply convert16_lt|apply convert64_lt|lia]).
  pose proof (convert16_lt (to_unsigned 16 z)) as L1. pose proof (convert64_lt (to_unsigned 64 z)) as L2.
  split; (split; [unfold to_signed|apply C22_convert_reverses_bytes]).
  - change (2 ^ (16 - 1)) with 32768. change (2 ^ 16) with 65536 in *. change (2 ^ Z.of_N 16)%Z with 65536%Z.
    change (2 ^ 15)%Z with 32768%Z. destruct (N.ltb_spec (convert16 (to_unsigned 16 z)) 32768); lia.
  - change (2 ^ (64 - 1)) with 9223372036854775808. change (2 ^ 64) with 18446744073709551616 in *.
    change (2 ^ Z.of_N 64)%Z with 18446744073709551616%Z. change (2 ^ 63)%Z with 9223372036854775808%Z.
    destruct (N.ltb_spec (convert64 (to_unsigned 64 z)) 9223372036854775808); lia.
Qed.
Print Assumptions C22_signed_bytes.
Example C22_signed_bytes_case : signed_bytes 2 (-2)%Z = map ascii_of_N [254; 255] /\ signed_bytes 2 (convert_s16 (-2)%Z) = map ascii_of_N [255; 254].
Proof. vm_compute. split; reflexivity. Qed.

(* convert_to_be gives, on a host of either byte order, the number that this host stores as the
   big-endian bytes of v; convert_to_le the one it stores as the little-endian bytes. *)
Theorem C22_host_order : forall le w conv v, (w, conv) = (2%nat, convert16) \/ (w, conv) = (8%nat, convert64) ->
  host_bytes le w (convert_to_be le conv v) = be_bytes w v /\
  host_bytes le w (convert_to_le le conv v) = le_bytes w v.
Proof.
  intros le w conv v C.
  assert (R : le_bytes w (conv v) = rev (le_bytes w v)) by (destruct C as [C|C]; inversion C; apply C22_convert_reverses_bytes).
  unfold host_bytes, convert_to_be, convert_to_le, be_bytes. destruct le; cbn [negb]; split; auto. rewrite R. apply rev_involutive.
Qed.
Print Assumptions C22_host_order.
Example C22_host_order_case : convert_to_be true convert16 0x4142 = 0x4241 /\ convert_to_be false convert16 0x4142 = 0x4142 /\
  host_bytes true 2 (convert_to_be true convert16 0x4142) = str "AB" /\ host_bytes false 2 (convert_to_le false convert16 0x4142) = str "BA".
Proof. vm_compute. repeat split. Qed.

(* The same for the signed overloads, on the two's complement *)
Theorem C22_host_order_signed : forall (le : bool) w conv z, (w, conv) = (2%nat, convert_s16) \/ (w, conv) = (8%nat, convert_s64) ->
  (if le then signed_bytes w (convert_to_be le conv z) else rev (signed_bytes w (convert_to_be le conv z))) = rev (signed_bytes w z) /\
  (if le then signed_bytes w (convert_to_le le conv z) else rev (signed_bytes w (convert_to_le le conv z))) = signed_bytes w z.
Proof.
  intros le w conv z C.
  assert (R : signed_bytes w (conv z) = rev (signed_bytes w z)) by (destruct C as [C|C]; inversion C; apply C22_signed_bytes).
  unfold convert_to_be, convert_to_le. destruct le; cbn [negb]; split; auto. rewrite R. apply rev_involutive.
Qed.
Print Assumptions C22_host_order_signed.
Example C22_host_order_signed_case : convert_to_be true convert_s16 (-2)%Z = (-257)%Z /\ convert_to_le true convert_s16 (-2)%Z = (-2)%Z /\
  convert_to_le false convert_s16 (-2)%Z = (-257)%Z.
Proof. vm_compute. repeat split. Qed.

(* convert_to_le loses the sign of a long long: on a little-endian host the negative numbers
   come back increased by 2^64 *)
Theorem C22_long_long_le_refuted : forall z : Z, (- 2 ^ 63 <= z < 0)%Z -> Z.of_N (convert_to_le_s64 true z) = (z + 2 ^ 64)%Z.
Proof.
  intros z H. unfold convert_to_le_s64, convert_to_le, to_unsigned. cbn [negb]. change (Z.of_N 64) with 64%Z.
  rewrite Z2N.id by (apply Z.mod_pos_bound; reflexivity). symmetry. apply (Z.mod_unique _ _ (-1)); lia.
Qed.
Print Assumptions C22_long_long_le_refuted.
Example C22_long_long_le_case : Z.of_N (convert_to_le_s64 true (-1)%Z) = (2 ^ 64 - 1)%Z /\ convert_to_le_s64 true 5%Z = 5%N.
Proof. vm_compute. split; reflexivity. Qed.

(* On a host of either byte order, native_to_be stores the big-endian bytes and
   be_to_native gets the value back; the same for little-endian.  16 and 64 bits. *)
Theorem C22_transfer : forall le w conv v st, (w, conv) = (2%nat, convert16) \/ (w, conv) = (8%nat, convert64) ->
  v < 256 ^ N.of_nat w -> wf st -> (w <= free st)%nat ->
  native_to_be le w conv v st = Ok (true, after st (be_bytes w v)) /\
  native_to_le le w conv v st = Ok (true, after st (le_bytes w v)) /\
  (forall rd rest, wf rd -> skipn (cur rd) (buf rd) = be_bytes w v ++ rest ->
     be_to_native le w conv rd = Ok (Some v, advance rd w)) /\
  (forall rd rest, wf rd -> skipn (cur rd) (buf rd) = le_bytes w v ++ rest ->
     le_to_native le w conv rd = Ok (Some v, advance rd w)).
Proof.
  intros le w conv v st C Hv W L.
  assert (R : reverses w conv) by (destruct C as [C|C]; inversion C; [exact reverses16|exact reverses64]).
  split; [apply native_to_be_ok; auto; now apply wf_steady|].
  split; [apply native_to_le_ok; auto; now apply wf_steady|]. split.
  - intros rd rest Wr A. apply be_to_native_ok with rest; auto; now apply wf_steady.
  - intros rd rest Wr A. apply le_to_native_ok with rest; auto; now apply wf_steady.
Qed.
Print Assumptions C22_transfer.
Example C22_transfer_case :
  native_to_be true 2 convert16 0x4142 (start (str "....")) = Ok (true, St (str "AB..") 2 2 []) /\
  be_to_native true 2 convert16 (start (str "AB..")) = Ok (Some 0x4142, St (str "AB..") 2 2 []).
Proof. vm_compute. split; reflexivity. Qed.

(* The 32-bit overload drops bytes 0 and 2: the claim is false for it, for
   every value that has one of those bytes non-zero. *)
Theorem C22_32bit_refuted : forall v, v < 2 ^ 32 ->
  le_bytes 4 (convert32 v) = [ascii_of_N (byte_at v 3); "000"%char; ascii_of_N (byte_at v 1); "000"%char].
Proof. exact convert32_bytes. Qed.
Print Assumptions C22_32bit_refuted.
Example C22_32bit_case : convert32 0x11223344 = 0x330011 /\ convert32 0x330011 <> 0x11223344.
Proof. vm_compute. split; [reflexivity|discriminate]. Qed.

(* The same for int, so that the result is never negative. *)
Theorem C22_32bit_signed_refuted : forall z : Z,
  (0 <= convert_s32 z < 2 ^ 24)%Z /\
  exists b0 b1 b2 b3, signed_bytes 4 z = [b0; b1; b2; b3] /\
    signed_bytes 4 (convert_s32 z) = [b3; "000"%char; b1; "000"%char].
Proof.
  intros z. unfold signed_bytes, convert_s32. change (256 ^ Z.of_nat 4)%Z with (2 ^ Z.of_N 32)%Z.
  fold (to_unsigned 32 z).
  fold (to_unsigned 32 (to_signed 32 (convert32 (to_unsigned 32 z)))).
  rewrite to_unsigned_signed by (first [apply convert32_lt|lia]).
  pose proof (convert32_lt (to_unsigned 32 z)) as L.
  pose proof (convert32_bytes (to_unsigned 32 z) (to_unsigned_lt 32 z)) as E. split.
  - assert (B : convert32 (to_unsigned 32 z) < 2 ^ 24).
    { set (c := convert32 (to_unsigned 32 z)) in *.
      assert (E3 : ascii_of_N (byte_at c 3) = "000"%char)
        by exact (f_equal (fun l => nth 3 l "000"%char) E).
      apply (f_equal N_of_ascii) in E3. unfold byte_at in E3.
      rewrite N_ascii_embedding in E3 by (apply N.mod_lt; lia).
      change (N.of_nat 3) with 3 in E3. change (256 ^ 3) with (2 ^ 24) in E3. change (N_of_ascii "000") with 0 in E3.
      change (2 ^ 32) with (2 ^ 24 * 256) in L.
      assert (Q : c / 2 ^ 24 < 256) by (apply N.div_lt_upper_bound; [lia|exact L]).
      rewrite N.mod_small in E3 by exact Q. apply N.div_small_iff in E3; [exact E3|lia]. }
    unfold to_signed. change (2 ^ (32 - 1)) with 2147483648. change (2 ^ 24) with 16777216 in B.
    change (2 ^ 24)%Z with 16777216%Z. destruct (N.ltb_spec (convert32 (to_unsigned 32 z)) 2147483648); lia.
  - rewrite E. eexists _, _, _, _. split; reflexivity.
Qed.
Print Assumptions C22_32bit_signed_refuted.
Example C22_32bit_signed_case : convert_s32 (-2)%Z = 0xFF00FF%Z /\ convert_s32 0xFF00FF%Z <> (-2)%Z.
Proof. vm_compute. split; [reflexivity|discriminate]. Qed.

(* ---- C23: round trip ---- *)
Theorem C23_roundtrip : forall le ei sz (l : list (ty * val)) b,
  Forall (fun f => has_ty ei (fst f) (snd f)) l -> Forall (fun f => restorable (fst f) = true) l ->
  room_fields le sz l <= N.of_nat (length b) ->
  exists st, write_fields le ei sz l (start b) = Ok (true, st) /\
    firstn (amt st) (buf st) = enc_fields le l /\ amt st = length (enc_fields le l) /\
    skipn (amt st) (buf st) = skipn (amt st) b /\
    exists rd, read_fields le ei sz (map fst l) (start (buf st)) = Ok (true, map snd l, rd) /\
      amt rd = amt st.
Proof.
  intros le ei sz l b H RE R.
  destruct (write_fields_ok le ei sz l (start b) H (start_steady b)) as [L E]; [now rewrite start_free|].
  rewrite start_free in L. set (e := enc_fields le l) in *.
  assert (Eb : buf (after (start b) e) = e ++ skipn (length e) b) by reflexivity.
  exists (after (start b) e). split; [exact E|]. rewrite Eb. cbn [after amt start plus].
  rewrite firstn_app_len, skipn_app_len. repeat split; auto.
  exists (advance (start (e ++ skipn (length e) b)) (length e)).
  split; [|reflexivity].
  apply read_fields_ok with (rest := skipn (length e) b); auto; try apply start_steady.
  rewrite start_free, app_length, skipn_length. unfold e in *. lia.
Qed.
Print Assumptions C23_roundtrip.

Example C23_roundtrip_case :
  let l := [(TVec TStr, VList [VBytes (str "ab"); VBytes []]); (TPod 2, VBytes (str "xy"))] in
  room_fields true (fun _ => 32) l = 68 /\
  match write_fields true true (fun _ => 32) l (start (repeat "."%char 68)) with
  | Ok (true, st) => amt st = 16%nat /\ read_fields true true (fun _ => 32) (map fst l) (start (buf st)) = Ok (true, map snd l, St (buf st) 16 16 [])
  | _ => False
  end.
Proof. vm_compute. auto. Qed.

(* When container elements are PODs a buffer of exactly the encoded size is
   enough, and the reader may be given exactly the written bytes. *)
Theorem C23_exact_buffer : forall le ei sz (l : list (ty * val)) b,
  Forall (fun f => has_ty ei (fst f) (snd f)) l -> Forall (fun f => flat (fst f) = true) l ->
  length b = length (enc_fields le l) ->
  exists st, write_fields le ei sz l (start b) = Ok (true, st) /\ buf st = enc_fields le l /\
    exists rd, read_fields le ei sz (map fst l) (start (enc_fields le l)) = Ok (true, map snd l, rd) /\
      amt rd = length (enc_fields le l).
Proof.
  intros le ei sz l b H F Hb.
  assert (RE : Forall (fun f => restorable (fst f) = true) l) by (eapply Forall_impl; [|exact F]; intros f; apply flat_restorable).
  destruct (C23_roundtrip le ei sz l b H RE) as (st & E & Ef & Ea & Es & rd & Er & Em).
  { rewrite (room_fields_flat le sz ei l H F). lia. }
  assert (Eb : buf st = enc_fields le l).
  { rewrite <- (firstn_skipn (amt st) (buf st)), Ef, Es, skipn_all2 by lia. apply app_nil_r. }
  exists st. repeat split; auto. exists rd. rewrite <- Eb at 1. split; [exact Er|lia].
Qed.
Print Assumptions C23_exact_buffer.

Definition pod4 (n : N) : val := VBytes (le_bytes 4 n).
Example C23_exact_case :
  let l := [(TStr, VBytes (str "hello")); (TPair (TPod 4) (TVec (TPod 4)), VPair (pod4 7) (VList [pod4 1; pod4 2]));
            (TSeq (TPod 4), VList []); (TShort 1, VBytes (str "xy"))] in
  room_fields true (fun _ => 32) l = 32 /\
  Forall (fun f => has_ty true (fst f) (snd f)) l /\
  match write_fields true true (fun _ => 32) l (start (repeat "."%char 32)) with
  | Ok (true, st) => read_fields true true (fun _ => 32) (map fst l) (start (buf st)) = Ok (true, map snd l, St (buf st) 32 32 [])
  | _ => False
  end.
Proof.
  cbv zeta. split; [vm_compute; reflexivity|]. split; [|vm_compute; reflexivity].
  repeat constructor; simpl; try lia; try reflexivity. intros _ _ E; discriminate.
Qed.

(* Containers of strings: a buffer of exactly the right size is refused, and
   the reader refuses the exact bytes that the writer produced. *)
Theorem C23_exact_nested_refuted : exists v b,
  has_ty true (TVec TStr) v /\ length b = length (enc true (TVec TStr) v) /\
  write true true (fun _ => 32) (TVec TStr) v (start b) = Ok (false, start b) /\
  (exists st, write true true (fun _ => 32) (TSeq TStr) v (start b) = Ok (true, st) /\
     exists rd, read true true (fun _ => 32) (TSeq TStr) (VList []) (start (buf st)) = Ok (false, VList [], rd)).
Proof.
  exists (VList [VBytes (str "a")]), (repeat "."%char 9).
  split; [cbn [has_ty]; repeat split; try (repeat constructor; simpl; lia); discriminate|].
  split; [reflexivity|]. split; [vm_compute; reflexivity|].
  eexists. split; [vm_compute; reflexivity|]. eexists. vm_compute. reflexivity.
Qed.
Print Assumptions C23_exact_nested_refuted.

(* A container of deques is not restored: the reader reuses one element object
   and deque reading appends, so earlier elements leak into later ones. *)
Theorem C23_nested_sequence_refuted : exists v, has_ty true (TSeq (TSeq (TPod 1))) v /\
  exists st, write true true (fun _ => 8) (TSeq (TSeq (TPod 1))) v (start (repeat "."%char 40)) = Ok (true, st) /\
  exists v' rd, read true true (fun _ => 8) (TSeq (TSeq (TPod 1))) (VList []) (start (buf st)) = Ok (true, v', rd) /\
    v = VList [VList [VBytes (str "a")]; VList [VBytes (str "b")]] /\
    v' = VList [VList [VBytes (str "a")]; VList [VBytes (str "a"); VBytes (str "b")]].
Proof.
  exists (VList [VList [VBytes (str "a")]; VList [VBytes (str "b")]]).
  split; [repeat constructor; simpl; lia|].
  eexists. split; [vm_compute; reflexivity|]. do 2 eexists. split; [vm_compute; reflexivity|].
  split; reflexivity.
Qed.
Print Assumptions C23_nested_sequence_refuted.

(* An empty vector of PODs evaluates v[0], undefined in ISO C++, for reading and writing. *)
Theorem C23_empty_vector_refuted : forall le sz w b, (4 <= length b)%nat ->
  write le true sz (TVec (TPod w)) (VList []) (start b) = UB /\
  exists b', (forall v0, read le true sz (TVec (TPod w)) v0 (start b') = UB).
Proof.
  intros le sz w b H. split.
  - assert (S := start_steady b). cbn [write length]. change (u32 0) with 0. cbv zeta.
    rewrite cap_ok by exact S. rewrite start_free. cbn [sizeof]. rewrite N.mul_0_l.
    destruct (N.leb_spec (0 + 4) (N.of_nat (length b))); [|lia]. cbn [negb].
    rewrite store_host, write_pod_spec, host_bytes_length by exact S. rewrite start_free.
    destruct (Nat.leb_spec 4 (length b)); [|lia]. reflexivity.
  - exists (repeat "000"%char 4). intros v0. destruct le; reflexivity.
Qed.
Print Assumptions C23_empty_vector_refuted.

Example C23_empty_vector_refuted_ex : write true true (fun _ => 0) (TVec (TPod 4)) (VList []) (start (repeat "x"%char 8)) = UB.
Proof. reflexivity. Qed.

(* reader(T*&, uint64_t&) reads what the version for 32-bit lengths reads; where that fails, array
   and length stay as they were. *)
Theorem C23_length64 : forall le ei sz w n data st,
  (forall len b st', read_arr64 le w true n data st = Ok (true, len, b, st') <->
    read le ei sz (TArr w) (VArr n data) st = Ok (true, VArr len b, st')) /\
  (forall v st', read le ei sz (TArr w) (VArr n data) st = Ok (false, v, st') -> read_arr64 le w true n data st = Ok (false, n, data, st')).
Proof.
  intros le ei sz w n data st. unfold read_arr64. cbn [read].
  destruct (read_u le 4 st) as [[[len|] st1]| |]; cbn [bind]; try (split; [intros; split|intros]; congruence).
  destruct (read_raw (len * N.of_nat w) st1) as [[[b|] st2]| |]; cbn [bind]; try (split; [intros; split|intros]; congruence).
Qed.
Print Assumptions C23_length64.

Example C23_length64_case : read_arr64 true 2 true 9 (str "old") (start (le_bytes 4 2 ++ str "abcde")) = Ok (true, 2, str "abcd", St (le_bytes 4 2 ++ str "abcde") 8 8 []) /\
  read_arr64 true 2 true 9 (str "old") (start (le_bytes 4 3 ++ str "abcde")) = Ok (false, 9, str "old", St (le_bytes 4 3 ++ str "abcde") 4 4 []).
Proof. split; vm_compute; reflexivity. Qed.

(* reader(T*&, uint64_t&, false) never reads anything, whatever length is asked for. *)
Theorem C23_length64_refuted : forall le w n data st, wf st ->
  read_arr64 le w false n data st = Ok (true, n, data, st).
Proof.
  intros le w n data st W. unfold read_arr64. rewrite N.mul_0_l, read_raw_spec by now apply wf_steady.
  destruct (N.leb_spec 0 (N.of_nat (free st))); [|lia]. cbn [bind N.to_nat firstn length skipn app]. now rewrite advance_0.
Qed.
Print Assumptions C23_length64_refuted.

(* ---- C24: the cursor stays inside ---- *)
Theorem C24_reader_history : forall le ei sz ops b, Forall (rop_ok ei) ops ->
  holds (run_all (run_rop le ei sz) ops (start b)) (fun st => wf st /\ length (buf st) = length b).
Proof.
  intros le ei sz ops b H. exact (run_all_safe _ _ (fun o st => rop_safe le ei sz o st) ops (start b) H (start_wf b)).
Qed.
Print Assumptions C24_reader_history.

Example C24_reader_history_case :
  (* a length that promises more than there is *)
  run_all (run_rop true true (fun _ => 32)) [RRead TStr (VBytes []); RRead (TPod 4) (VBytes []); RRead (TPod 1) (VBytes [])]
    (start (le_bytes 4 1000 ++ str "abc")) = Ok (St (le_bytes 4 1000 ++ str "abc") 5 5 []) /\
  holds (run_all (run_rop true true (fun _ => 32)) [RRewind 1; RMark; RSeek 2; RResetMark] (start (str "ab"))) wf.
Proof. split; [vm_compute; reflexivity|]. vm_compute. repeat constructor. Qed.

Theorem C24_writer_history : forall le ei sz ops b, Forall (wop_ok ei) ops ->
  holds (run_all (run_wop le ei sz) ops (start b)) (fun st => wf st /\ length (buf st) = length b).
Proof.
  intros le ei sz ops b H. exact (run_all_safe _ _ (fun o st => wop_safe le ei sz o st) ops (start b) H (start_wf b)).
Qed.
Print Assumptions C24_writer_history.
Example C24_history_case :
  run_all (run_rop true true (fun _ => 32)) [RMark; RRead TStr (VBytes []); RSeek 100; RSeek (-2); RRead (TSeq TStr) (VList []); RResetMark; RRewind 1]
    (start (str "abcdefgh")) = Ok (start (str "abcdefgh")) /\
  run_all (run_rop true true (fun _ => 32)) [RRead TStr (VBytes []); RSeek (-2); RRead (TPod 3) (VBytes [])]
    (start (str "abcdefgh")) = Ok (St (str "abcdefgh") 5 5 []).
Proof. vm_compute. split; reflexivity. Qed.

(* Reading never changes the buffer and only moves forward, inside it; a failed
   POD or fixed-array read changes nothing at all. *)
Theorem C24_read_frame : forall le ei sz t v0 st, wf st -> (ei = false \/ pod_vec_free t = true) ->
  holds (read le ei sz t v0 st) (fun x => exists n, (n <= length (buf st) - cur st)%nat /\
    snd x = St (buf st) (cur st + n) (amt st + n) (marks st)) /\
  (forall v st', match t with TPod _ | TFix _ _ => True | _ => False end ->
     read le ei sz t v0 st = Ok (false, v, st') -> st' = st /\ v = v0).
Proof.
  intros le ei sz t v0 st W H. split.
  - exact (read_safe le ei sz t H v0 st (wf_steady _ W)).
  - intros v st' T. now apply failed_read_atomic.
Qed.
Print Assumptions C24_read_frame.

Example C24_read_frame_case :
  read true true (fun _ => 32) (TPair (TPod 1) (TPod 4)) (default (TPair (TPod 1) (TPod 4))) (start (str "abc")) =
    Ok (false, VPair (VBytes (str "a")) (default (TPod 4)), St (str "abc") 1 1 []) /\
  read true true (fun _ => 32) (TFix 2 2) (VBytes (str "wxyz")) (start (str "abc")) = Ok (false, VBytes (str "wxyz"), start (str "abc")).
Proof. split; vm_compute; reflexivity. Qed.

(* A write changes only the bytes between the old and the new cursor; these are
   a prefix of the encoding (all of it on success).  A failed POD, fixed-array
   or vector-of-POD write changes nothing at all. *)
Theorem C24_write_frame : forall le ei sz t v st, wf st -> has_ty ei t v ->
  holds (write le ei sz t v st) (fun x => exists p q, enc le t v = p ++ q /\
    (length p <= length (buf st) - cur st)%nat /\ snd x = after st p /\ (fst x = true -> q = []) /\
    (room le sz t v <= N.of_nat (length (buf st) - cur st) -> fst x = true)) /\
  (forall st', match t with TPod _ | TFix _ _ | TVec (TPod _) => True | _ => False end ->
     write le ei sz t v st = Ok (false, st') -> st' = st).
Proof.
  intros le ei sz t v st W H. split.
  - exact (write_good le ei sz t v st H (wf_steady _ W)).
  - intros st' T. now apply failed_atomic.
Qed.
Print Assumptions C24_write_frame.
Example C24_write_frame_case :
  write true true (fun _ => 32) TStr (VBytes (str "hello")) (start (str "........")) = Ok (false, St (le_bytes 4 5 ++ str "....") 4 4 []).
Proof. vm_compute. reflexivity. Qed.

(* Excluded cases.  seek(INT_MIN) negates INT_MIN; a stored count of zero makes
   the vector-of-POD reader evaluate v[0]; a failed string write is not atomic. *)
Theorem C24_seek_int_min_refuted : forall st, seek (- 2 ^ 31) st = UB.
Proof. reflexivity. Qed.
Print Assumptions C24_seek_int_min_refuted.

Example C24_seek_int_min_refuted_ex : seek (- 2 ^ 31) (start (repeat "x"%char 4)) = UB.
Proof. reflexivity. Qed.

Theorem C24_failed_string_not_atomic_refuted : forall le ei sz b n, (4 <= length b)%nat ->
  (length b - 4 < n)%nat -> N.of_nat n < 2 ^ 32 ->
  exists st, write le ei sz TStr (VBytes (repeat "x"%char n)) (start b) = Ok (false, st) /\ amt st = 4%nat.
Proof.
  intros le ei sz b n H1 H2 H3. assert (S := start_steady b). cbn [write]. rewrite repeat_length, u32_small by exact H3.
  rewrite store_host, write_pod_spec, host_bytes_length by exact S. rewrite start_free.
  destruct (Nat.leb_spec 4 (length b)); [|lia]. cbn [bind].
  assert (Lh : (length (host_bytes le 4 (N.of_nat n)) <= free (start b))%nat) by (rewrite host_bytes_length, start_free; lia).
  rewrite write_raw_spec by (try (now apply after_steady); rewrite repeat_length; lia).
  rewrite after_free, host_bytes_length, start_free by auto.
  destruct (Nat.leb_spec (N.to_nat (N.of_nat n)) (length b - 4)); [lia|].
  eexists. split; [reflexivity|]. unfold after. cbn [amt start]. now rewrite host_bytes_length.
Qed.
Print Assumptions C24_failed_string_not_atomic_refuted.

Example C24_failed_string_not_atomic_refuted_ex : exists st, write true true (fun _ => 0) TStr (VBytes (str "xxxxx")) (start (repeat "y"%char 8)) = Ok (false, st) /\ amt st = 4%nat.
Proof. eexists; split; vm_compute; reflexivity. Qed.

(* ---- C54: fixed-width text fields ---- *)
Theorem C54_left_padding : forall text size pad st, wf st ->
  N.of_nat (length text) <= size -> size < 2 ^ 32 -> size <= N.of_nat (length (buf st) - cur st) ->
  write_text text size false pad st = Ok (true, after st (repeat pad (N.to_nat size - length text) ++ text)).
Proof. exact left_pad_ok. Qed.
Print Assumptions C54_left_padding.
Example C54_left_case : write_text (str "42") 5 false "."%char (start (str "xxxxxxx")) = Ok (true, St (str "...42xx") 5 5 []).
Proof. vm_compute. reflexivity. Qed.

(* right padding (value 0 of padding_mode) resizes to the wrong length and then
   copies beyond the string *)
Theorem C54_right_padding_refuted : forall text size pad st, wf st -> (2 <= length text)%nat ->
  N.of_nat (length text) < size -> size < 2 ^ 32 -> size <= N.of_nat (length (buf st) - cur st) ->
  write_text text size true pad st = UB.
Proof. exact right_pad_ub. Qed.
Print Assumptions C54_right_padding_refuted.
Example C54_right_case : write_text (str "42") 5 true "."%char (start (str "xxxxxxx")) = UB
  /\ write_text (str "7") 5 true "."%char (start (str "xxxxxxx")) = Ok (true, St (str "7..." ++ "000"%char :: str "xx") 5 5 []).
Proof. vm_compute. split; reflexivity. Qed.
