(* Properties C14-C17, C51 and the case-conversion half of C44. *)
From Verif Require Import Base Codec_Tables Codec_Model Codec_Spec Edit_Proofs Codec_Proofs Codec_Proofs2.
Local Ltac Zify.zify_post_hook ::= Z.div_mod_to_equations.

(* C14: the text is the usual hex text, exactly 2n characters are written, and it decodes back *)
Theorem C14_hex_text :
  forall s out, 2 * length s <= length out ->
  length (hex_text s) = 2 * length s /\
  convert_bin_to_hex s out = Ok (hex_text s ++ skipn (2 * length s) out).
Proof. intros s out H. split; [apply hex_text_length|now apply convert_bin_to_hex_ok]. Qed.
Print Assumptions C14_hex_text.

Example C14_hex_text_ex : convert_bin_to_hex [ascii_of_nat 0; ascii_of_nat 175] (str "xxxxxx") = Ok (str "00AFxx").
Proof. vm_compute. reflexivity. Qed.

Theorem C14_hex_roundtrip :
  forall s before before2, s <> [] ->
  exists t, convert_bin_to_hex_str s before = Ok t /\ t = hex_text s /\ length t = 2 * length s /\
    convert_hex_to_bin_str t before2 = Ok (true, s) /\
    convert_hex_to_bin_str (map lower t) before2 = Ok (true, s).
Proof. exact hex_roundtrip. Qed.
Print Assumptions C14_hex_roundtrip.

Example C14_hex_roundtrip_ex :
  let s := [zero; ascii_of_nat 255; "~"%char] in
  convert_bin_to_hex_str s (str "junk") = Ok (str "00FF7E") /\ convert_hex_to_bin_str (str "00ff7e") [] = Ok (true, s).
Proof. vm_compute. auto. Qed.

(* empty or odd-length text: false, and the output is untouched *)
Theorem C14_hex_refused :
  forall s output, s = [] \/ length s mod 2 = 1 ->
  convert_hex_to_bin_str s output = Ok (false, output) /\
  convert_hex_to_bin s output = Ok (false, output).
Proof. exact hex_refused. Qed.
Print Assumptions C14_hex_refused.

Example C14_hex_refused_ex : convert_hex_to_bin_str (str "abc") (str "old") = Ok (false, str "old") /\
  convert_hex_to_bin [] (str "old") = Ok (false, str "old").
Proof. split; reflexivity. Qed.

(* hence the empty string is the one input that does not come back *)
Theorem C14_hex_empty_refuted :
  forall before before2,
  convert_bin_to_hex_str [] before = Ok [] /\ convert_hex_to_bin_str [] before2 = Ok (false, before2).
Proof. intros. split; reflexivity. Qed.
Print Assumptions C14_hex_empty_refuted.

Example C14_example :
  convert_bin_to_hex_str (str "strtk~") [] = Ok (str "737472746B7E") /\
  convert_hex_to_bin_str (str "737472746b7E") (str "xy") = Ok (true, str "strtk~") /\
  convert_hex_to_bin_str (str "123") (str "xy") = Ok (false, str "xy").
Proof. repeat split. Qed.

(* C15: the answer depends on the length alone, and each output byte is made from the two
   characters at its place, a character that is not a hex digit counting as digit 0 *)
Theorem C15_hex_accepts :
  forall s output, s <> [] -> length s mod 2 = 0 ->
  exists t, convert_hex_to_bin_str s output = Ok (true, t) /\ 2 * length t = length s /\
    forall i a b, nth_error s (2 * i) = Some a -> nth_error s (2 * i + 1) = Some b ->
    let digit c := match hex_value c with Some v => v | None => 0%N end in
    exists c, nth_error t i = Some c /\ N_of_ascii c = (16 * digit a + digit b)%N.
Proof.
  intros s output Hs Hm. exists (hex_decode s). split; [now apply hex_accepts|]. split.
  - rewrite (hex_decode_length s (length s / 2)) by lia. lia.
  - intros i a b Ha Hb digit. eexists. split; [apply hex_decode_nth; eassumption|].
    apply N_ascii_embedding. destruct (hex_to_bin_ok a) as [_ H1]. destruct (hex_to_bin_ok b) as [_ H2].
    change (digit a) with (hex_read a). change (digit b) with (hex_read b). lia.
Qed.
Print Assumptions C15_hex_accepts.

Example C15_hex_accepts_ex : convert_hex_to_bin_str (str "7G!1") [] = Ok (true, [ascii_of_nat 112; ascii_of_nat 1]).
Proof. vm_compute. reflexivity. Qed.

(* so it is not a validator: any even-length text made only of non-hex characters decodes to zero bytes *)
Theorem C15_validation_refuted :
  forall s output, s <> [] -> length s mod 2 = 0 -> Forall (fun c => hex_value c = None) s ->
  exists t, convert_hex_to_bin_str s output = Ok (true, t) /\ Forall (fun c => c = zero) t.
Proof.
  intros s output Hs Hm Hf. exists (hex_decode s). split; [now apply hex_accepts|].
  clear Hs Hm. assert (G : forall n s, length s <= n -> Forall (fun c => hex_value c = None) s ->
     Forall (fun c => c = zero) (hex_decode s)).
  { induction n as [|n IH]; intros [|a [|b t]] Hn F; simpl in Hn; cbn [hex_decode]; try constructor; try lia.
    - inversion F as [|x l F1 F2]; subst. inversion F2 as [|x l F3 F4]; subst.
      unfold hex_read. rewrite F1, F3. reflexivity.
    - apply IH; [lia|]. inversion F as [|x l F1 F2]; subst. now inversion F2. }
  exact (G (length s) s (le_n _) Hf).
Qed.
Print Assumptions C15_validation_refuted.

Example C15_example : convert_hex_to_bin_str (str "4x?1") [] = Ok (true, [ascii_of_nat 64; ascii_of_nat 1]) /\
  convert_hex_to_bin_str (str "zz") [] = Ok (true, [zero]).
Proof. split; reflexivity. Qed.

(* C16: the text is RFC 4648 base64 *)
Theorem C16_base64_text :
  forall s output, convert_bin_to_base64_str s output = Ok (base64_text s) /\
  length (base64_text s) = 4 * ((length s + 2) / 3).
Proof.
  intros s output. split; [apply convert_bin_to_base64_str_ok|].
  rewrite <- enc_is_base64, enc_length.
  pose proof (Nat.div_mod (length s) 3 ltac:(lia)) as DM.
  pose proof (Nat.mod_upper_bound (length s) 3 ltac:(lia)) as MB.
  destruct (Nat.ltb_spec 0 (length s mod 3)); lia.
Qed.
Print Assumptions C16_base64_text.

Example C16_base64_text_ex :
  convert_bin_to_base64_str (str "any carnal pleas") (str "old") = Ok (str "YW55IGNhcm5hbCBwbGVhcw==") /\
  convert_bin_to_base64_str [] (str "old") = Ok [].
Proof. split; vm_compute; reflexivity. Qed.

(* pointer version: returns the length, writes exactly that many bytes *)
Theorem C16_base64_buffer :
  forall s out, 4 * ((length s + 2) / 3) <= length out ->
  convert_bin_to_base64 s out =
    Ok (length (base64_text s), base64_text s ++ skipn (length (base64_text s)) out).
Proof.
  intros s out H. rewrite <- enc_is_base64. apply convert_bin_to_base64_ok.
  destruct (C16_base64_text s []) as [_ E]. rewrite enc_is_base64, E. exact H.
Qed.
Print Assumptions C16_base64_buffer.

Example C16_base64_buffer_ex : convert_bin_to_base64 (str "Ma") (str "xxxxxx") = Ok (4, str "TWE=xx").
Proof. vm_compute. reflexivity. Qed.

Theorem C16_base64_roundtrip :
  forall s before before2, s <> [] ->
  (t <- convert_bin_to_base64_str s before ;; convert_base64_to_bin_str t before2) = Ok s.
Proof. exact base64_roundtrip. Qed.
Print Assumptions C16_base64_roundtrip.

Example C16_base64_roundtrip_ex :
  let s := [zero; zero; ascii_of_nat 255; ascii_of_nat 16] in
  (t <- convert_bin_to_base64_str s (str "a") ;; convert_base64_to_bin_str t (str "bcdefghijkl")) = Ok s.
Proof. vm_compute. reflexivity. Qed.

(* pointer version of the decoder: needs only |s| bytes of room, returns |s| *)
Theorem C16_base64_decode_buffer :
  forall s out, s <> [] -> length s <= length out ->
  convert_base64_to_bin (base64_text s) out = Ok (length s, s ++ skipn (length s) out).
Proof. intros s out. rewrite <- enc_is_base64. apply convert_base64_to_bin_ok. Qed.
Print Assumptions C16_base64_decode_buffer.

Example C16_base64_decode_buffer_ex : convert_base64_to_bin (str "TWFu") (str "xxxx") = Ok (3, str "Manx").
Proof. vm_compute. reflexivity. Qed.

Example C16_example :
  convert_bin_to_base64_str (str "strt") [] = Ok (str "c3RydA==") /\
  convert_base64_to_bin_str (str "c3RydA==") [] = Ok (str "strt").
Proof. split; reflexivity. Qed.

(* C17: any text of at least two characters is safe, whatever it contains *)
Theorem C17_base64_decode_safe :
  forall s out, 2 <= length s -> length s <= length out ->
  exists n out', convert_base64_to_bin s out = Ok (n, out') /\ n <= length s /\ length out' = length out.
Proof. exact base64_decode_safe. Qed.
Print Assumptions C17_base64_decode_safe.

Example C17_base64_decode_safe_ex :
  match convert_base64_to_bin (str "a=") (str "xyz") with Ok (n, out) => n <= 2 /\ length out = 3 | _ => False end /\
  match convert_base64_to_bin [ascii_of_nat 200; zero; "="%char; ascii_of_nat 255; "Q"%char] (str "12345") with
  | Ok (n, out) => n <= 5 /\ length out = 5 | _ => False end.
Proof. vm_compute. repeat split; repeat constructor. Qed.

(* shorter text reads before its beginning; in particular the empty string does not round-trip *)
Theorem C17_short_text_refuted :
  forall s out, length s < 2 -> convert_base64_to_bin s out = UB.
Proof. exact base64_decode_short. Qed.
Print Assumptions C17_short_text_refuted.

Example C17_short_text_refuted_ex : convert_base64_to_bin (str "A") (repeat zero 4) = UB /\ convert_base64_to_bin (str "QQ==") (repeat zero 4) <> UB.
Proof. split; [vm_compute; reflexivity|]. intros H. vm_compute in H. discriminate. Qed.

Theorem C17_empty_roundtrip_refuted :
  forall before before2,
  (t <- convert_bin_to_base64_str [] before ;; convert_base64_to_bin_str t before2) = UB.
Proof. intros. reflexivity. Qed.
Print Assumptions C17_empty_roundtrip_refuted.

Example C17_example :
  exists out, convert_base64_to_bin (str "%$!=") (repeat zero 4) = Ok (2, out).
Proof. eexists. vm_compute. reflexivity. Qed.

(* C44, conversion half: letters only, idempotent, no undefined behaviour for any byte *)
Theorem C44_case_conversion :
  forall s,
  convert_to_uppercase s = Ok (map upper s) /\ convert_to_lowercase s = Ok (map lower s) /\
  (t <- convert_to_uppercase s ;; convert_to_uppercase t) = convert_to_uppercase s /\
  (t <- convert_to_lowercase s ;; convert_to_lowercase t) = convert_to_lowercase s /\
  (t <- convert_to_uppercase s ;; convert_to_lowercase t) = convert_to_lowercase s.
Proof.
  intros s. rewrite !upper_ok, !lower_ok. cbn [bind]. rewrite ?upper_ok, ?lower_ok, !map_map.
  assert (H : forall c, upper (upper c) = upper c /\ lower (lower c) = lower c /\ lower (upper c) = lower c).
  { intros c. pose (P := fun c => Ascii.eqb (upper (upper c)) (upper c) &&
      (Ascii.eqb (lower (lower c)) (lower c) && Ascii.eqb (lower (upper c)) (lower c))).
    assert (G : P c = true) by (apply all_bytes_spec; vm_compute; reflexivity).
    unfold P in G. apply andb_prop in G. destruct G as [G1 G]. apply andb_prop in G. destruct G as [G2 G3].
    apply Ascii.eqb_eq in G1, G2, G3. auto. }
  repeat split; f_equal; apply map_ext; intros c; apply H.
Qed.
Print Assumptions C44_case_conversion.

Example C44_case_example : convert_to_uppercase (str "aZ9~b") = Ok (str "AZ9~B").
Proof. reflexivity. Qed.

(* C51 *)
Theorem C51_printable :
  forall s, exists t, convert_to_printable_chars s = Ok t /\ length t = length s /\
  forall i c, nth_error s i = Some c ->
    nth_error t i = Some (if printable c then c else "."%char).
Proof.
  intros s. exists (map to_printable s). split; [apply printable_ok|]. split; [apply map_length|].
  intros i c H. unfold to_printable. rewrite nth_error_map, H. reflexivity.
Qed.
Print Assumptions C51_printable.

Example C51_example : convert_to_printable_chars (str "a b" ++ [ascii_of_nat 200]) = Ok (str "a.b.").
Proof. reflexivity. Qed.
