(* Properties C43 and C72, continued: hexadecimal fields of a row, lists with a number of elements. *)
From Verif Require Import Base Codec_Spec Split_Model Split_Spec Split_Proofs Split_Proofs2 Num_Model Num_Spec
  Num_Props Parse_Model Parse_Spec Parse_Spec2 Parse_Proofs Parse_Props Sink_Model Sink_Spec Sink_Proofs Sink_Props.
Local Open Scope nat_scope.

(* as a field of parse: a fresh sink reports exactly whether the text was taken, and keeps the report *)
Theorem C43_field : forall s d t, t <> [] -> hex_written s d ->
  exists b t', conv_hex_number s (false, t) = Ok (b, (b, t')) /\ length t' = length t /\
    (b = true <-> hex_text_digits d /\ 0 < length d <= 2 * length t) /\
    (b = true -> little_endian t' = (hex_number d * 256 ^ N.of_nat (length t - (length d + 1) / 2))%N).
Proof.
  intros s d t Ht Hw. destruct (C43_accepted s d t Ht Hw) as (b & t' & E & H). exists b, t'. split; [|exact H].
  unfold conv_hex_number. rewrite E. reflexivity.
Qed.
Print Assumptions C43_field.

Example C43_field_example :
  let hex t := Target _ conv_hex_number t in
  parse_values (str ",") (str "0x1234,7") [hex (false, repeat zero 2); Target _ (conv_signed t_int n_int) 0%Z] =
    Ok (true, [hex (true, map ascii_of_nat [52; 18]); Target _ (conv_signed t_int n_int) 7%Z]) /\
  parse_values (str ",") (str "0x123g,7") [hex (false, repeat zero 2); Target _ (conv_signed t_int n_int) 0%Z] =
    Ok (false, [hex (false, repeat zero 2); Target _ (conv_signed t_int n_int) 0%Z]).
Proof. split; reflexivity. Qed.

(* count(n) on a sink bound to a container: the values of the first n tokens, under every option
   but include-all without include-first *)
Theorem C72_set_count : forall T conv (d : T) ok delims s opt n c toks,
  (has_bit opt 2 = true -> has_bit opt 1 = true) ->
  tokens_of (is_delim delims) s (spec_tok_end opt) (spec_next_start opt) toks ->
  Forall (fun r => behaves conv d ok (sub s r)) (firstn n toks) ->
  exists vs, converted ok (map (sub s) (firstn n toks)) vs /\
    conv_sink conv d (fun c v => c ++ [v]) (@length T) s (count (Count n) (sink_of_container c delims opt)) =
      Ok (length vs =? n, count (Count n) (sink_of_container (c ++ vs) delims opt)).
Proof.
  intros T conv d ok delims s opt n c toks Ho Ht Hb.
  destruct (split_toks delims s opt) as (toks' & E & H'). rewrite (tokens_unique _ _ _ _ _ _ H' Ht) in E.
  destruct (split_n_firstn (delim_pred delims) s opt Ho n) as (toks2 & E2 & En). rewrite E in E2. injection E2 as <-.
  destruct (insert_ranges_ok conv d (fun c v => c ++ [v]) ok s (firstn n toks)) with (c := c) as (vs & H1 & H2).
  { exact Hb. }
  exists vs. split; [exact H1|]. unfold conv_sink, count, sink_of_container. cbn [s_container s_count s_delims s_opt].
  unfold parse_n_container. rewrite En. cbn [bind]. rewrite H2. cbn [bind].
  assert (Ef : forall vs c, fold_left (fun (c : list T) v => c ++ [v]) vs c = c ++ vs).
  { clear. induction vs as [|v vs IH]; intros c; cbn [fold_left]; [now rewrite app_nil_r|]. rewrite IH, <- app_assoc. reflexivity. }
  rewrite Ef, app_length. replace (length c + length vs - length c) with (length vs) by lia. reflexivity.
Qed.
Print Assumptions C72_set_count.

Example C72_set_count_example :
  conv_sink (conv_signed t_int n_int) 0%Z (fun c v => c ++ [v]) (@length Z) (str "1,,3,4") (count (Count 3) (sink_of_container [9%Z] (str ",") 0)) =
    Ok (false, count (Count 3) (sink_of_container [9; 1; 3]%Z (str ",") 0)) /\
  conv_sink (conv_signed t_int n_int) 0%Z (fun c v => c ++ [v]) (@length Z) (str "1,,3,4") (count (Count 3) (sink_of_container [9%Z] (str ",") 1)) =
    Ok (true, count (Count 3) (sink_of_container [9; 1; 3; 4]%Z (str ",") 1)).
Proof. vm_compute. auto. Qed.

(* hexadecimal text as a field: an even number of digits is decoded and accepted, anything shorter or
   odd refused *)
Theorem C43_string_field : forall s d out, hex_written s d ->
  (length d < 2 -> conv_hex_string s out = Ok (false, out)) /\
  (length d mod 2 = 1 -> exists out', conv_hex_string s out = Ok (false, out')) /\
  (2 <= length d -> length d mod 2 = 0 -> exists t, conv_hex_string s out = Ok (true, t) /\ 2 * length t = length d /\
     (hex_text_digits d -> map lower (hex_text t) = map lower d)).
Proof. exact C43_string. Qed.
Print Assumptions C43_string_field.
Example C43_string_field_example :
  parse_values (str ",") (str "0x4869,21") [Target _ conv_hex_string (str "?"); Target _ conv_hex_string []] =
    Ok (true, [Target _ conv_hex_string (str "Hi"); Target _ conv_hex_string (str "!")]) /\
  conv_hex_string (str "486") (str "?") = Ok (false, str "?").
Proof. split; reflexivity. Qed.

(* a field with a fresh base64 number sink is never accepted, so that no row with one parses *)
Theorem C43_base64_field_refuted : forall s t b v, conv_base64_number s (false, t) = Ok (b, v) -> b = false /\ fst v = false.
Proof.
  intros s t b v. unfold conv_base64_number. destruct (base64_to_number s false t) as [[b' t']| |] eqn:E; cbn [bind]; try discriminate.
  intros H. injection H as <- <-. cbn [fst]. split; eapply C43_base64_never_valid_refuted; exact E.
Qed.
Print Assumptions C43_base64_field_refuted.
Example C43_base64_field_example :
  conv_base64_number (str "EjRWeA==") (false, repeat zero 4) = Ok (false, (false, map ascii_of_nat [120; 86; 52; 18])).
Proof. reflexivity. Qed.
