(* Properties C43, C71, C72: hexadecimal and base64 sinks, truncated integers, container sinks. *)
From Verif Require Import Base Codec_Model Codec_Spec Codec_Proofs Codec_Props Split_Model Split_Spec Split_Proofs Num_Model Num_Spec
  Num_Props Parse_Model Parse_Spec Parse_Proofs Parse_Props Sink_Model Sink_Spec Sink_Proofs.
Local Open Scope nat_scope.

(* ---- C43 ---- *)
Theorem C43_written : forall s, exists d, hex_written s d.
Proof. exact hex_written_exists. Qed.
Print Assumptions C43_written.

Example C43_written_example : hex_written (str "0x1F") (str "1F") /\ hex_written (str "1F") (str "1F") /\ hex_written (str "0x") (str "0x").
Proof.
  split; [right; split; [discriminate|left; reflexivity]|].
  split; left; (split; [reflexivity|]); intros (e & He & [E|E]); cbn in E; try discriminate.
  injection E as E. congruence.
Qed.

(* text with all its leading digits: 2*sizeof(T) digits or one fewer, with or without prefix *)
Theorem C43_full_width : forall s d valid t, t <> [] -> hex_written s d -> hex_text_digits d ->
  length d = 2 * length t \/ length d + 1 = 2 * length t ->
  exists t', hex_to_number s valid t = Ok (true, t') /\ length t' = length t /\ little_endian t' = hex_number d.
Proof.
  intros s d valid t Ht Hw Hd Hl. destruct (hex_number_ok s d valid t Hw Ht) as (_ & _ & _ & H).
  assert (1 <= length t) by (destruct t; [congruence|cbn; lia]).
  destruct H as (t' & E & H1 & H2); auto; [lia|]. exists t'. split; auto. split; auto. rewrite H2.
  assert (X : (length d + 1) / 2 = length t).
  { destruct Hl as [Hl|Hl].
    - rewrite Hl. replace (2 * length t + 1) with (1 + length t * 2) by lia. rewrite Nat.div_add by lia. reflexivity.
    - rewrite Hl. rewrite Nat.mul_comm. now apply Nat.div_mul. }
  rewrite X, Nat.sub_diag. change (N.of_nat 0) with 0%N. rewrite N.pow_0_r. lia.
Qed.
Print Assumptions C43_full_width.

Example C43_full_width_example : hex_to_number (str "0XbeEF") true (str "??") = Ok (true, map ascii_of_nat [239; 190]) /\
  little_endian (map ascii_of_nat [239; 190]) = hex_number (str "beEF") /\ hex_number (str "beEF") = 48879%N /\
  hex_to_number (str "123") false (repeat zero 2) = Ok (true, map ascii_of_nat [35; 1]).
Proof. vm_compute. auto. Qed.

(* exactly what is accepted by a fresh sink (valid_ is false), and what is stored in general *)
Theorem C43_accepted : forall s d t, t <> [] -> hex_written s d ->
  exists b t', hex_to_number s false t = Ok (b, t') /\ length t' = length t /\
    (b = true <-> hex_text_digits d /\ 0 < length d <= 2 * length t) /\
    (b = true -> little_endian t' = (hex_number d * 256 ^ N.of_nat (length t - (length d + 1) / 2))%N).
Proof.
  intros s d t Ht Hw. destruct (hex_number_ok s d false t Hw Ht) as (H1 & H2 & H3 & H4).
  destruct (Nat.lt_ge_cases (2 * length t) (length d)) as [Hl|Hl].
  { exists false, t. rewrite H1 by auto. repeat split; auto; try discriminate. intros; lia. }
  destruct d as [|c d'].
  { exists false, (repeat zero (length t)). rewrite H3 by auto. split; auto. split; [apply repeat_length|].
    split; [|discriminate]. split; [discriminate|]. cbn. lia. }
  set (d := c :: d') in *.
  destruct (forallb hex_value_check d) eqn:F.
  - apply hex_checks_ok in F. destruct H4 as (t' & E & H5 & H6); auto; [cbn in *; lia|].
    exists true, t'. repeat split; auto. unfold d. cbn. lia.
  - exists false, t. assert (N : ~ hex_text_digits d) by (intros X; apply hex_checks_ok in X; congruence).
    rewrite H2 by auto. split; auto. split; auto. split; [|discriminate]. split; [discriminate|tauto].
Qed.
Print Assumptions C43_accepted.

Example C43_accepted_example : hex_to_number (str "123g") false (repeat zero 2) = Ok (false, repeat zero 2) /\
  hex_to_number [] false (repeat zero 2) = Ok (false, repeat zero 2) /\ hex_to_number (str "12345") false (repeat zero 2) = Ok (false, repeat zero 2) /\
  hex_to_number (str "12") false (repeat zero 2) = Ok (true, map ascii_of_nat [0; 18]).
Proof. vm_compute. auto. Qed.

(* text with fewer digits is stored shifted up by the missing bytes: the number written is not
   the number read, unless it is 0 *)
Theorem C43_short_text_refuted : forall s d valid t, t <> [] -> hex_written s d -> hex_text_digits d ->
  0 < length d -> length d + 1 < 2 * length t -> hex_number d <> 0%N ->
  exists t', hex_to_number s valid t = Ok (true, t') /\ little_endian t' <> hex_number d.
Proof.
  intros s d valid t Ht Hw Hd Hl Hl2 Hn. destruct (hex_number_ok s d valid t Hw Ht) as (_ & _ & _ & H).
  destruct H as (t' & E & _ & H2); auto; [lia|]. exists t'. split; auto. rewrite H2.
  assert (X : 1 <= length t - (length d + 1) / 2).
  { assert ((length d + 1) / 2 < length t); [|lia]. apply Nat.div_lt_upper_bound; lia. }
  destruct (length t - (length d + 1) / 2) as [|j]; [lia|]. rewrite Nat2N.inj_succ, N.pow_succ_r'.
  assert (256 ^ N.of_nat j <> 0)%N by (apply N.pow_nonzero; lia). nia.
Qed.
Print Assumptions C43_short_text_refuted.

Example C43_short_text_refuted_ex : (r <- hex_to_number (str "12") false (repeat zero 4) ;; Ok (fst r, little_endian (snd r))) = Ok (true, 301989888)%N /\ hex_number (str "12") = 18%N.
Proof. split; vm_compute; reflexivity. Qed.

(* too many digits leave valid_ as it was: a sink that succeeded before reports success again *)
Theorem C43_stale_success_refuted : forall s d t, t <> [] -> hex_written s d -> 2 * length t < length d ->
  hex_to_number s true t = Ok (true, t).
Proof. intros s d t Ht Hw Hl. now apply (hex_number_ok s d true t Hw Ht). Qed.
Print Assumptions C43_stale_success_refuted.

Example C43_example :
  hex_to_number (str "0xDEADBEEF") false (repeat zero 4) = Ok (true, map ascii_of_nat [239; 190; 173; 222]) /\
  little_endian (map ascii_of_nat [239; 190; 173; 222]) = 0xDEADBEEF%N /\
  hex_to_number (str "7fF") false (repeat zero 2) = Ok (true, map ascii_of_nat [255; 7]) /\
  hex_to_number (str "1F") false (repeat zero 4) = Ok (true, map ascii_of_nat [0; 0; 0; 31]) /\
  little_endian (map ascii_of_nat [0; 0; 0; 31]) = 0x1F000000%N /\
  hex_to_number (str "12g4") false (repeat zero 4) = Ok (false, repeat zero 4) /\
  hex_to_number (str "123456789") true (str "abcd") = Ok (true, str "abcd").
Proof. vm_compute. repeat split. Qed.

(* the string sink: pairs of characters become bytes *)
Theorem C43_string : forall s d out, hex_written s d ->
  (length d < 2 -> hex_to_string s out = Ok (false, out)) /\
  (length d mod 2 = 1 -> exists out', hex_to_string s out = Ok (false, out')) /\
  (2 <= length d -> length d mod 2 = 0 -> exists t, hex_to_string s out = Ok (true, t) /\ 2 * length t = length d /\
     (hex_text_digits d -> map lower (hex_text t) = map lower d)).
Proof.
  intros s d out Hw. destruct (hex_string_ok s d out Hw) as (H1 & H2 & H3). split; [exact H1|]. split.
  - intros Hm. destruct (Nat.lt_ge_cases (length d) 2); [exists out; auto|eexists; apply H2; auto].
  - intros Hl Hm. exists (hex_decode d). split; auto.
    assert (Hd : length d = 2 * (length d / 2)) by (pose proof (Nat.div_mod (length d) 2 ltac:(lia)); lia).
    split; [rewrite (hex_decode_length _ _ Hd); lia|].
    clear -Hd. revert Hd. generalize (length d / 2). intros n. revert d. induction n as [|n IH]; intros d Hd Hx.
    + destruct d; [reflexivity|cbn in Hd; lia].
    + destruct d as [|a [|b d]]; cbn [length] in Hd; try lia. inversion Hx as [|? ? Ha Hx1]; subst. inversion Hx1 as [|? ? Hb Hx2]; subst.
      cbn [hex_decode]. change (ascii_of_N (16 * hex_read a + hex_read b) :: hex_decode d)
        with ([ascii_of_N (16 * hex_read a + hex_read b)] ++ hex_decode d).
      rewrite hex_text_app, map_app, (IH d) by (auto; lia). unfold hex_text. cbn [map concat app].
      pose proof (proj2 (hex_to_bin_ok a)). pose proof (proj2 (hex_to_bin_ok b)).
      rewrite N_ascii_embedding by lia.
      replace ((16 * hex_read a + hex_read b) / 16)%N with (hex_read a) by (apply N.div_unique with (r := hex_read b); lia).
      replace ((16 * hex_read a + hex_read b) mod 16)%N with (hex_read b) by (apply N.mod_unique with (q := hex_read a); lia).
      assert (X : forall c, hex_value c <> None -> lower (hex_digit (hex_read c)) = lower c).
      { intros c. pose proof (nat_ascii_bounded c) as Hc. rewrite <- (ascii_nat_embedding c). revert Hc. generalize (nat_of_ascii c).
        intros k Hk. assert (Y : forallb (fun k => let c := ascii_of_nat k in
          match hex_value c with None => true | Some _ => Ascii.eqb (lower (hex_digit (hex_read c))) (lower c) end) (seq 0 256) = true)
          by (vm_compute; reflexivity).
        rewrite forallb_forall in Y. specialize (Y k ltac:(apply in_seq; lia)). cbv zeta in Y.
        destruct (hex_value (ascii_of_nat k)); [|congruence]. intros _. now apply Ascii.eqb_eq. }
      now rewrite (X a Ha), (X b Hb).
Qed.
Print Assumptions C43_string.

Example C43_string_ex : hex_to_string (str "616") (str "?") = Ok (false, str "?") /\ hex_to_string (str "6162") (str "?") = Ok (true, str "ab") /\
  hex_text (str "ab") = str "6162" /\ hex_to_string (str "6") (str "?") = Ok (false, str "?").
Proof. vm_compute. auto. Qed.
(* but characters that are no hex digits are accepted too *)
Theorem C43_string_any_text_refuted : hex_to_string (str "zz") [] = Ok (true, [zero]).
Proof. reflexivity. Qed.
Print Assumptions C43_string_any_text_refuted.
Example C43_string_example : hex_to_string (str "0x48656C6c6F") (str "?") = Ok (true, str "Hello").
Proof. reflexivity. Qed.

(* the base64 number sink never reports success on a fresh sink, whatever the text *)
Theorem C43_base64_never_valid_refuted : forall s t b t', base64_to_number s false t = Ok (b, t') -> b = false.
Proof.
  intros s t b t'. unfold base64_to_number. rewrite range_only_ok. cbn [bind].
  destruct (forallb base64_value_check s); cbn [negb]; [|congruence].
  destruct (convert_base64_to_bin s _) as [[n u]| |]; cbn [bind]; try discriminate.
  rewrite reverse_bytes_ok. cbn [bind]. congruence.
Qed.
Print Assumptions C43_base64_never_valid_refuted.

Example C43_base64_never_valid_refuted_ex : base64_to_number (str "AQAAAA==") false (repeat zero 4) <> UB /\ forall t, base64_to_number (str "AQAAAA==") false (repeat zero 4) <> Ok (true, t).
Proof. split; [intros H; vm_compute in H; discriminate|]. intros t H. vm_compute in H. discriminate. Qed.
(* although the text is decoded and stored, most significant byte first *)
Theorem C43_base64_stores : forall bs valid t, bs <> [] -> length bs <= length t ->
  base64_to_number (base64_text bs) valid t = Ok (valid, rev (bs ++ repeat zero (length t - length bs))).
Proof. exact base64_number_ok. Qed.
Print Assumptions C43_base64_stores.

Example C43_base64_stores_example : base64_to_number (base64_text (map ascii_of_nat [1; 2; 3])) true (repeat zero 4) = Ok (true, map ascii_of_nat [0; 3; 2; 1]).
Proof. vm_compute. reflexivity. Qed.
(* one character is too short to look for padding; more bytes than the number has are written
   past its end *)
Theorem C43_base64_memory_refuted :
  base64_to_number (str "A") false (repeat zero 4) = UB /\ base64_to_number (base64_text (str "abcde")) false (repeat zero 4) = UB.
Proof. vm_compute. auto. Qed.
Print Assumptions C43_base64_memory_refuted.
Example C43_base64_example :
  base64_text (map ascii_of_nat [18; 52; 86; 120]) = str "EjRWeA==" /\
  exists t, base64_to_number (str "EjRWeA==") false (repeat zero 4) = Ok (false, t) /\ little_endian t = 0x12345678%N.
Proof. vm_compute. split; auto. eexists. split; reflexivity. Qed.

(* ---- C71: truncated_int ---- *)
Theorem C71_unknown_size : forall T (conv : converter T) a r t,
  ~ In "."%char a -> (r = [] \/ exists b, r = "."%char :: b) -> truncated_int conv None (a ++ r) t = conv a t.
Proof. intros. now apply truncated_unknown. Qed.
Print Assumptions C71_unknown_size.

Example C71_unknown_example : truncated_int (conv_signed t_int n_int) None (str "12.5.7") 0%Z = Ok (true, 12%Z) /\
  truncated_int (conv_signed t_int n_int) None (str "12") 0%Z = Ok (true, 12%Z) /\ truncated_int (conv_signed t_int n_int) None (str ".5") 3%Z = Ok (false, 3%Z).
Proof. vm_compute. auto. Qed.
Theorem C71_fixed_size : forall T (conv : converter T) n a f t, length f = n ->
  truncated_int conv (Some n) (a ++ "."%char :: f) t = conv a t.
Proof.
  intros T conv n a f t Hf. unfold truncated_int. rewrite app_length. cbn [length].
  replace (length a + S (length f) <? n + 1) with false by (symmetry; apply Nat.ltb_ge; lia).
  replace (length a + S (length f) - (n + 1)) with (length a) by lia. now rewrite firstn_app_len.
Qed.
Print Assumptions C71_fixed_size.

Example C71_fixed_example : truncated_int (conv_signed t_int n_int) (Some 3) (str "12.xyz") 0%Z = Ok (true, 12%Z) /\
  truncated_int (conv_signed t_int n_int) (Some 0) (str "12.") 0%Z = Ok (true, 12%Z).
Proof. vm_compute. auto. Qed.
Theorem C71_too_short : forall T (conv : converter T) n s t, length s <= n -> truncated_int conv (Some n) s t = Ok (false, t).
Proof. intros T conv n s t H. unfold truncated_int. replace (length s <? n + 1) with true by (symmetry; apply Nat.ltb_lt; lia). reflexivity. Qed.
Print Assumptions C71_too_short.

Example C71_too_short_example : truncated_int (conv_signed t_int n_int) (Some 4) (str "1234") 7%Z = Ok (false, 7%Z).
Proof. vm_compute. reflexivity. Qed.
(* the fixed size drops the last n+1 characters whatever they are *)
Theorem C71_fixed_size_unchecked_refuted :
  truncated_int (conv_signed t_int n_int) (Some 1) (str "1234") 0%Z = Ok (true, 12%Z) /\
  truncated_int (conv_signed t_int n_int) (Some 1) (str "12.34") 0%Z <> Ok (true, 12%Z).
Proof. split; [vm_compute; reflexivity|vm_compute; discriminate]. Qed.
Print Assumptions C71_fixed_size_unchecked_refuted.
Example C71_example :
  truncated_int (conv_signed t_int n_int) None (str "-12.75") 0%Z = Ok (true, (-12)%Z) /\
  truncated_int (conv_signed t_int n_int) (Some 2) (str "-12.75") 0%Z = Ok (true, (-12)%Z) /\
  truncated_int (conv_signed t_int n_int) (Some 2) (str ".5") 7%Z = Ok (false, 7%Z).
Proof. vm_compute. auto. Qed.

(* ---- C72: container sinks ---- *)
(* every token: the container gets the values of the tokens that convert; success when there was a token *)
Theorem C72_all : forall T C conv (d : T) (add : C -> T -> C) size ok delims s opt c toks,
  tokens_of (is_delim delims) s (spec_tok_end opt) (spec_next_start opt) toks ->
  Forall (fun r => behaves conv d ok (sub s r)) toks ->
  exists vs, converted ok (map (sub s) toks) vs /\
    conv_sink conv d add size s (Sink delims opt (Some c) All) =
      Ok (negb (length toks =? 0), Sink delims opt (Some (fold_left add vs c)) All).
Proof.
  intros T C conv d add size ok delims s opt c toks Ht Hb.
  destruct (parse_container_ok conv d add ok delims s opt c toks Ht Hb) as (vs & H1 & H2). exists vs. split; auto.
  unfold conv_sink. cbn [s_container s_count s_delims s_opt]. rewrite H2. cbn [bind]. destruct toks; reflexivity.
Qed.
Print Assumptions C72_all.

Example C72_all_example : conv_sink (conv_signed t_int n_int) 0%Z (fun c v => c ++ [v]) (@length Z) (str "1,x,,-3") (Sink (str ",") 0 (Some [9%Z]) All) =
    Ok (true, Sink (str ",") 0 (Some [9; 1; -3]%Z) All) /\
  conv_sink (conv_signed t_int n_int) 0%Z (fun c v => c ++ [v]) (@length Z) [] (Sink (str ",") 0 (Some [9%Z]) All) =
    Ok (false, Sink (str ",") 0 (Some [9%Z]) All).
Proof. vm_compute. auto. Qed.

(* a number of elements: success exactly when that many values were added; at most n tokens are looked at *)
Theorem C72_count : forall T conv (d : T) ok delims s n opt c toks,
  (has_bit opt 2 = true -> has_bit opt 1 = true) ->
  tokens_of (is_delim delims) s (spec_tok_end opt) (spec_next_start opt) toks ->
  Forall (fun r => behaves conv d ok (sub s r)) (firstn n toks) ->
  exists vs, converted ok (map (sub s) (firstn n toks)) vs /\
    conv_sink conv d (fun c v => c ++ [v]) (@length T) s (Sink delims opt (Some c) (Count n)) =
      Ok (length vs =? n, Sink delims opt (Some (c ++ vs)) (Count n)).
Proof.
  intros T conv d ok delims s n opt c toks Ho Ht Hb.
  destruct (C07_sequence_n T conv d ok delims s n opt c toks Ho Ht Hb) as (vs & H1 & H2). exists vs. split; auto.
  unfold conv_sink. cbn [s_container s_count s_delims s_opt]. rewrite H2. reflexivity.
Qed.
Print Assumptions C72_count.

Example C72_count_example : conv_sink (conv_signed t_int n_int) 0%Z (fun c v => c ++ [v]) (@length Z) (str "1,2,3") (Sink (str ",") 1 (Some [9%Z]) (Count 2)) =
    Ok (true, Sink (str ",") 1 (Some [9; 1; 2]%Z) (Count 2)) /\
  conv_sink (conv_signed t_int n_int) 0%Z (fun c v => c ++ [v]) (@length Z) (str "1,x,3") (Sink (str ",") 1 (Some [9%Z]) (Count 2)) =
    Ok (false, Sink (str ",") 1 (Some [9; 1]%Z) (Count 2)).
Proof. vm_compute. auto. Qed.

(* no container attached: always a failure; attach keeps the count of the sink it is called on *)
Theorem C72_no_container : forall T C conv (d : T) (add : C -> T -> C) size s delims opt,
  conv_sink conv d add size s (sink_of_delims delims opt) = Ok (false, sink_of_delims delims opt).
Proof. reflexivity. Qed.
Print Assumptions C72_no_container.

Example C72_no_container_example : conv_sink (conv_signed t_int n_int) 0%Z (fun c v => c ++ [v]) (@length Z) (str "1,2") (sink_of_delims (str ",") 0) =
  Ok (false, sink_of_delims (str ",") 0).
Proof. reflexivity. Qed.
Theorem C72_attach : forall C delims opt (c : C) delims' opt',
  attach c delims' opt' (sink_of_delims delims opt) =
    Sink (match delims' with [] => delims | _ => delims' end) opt' (Some c) All.
Proof. intros C delims opt c [|? ?] opt'; reflexivity. Qed.
Print Assumptions C72_attach.

Example C72_attach_example : attach [1%Z] (str ";") 3 (sink_of_delims (str ",") 0) = Sink (str ";") 3 (Some [1%Z]) All.
Proof. reflexivity. Qed.
(* success says only that there was a token; the constructor taking a container sets no count *)
Theorem C72_all_success_refuted :
  conv_sink (conv_signed t_int n_int) 0%Z (fun c v => c ++ [v]) (@length Z) (str "x,y") (Sink (str ",") 0 (Some []) All) =
    Ok (true, Sink (str ",") 0 (Some []) All).
Proof. vm_compute. reflexivity. Qed.
Print Assumptions C72_all_success_refuted.
Theorem C72_count_not_set_refuted : forall T C conv (d : T) (add : C -> T -> C) size s c delims opt,
  conv_sink conv d add size s (sink_of_container c delims opt) = UB.
Proof. reflexivity. Qed.
Print Assumptions C72_count_not_set_refuted.

(* a row "name|1,2,3|x": two plain fields around a list *)
Example C72_example :
  let list_of c := Target _ (conv_sink (conv_signed t_int n_int) 0%Z (fun c v => c ++ [v]) (@length Z)) (Sink (str ",") 1 (Some c) All) in
  attach [9%Z] [] 1 (sink_of_delims (str ",") 1) = Sink (str ",") 1 (Some [9%Z]) All /\
  parse_values (str "|") (str "abc|1,2,,3|7") [Target _ conv_string []; list_of [9%Z]; Target _ (conv_signed t_int n_int) 0%Z] =
  Ok (true, [Target _ conv_string (str "abc"); list_of [9; 1; 2; 3]%Z; Target _ (conv_signed t_int n_int) 7%Z]).
Proof. split; reflexivity. Qed.
