(* C100-C103: ext_string, build_string and the texts of simple types. *)
From Verif Require Import Base Split_Model Edit_Model Edit_Spec Match_Model Codec_Model Codec_Spec Num_Model Num_Spec Num_Props
  Parse_Model Parse_Spec Parse_Proofs2 Gen_Model Ext_Model Ext_Spec Ext_Proofs.
Local Open Scope nat_scope.

(* C100: editing an ext_string *)
Theorem C100_chain : forall s os, Forall (fun o => o <> Append None) os ->
  exists t, es_chain s os = Ok (t, Value tt) /\ chain s os t.
Proof. intros s os H. exact (es_chain_ok os H s). Qed.
Print Assumptions C100_chain.
Example C100_chain_ex :
  es_chain (str "  Ab-Cd-Ef..;") [RemoveLeading (str " "); RemoveTrailing (str ";."); Minus (str "-"); Upper; Append (string_text (str "/x")); Replace (str "D") (str "<d>")]
  = Ok (str "ABC<d>EF/x", Value tt).
Proof. vm_compute. reflexivity. Qed.
Theorem C100_throw : forall s os os', Forall (fun o => o <> Append None) os ->
  exists t, es_chain s (os ++ Append None :: os') = Ok (t, Throw) /\ chain s os t.
Proof. intros s os os' H. exact (es_chain_throw os os' H s). Qed.
Print Assumptions C100_throw.
Example C100_throw_ex :
  es_chain (str "ab") [Upper; Append (container_text [1; 2]); Lower] = Ok (str "AB", Throw).
Proof. reflexivity. Qed.
(* the effects determine the result *)
Theorem C100_determined : forall o s t t', effect o s t -> effect o s t' -> t = t'.
Proof.
  intros o s t t'. destruct o as [| |set|set|p r|p|n|x]; cbn [effect]; intros A B; try congruence.
  - eapply Edit_Proofs.trimmed_left_unique; eauto.
  - destruct s as [|x s]; [congruence|]. destruct (forallb (one_of set) (x :: s)); [congruence|].
    eapply Edit_Proofs.trimmed_right_unique; eauto.
  - eapply with_replaced_unique; eauto.
  - eapply with_replaced_unique; eauto.
  - destruct A as (a & E & ->), B as (b & E' & ->). congruence.
Qed.
Print Assumptions C100_determined.
Example C100_determined_ex : effect (RemoveTrailing (str "x.")) (str "a.x") (str "a") /\ ~ effect (RemoveTrailing (str "x.")) (str "a.x") (str "a.").
Proof.
  split.
  - cbn. exists (str ".x"). split; [reflexivity|]. split; [repeat constructor|].
    intros t' x E. destruct t' as [|y [|z t']]; try discriminate. injection E as <-. reflexivity.
  - cbn. intros (suf & E & F & N). specialize (N (str "a") "."%char eq_refl). discriminate.
Qed.
(* a string made of removable characters only does not become empty *)
Theorem C100_trailing_refuted : forall set c s, Forall (fun x => In x set) (c :: s) ->
  es_remove_trailing set (c :: s) = Ok [c].
Proof.
  intros set c s H. destruct (es_remove_trailing_ok set (c :: s)) as (t & E & Q). cbn [effect] in Q.
  replace (forallb (one_of set) (c :: s)) with true in Q; [congruence|]. symmetry. apply forallb_forall. intros x Hx.
  rewrite Forall_forall in H. unfold one_of. apply existsb_exists. exists x. split; [now apply H|apply Ascii.eqb_refl].
Qed.
Print Assumptions C100_trailing_refuted.
Example C100_trailing_ex : es_remove_trailing (str " ") (str "   ") = Ok (str " ").
Proof. reflexivity. Qed.

(* C101: the operators *)
Theorem C101_plus : forall s x,
  es_append s (Some x) = (s ++ x, Value tt) /\ es_plus s (Some x) = Value (s ++ x) /\ plus_es (Some x) s = Value (x ++ s) /\
  es_append s None = (s, Throw) /\ es_plus s None = Throw /\ plus_es None s = Throw.
Proof. repeat split. Qed.
Print Assumptions C101_plus.
Example C101_plus_ex : es_plus (str "ab") (bool_text true) = Value (str "ab1") /\ plus_es (byte_text "x") (str "ab") = Value (str "xab").
Proof. split; reflexivity. Qed.
Theorem C101_minus : forall s p,
  exists t, es_minus_assign s p = Ok t /\ es_minus s p = Ok t /\ with_replaced p [] s t.
Proof.
  intros s p. destruct (es_replace_ok p [] s) as (t & E & H). exists t. split; [exact E|]. split; [exact E|exact H].
Qed.
Print Assumptions C101_minus.
Example C101_minus_ex : es_minus (str "abcabab") (str "ab") = Ok (str "c").
Proof. reflexivity. Qed.
Theorem C101_times : forall s n, es_times s n = copies n s /\ es_times_assign s n = copies (n + 1) s.
Proof. intros s n. split; [apply replicate_ok|]. unfold es_times_assign. rewrite replicate_inplace_ok, Nat.add_1_r. reflexivity. Qed.
Print Assumptions C101_times.

Example C101_times_both_ex : es_times (str "-=") 2 = str "-=-=" /\ es_times_assign (str "-=") 2 = str "-=-=-=" /\ es_times (str "x") 0 = [].
Proof. repeat split; reflexivity. Qed.
(* so s *= n and s * n never agree on a non-empty string *)
Theorem C101_times_agree_refuted : forall s n, s <> [] -> es_times_assign s n <> es_times s n.
Proof.
  intros s n H E. destruct (C101_times s n) as [A B]. rewrite A, B in E. apply (f_equal (@length ascii)) in E.
  assert (L : forall k, length (copies k s) = k * length s).
  { induction k as [|k IH]; [reflexivity|]. unfold copies in *. cbn [repeat concat]. rewrite app_length, IH. lia. }
  rewrite !L in E. destruct s; [congruence|]. cbn [length] in E. nia.
Qed.
Print Assumptions C101_times_agree_refuted.
Example C101_times_ex : es_times (str "ab") 3 = str "ababab" /\ es_times_assign (str "ab") 3 = str "abababab" /\ es_times_assign (str "ab") 0 = str "ab".
Proof. repeat split. Qed.

(* C102: texts and back *)
Theorem C102_round_trips :
  (forall c t0, exists x, byte_text c = Some x /\ as_type conv_byte t0 x = Ok (Value c)) /\
  (forall b t0, exists x, bool_text b = Some x /\ as_type conv_bool t0 x = Ok (Value b)) /\
  (forall s t0, exists x, string_text s = Some x /\ as_type conv_string t0 x = Ok (Value s)).
Proof.
  split; [|split].
  - intros c t0. eexists. split; [reflexivity|]. reflexivity.
  - intros [|] t0; eexists; (split; [reflexivity|reflexivity]).
  - intros s t0. eexists. split; [reflexivity|]. reflexivity.
Qed.
Print Assumptions C102_round_trips.
Example C102_round_trips_ex : bool_text false = Some (str "0") /\ as_type conv_bool true (str "0") = Ok (Value false) /\ as_type conv_bool true (str "00") = Ok Throw.
Proof. repeat split. Qed.
(* as_type throws exactly where the reporting version says false *)
Theorem C102_as_type : forall T (conv : converter T) t0 s b t, as_type_into conv s t0 = Ok (b, t) ->
  as_type conv t0 s = Ok (if b then Value t else Throw).
Proof. intros T conv t0 s b t H. unfold as_type, as_type_into in *. rewrite H. reflexivity. Qed.
Print Assumptions C102_as_type.

Example C102_as_type_ex : as_type_into conv_bool (str "1") false = Ok (true, true) /\ as_type conv_bool false (str "1") = Ok (Value true) /\
  as_type_into conv_bool (str "yes") false = Ok (false, false) /\ as_type conv_bool false (str "yes") = Ok Throw.
Proof. repeat split; reflexivity. Qed.
(* a number shown and read back *)
Theorem C102_numbers : forall v t0,
  (0 <= v <= 4294967295 -> exists x, format_unsigned v = Ok x /\ as_type (conv_unsigned t_uint n_uint) t0 x = Ok (Value v))%Z /\
  (-2147483647 <= v <= 2147483647 -> exists x, format_signed t_int v = Ok x /\ as_type (conv_signed t_int n_int) t0 x = Ok (Value v))%Z.
Proof.
  intros v t0. destruct C20_unsigned_round_trip as (_ & U & _ & _), C20_signed_round_trip as (_ & G & _ & _). split; intros H.
  - destruct (U v) as (x & E & _ & P); [cbn; lia|]. exists x. split; [exact E|]. unfold as_type, conv_unsigned. rewrite P by lia. reflexivity.
  - destruct (G v) as (x & E & _ & P); [cbn; lia|]. exists x. split; [exact E|]. unfold as_type, conv_signed. rewrite P by lia. reflexivity.
Qed.
Print Assumptions C102_numbers.
Example C102_numbers_ex : format_signed t_int (-45) = Ok (str "-45") /\ as_type (conv_signed t_int n_int) 0%Z (str "-45") = Ok (Value (-45)%Z) /\
  as_type (conv_signed t_int n_int) 0%Z (str "-4x") = Ok Throw.
Proof. repeat split. Qed.
(* sinks and containers have no text *)
Theorem C102_no_text : forall T (t : T) (l : list T) s,
  type_to_string (sink_text t) = Throw /\ type_to_string (container_text l) = Throw /\ es_append s (container_text l) = (s, Throw).
Proof. repeat split. Qed.
Print Assumptions C102_no_text.
Example C102_no_text_ex : es_append (str "ab") (sink_text tt) = (str "ab", Throw).
Proof. reflexivity. Qed.

(* the character sets, char being signed or unsigned *)
Theorem C102_sets : forall c ty, (ty = IntType 0 255 false \/ ty = IntType (-128) 127 false) ->
  (In c all_digits <-> 48 <= nat_of_ascii c <= 57) /\
  (In c all_lowercase_letters <-> 97 <= nat_of_ascii c <= 122) /\
  (In c all_uppercase_letters <-> 65 <= nat_of_ascii c <= 90) /\
  (In c all_letters <-> In c all_lowercase_letters \/ In c all_uppercase_letters) /\
  exists s, all_chars ty = Ok s /\ length s = 256 /\ nth_error s (nat_of_ascii c) = Some c.
Proof.
  intros c ty H. split; [|split; [|split; [|split]]].
  - apply between_set. vm_compute. reflexivity.
  - apply between_set. vm_compute. reflexivity.
  - apply between_set. vm_compute. reflexivity.
  - unfold all_letters, all_lowercase_letters, all_uppercase_letters. rewrite <- in_app_iff. reflexivity.
  - exists (map ascii_of_nat (seq 0 256)). split; [now apply all_chars_ok|]. split; [reflexivity|].
    pose proof (nat_ascii_bounded c) as L. rewrite (map_nth_error ascii_of_nat (nat_of_ascii c) (seq 0 256) (d := nat_of_ascii c)).
    + now rewrite ascii_nat_embedding.
    + assert (E : forall n a k, k < n -> nth_error (seq a n) k = Some (a + k)).
      { induction n as [|n IH]; intros a [|k] Hk; [lia|lia|cbn; f_equal; lia|]. cbn [seq nth_error]. rewrite IH by lia. f_equal. lia. }
      rewrite E by lia. reflexivity.
Qed.
Print Assumptions C102_sets.
Example C102_sets_ex : nth_error all_digits 3 = Some "3"%char /\ length all_letters = 52 /\
  (s <- all_chars (IntType (-128) 127 false) ;; rd s 65) = Ok "A"%char.
Proof. repeat split. Qed.

(* C103: build_string *)
Theorem C103_build : forall ts, build_string [] (map Some ts) = (concat ts, Value tt).
Proof. intros ts. exact (build_string_ok ts []). Qed.
Print Assumptions C103_build.

Example C103_build_ex : build_string [] (map Some [str "ab"; []; str "c"]) = (str "abc", Value tt).
Proof. reflexivity. Qed.
Theorem C103_throw : forall ts rest, build_string [] (map Some ts ++ None :: rest) = (concat ts, Throw).
Proof. intros ts rest. exact (build_string_throw ts rest []). Qed.
Print Assumptions C103_throw.
Example C103_ex :
  build_string [] [Some (str "a"); bool_text true; byte_text "z"; string_text (str "--")] = (str "a1z--", Value tt) /\
  build_string [] [Some (str "a"); sink_text tt; Some (str "b")] = (str "a", Throw).
Proof. split; reflexivity. Qed.
