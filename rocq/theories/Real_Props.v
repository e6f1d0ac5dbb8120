(* Properties C48, C73, C74, C75: floating point numbers. *)
From Verif Require Import Base Num_Spec Parse_Model Real_Model Real_Spec Real_Proofs Real_Proofs2 Real_Proofs3 Real_Float Real_Proofs4.
From Coq Require Import ZArith QArith Qpower SpecFloat.
Local Open Scope nat_scope.

(* ---- C48: which texts are read, and that nothing else is touched ---- *)
(* O is any arithmetic with the exponent range of double (float is computed in double).  Texts of
   2^31 characters or more are left out: the fraction length is cast to int. *)
Theorem C48_defined : forall O, min_exponent10 O = (-307)%Z -> forall s t, (Z.of_nat (length s) <= 2 ^ 31)%Z ->
  (exists b v, parse_real O s t = Ok (b, v)) \/
  parse_real O s t = UB /\
    ((exists p F x, s = p ++ "."%char :: F ++ x /\ Forall is_digit F /\ 616 <= length F) \/
     (exists neg I F e, (number_text neg I F e s \/ sloppy_text neg I F e s) /\ (e <= -616)%Z)).
Proof. exact real_defined. Qed.
Print Assumptions C48_defined.

Example C48_defined_example : parse_real double (str "?") S754_nan = Ok (false, S754_nan) /\
  parse_real double ("."%char :: repeat "0"%char 616) S754_nan = UB.
Proof. split; vm_compute; reflexivity. Qed.

(* every number is accepted *)
Theorem C48_numbers : forall O, min_exponent10 O = (-307)%Z -> forall neg I F e s t,
  number_text neg I F e s -> length F <= 615 -> (-615 <= e)%Z ->
  parse_real O s t = Ok (true, narrow O (signed O neg (shift_exponent O (mantissa O I F) e))).
Proof. intros. now apply real_number. Qed.
Print Assumptions C48_numbers.

Example C48_numbers_example : parse_real exact (str "+2.50E1L") NotANumber = Ok (true, Finite (signed exact false (shift_exponent exact (mantissa exact (str "2") (str "50")) 1))) /\
  (signed exact false (shift_exponent exact (mantissa exact (str "2") (str "50")) 1) == 25)%Q.
Proof. split; vm_compute; reflexivity. Qed.

(* a failure leaves the value alone; from the characters of decimal numbers nothing but numbers is accepted *)
Theorem C48_plain : forall O, min_exponent10 O = (-307)%Z -> forall s t b v,
  (Z.of_nat (length s) <= 2 ^ 31)%Z -> Forall plain_char s -> parse_real O s t = Ok (b, v) ->
  b = false /\ v = t /\ (forall neg I F e, ~ number_text neg I F e s) \/
  b = true /\ exists neg I F e, number_text neg I F e s /\ v = narrow O (signed O neg (shift_exponent O (mantissa O I F) e)).
Proof.
  intros O Hm s t b v Hl Hp E.
  destruct (real_sound O Hm s t b v Hl E) as [(-> & ->)|(-> & [(neg & I & F & e & [H|H] & ->)|(neg & w & Hw & p & ->)])].
  - left. split; [reflexivity|]. split; [reflexivity|]. intros neg I F e H.
    destruct (Nat.le_gt_cases (length F) 615) as [H1|H1].
    + destruct (Z.le_gt_cases (-615) e) as [H2|H2].
      * rewrite (real_number O Hm neg I F e s t H H1 H2) in E. discriminate.
      * rewrite (real_number_ub O Hm neg I F e s t H) in E; [discriminate|]. right. lia.
    + rewrite (real_number_ub O Hm neg I F e s t H) in E; [discriminate|]. left. split; [lia|].
      destruct H as (sg & m & x & -> & _ & (_ & _ & [(_ & ->)| ->] & _) & _); [cbn in H1; lia|].
      rewrite !app_length in Hl. lia.
  - right. split; auto. exists neg, I, F, e. auto.
  - exfalso. exact (plain_only s neg I F e Hp H).
  - exfalso. exact (plain_word (p ++ w) O neg w v p Hp eq_refl Hw).
Qed.
Print Assumptions C48_plain.

Example C48_plain_example : parse_real double (str "1.2.3") (S754_zero true) = Ok (false, S754_zero true) /\
  parse_real double (str "1-2") (S754_zero true) = Ok (false, S754_zero true) /\ Forall plain_char (str "1-2").
Proof.
  split; [vm_compute; reflexivity|]. split; [vm_compute; reflexivity|].
  repeat (apply Forall_cons; [first [left; cbv; split; discriminate | right; cbn; tauto]|]). apply Forall_nil.
Qed.

(* in general also the sloppy texts and texts ending in a word for infinity or not-a-number *)
Theorem C48_accepted : forall O, min_exponent10 O = (-307)%Z -> forall s t b v,
  (Z.of_nat (length s) <= 2 ^ 31)%Z -> parse_real O s t = Ok (b, v) ->
  b = false /\ v = t \/
  b = true /\ ((exists neg I F e, (number_text neg I F e s \/ sloppy_text neg I F e s) /\
                  v = narrow O (signed O neg (shift_exponent O (mantissa O I F) e))) \/
               (exists p w, s = p ++ w /\ (nan_word w /\ v = t_nan O \/ infinity_word w /\ exists neg, v = t_inf O neg))).
Proof.
  intros O Hm s t b v Hl E.
  destruct (real_sound O Hm s t b v Hl E) as [H|(-> & [H|(neg & w & Hw & p & ->)])]; [auto|right; split; auto|].
  - right. split; auto. right. exists p, w. split; auto. destruct Hw as [(H & ->)|(H & ->)]; [right|left]; eauto.
Qed.
Print Assumptions C48_accepted.

Example C48_accepted_example : parse_real double (str "x1") S754_nan = Ok (false, S754_nan) /\
  parse_real double (str "12inf") S754_nan = Ok (true, S754_infinity false).
Proof. split; vm_compute; reflexivity. Qed.

(* the words, with a sign *)
Theorem C48_words : forall O, min_exponent10 O = (-307)%Z -> forall neg sg w t, sign_text neg sg ->
  (infinity_word w -> parse_real O (sg ++ w) t = Ok (true, t_inf O neg)) /\
  (nan_word w -> parse_real O (sg ++ w) t = Ok (true, t_nan O)).
Proof.
  intros O Hm neg sg w t Hs. split; intros Hw; eapply real_word; eauto; [left|right]; auto.
Qed.
Print Assumptions C48_words.

Example C48_words_example : parse_real double (str "-infinity") S754_nan = Ok (true, S754_infinity true) /\
  parse_real double (str "NAN") (S754_zero false) = Ok (true, S754_nan) /\ parse_real double (str "Infinity") S754_nan = Ok (false, S754_nan).
Proof. repeat split; vm_compute; reflexivity. Qed.

(* 616 fraction digits or an exponent of -616 read past the table *)
Theorem C48_table_refuted : forall O, min_exponent10 O = (-307)%Z -> forall neg I F e s t, number_text neg I F e s ->
  616 <= length F /\ (Z.of_nat (length F) <= 2 ^ 31)%Z \/ length F <= 615 /\ (e <= -616)%Z -> parse_real O s t = UB.
Proof. intros. eapply real_number_ub; eauto. Qed.
Print Assumptions C48_table_refuted.

Example C48_table_refuted_ex : parse_real double (str "1e-700") S754_nan = UB /\ parse_real double (str "1e-300") S754_nan <> UB.
Proof. split; [vm_compute; reflexivity|]. intros H. vm_compute in H. discriminate. Qed.
(* long double: every exponent below -4931, because the first division already indexes entry 4931 *)
Theorem C48_long_double_refuted : forall O, min_exponent10 O = (-4931)%Z -> forall d e,
  (e < -4931)%Z -> pow10 O d e = UB.
Proof.
  intros O Hm d e H. unfold pow10. rewrite Hm. destruct (Z.eqb_spec e (- 2 ^ 31)); [reflexivity|].
  destruct (Z.leb_spec (-4931) e); [lia|]. reflexivity.
Qed.
Print Assumptions C48_long_double_refuted.

Example C48_long_double_refuted_ex : let O := Reals Q Z (fun n => inject_Z (Z.of_N n)) Qplus Qmult Qdiv Qopp (fun e => 1)%Q (fun _ => 1)%Q (-4931)%Z (fun q => 0)%Z (fun _ => 0)%Z 0%Z in
  pow10 O (1 # 1) (-4932) = UB /\ pow10 O (1 # 1) (-5) <> UB.
Proof. split; [vm_compute; reflexivity|]. intros H. vm_compute in H. discriminate. Qed.
(* texts that are no numbers are accepted: no exponent digits, a stray character, a word behind digits *)
Theorem C48_sloppy_refuted : forall O, min_exponent10 O = (-307)%Z -> forall t,
  parse_real O (str "1e5xf") t = parse_real O (str "1e5") t /\
  parse_real O (str "1ef") t = parse_real O (str "1") t /\
  parse_real O (str "12inf") t = Ok (true, t_inf O false) /\
  parse_real O (str "1e?nan") t = Ok (true, t_nan O).
Proof. intros [] Hm t. cbn in Hm. subst. vm_compute. auto. Qed.
Print Assumptions C48_sloppy_refuted.

Example C48_example : exists I F, number_text true I F (-12) (str "-003.25e-0012f") /\
  parse_real double (str "-003.25e-0012f") S754_nan = Ok (true, S754_finite true 8046610255354972 (-91)) /\
  parse_real double (str "1.5.2") S754_nan = Ok (false, S754_nan) /\
  parse_real double (str "-INF") S754_nan = Ok (true, S754_infinity true).
Proof.
  exists (str "003"), (str "25"). split; [|vm_compute; auto].
  exists (str "-"), (str "003.25"), (str "e-0012f"). split; [reflexivity|]. split; [reflexivity|].
  assert (D : forall c, In c (str "0123456789") -> is_digit c).
  { intros c H. cbn in H. repeat (destruct H as [<-|H]; [unfold is_digit; cbn; lia|]). contradiction. }
  split.
  - split; [repeat constructor; apply D; cbn; tauto|]. split; [repeat constructor; apply D; cbn; tauto|]. split; [right; reflexivity|discriminate].
  - right. exists (str "e-0012"), "f"%char. split; [reflexivity|]. split; [left; reflexivity|]. right.
    exists "e"%char, true, (str "-"), (str "00"), (str "12"). split; [reflexivity|]. split; [left; reflexivity|].
    split; [reflexivity|]. split; [repeat constructor|]. split; [repeat constructor; apply D; cbn; tauto|].
    split; [discriminate|]. split; [cbn; lia|]. reflexivity.
Qed.

(* ---- C73: over exact arithmetic the parser computes the number written ---- *)
Theorem C73_value : forall neg I F e s t, number_text neg I F e s -> length F <= 615 -> (-615 <= e <= 308)%Z ->
  exists q, parse_real exact s t = Ok (true, Finite q) /\ (q == decimal neg I F e)%Q.
Proof.
  intros neg I F e s t H HF He. assert (H' := H). destruct H as (sg & m & x & _ & _ & (HI & HF' & _) & _). destruct (exact_value neg I F e HI HF' HF He) as (q & E & Hq).
  exists q. split; auto. rewrite (real_number exact eq_refl neg I F e s t H' HF (proj1 He)). now rewrite E.
Qed.
Print Assumptions C73_value.

Example C73_value_example : exists q, parse_real exact (str "0.125e2") NotANumber = Ok (true, Finite q) /\ (q == (25 # 2))%Q.
Proof. eexists. split; [vm_compute; reflexivity|vm_compute; reflexivity]. Qed.
(* exponents above 308 multiply by 10^(10 e) *)
Theorem C73_large_exponent_refuted : exists q, parse_real exact (str "1e309") NotANumber = Ok (true, Finite q) /\ (q == Qpower (inject_Z 10) 3090)%Q.
Proof. exists (Qpower (inject_Z 10) 3090). split; [vm_compute; reflexivity|reflexivity]. Qed.
Print Assumptions C73_large_exponent_refuted.
(* in double: zero becomes not-a-number, and a number of moderate size becomes infinite *)
Theorem C73_large_exponent_double_refuted :
  parse_real double (str "0e309") (S754_zero false) = Ok (true, S754_nan) /\
  parse_real double (str "0." ++ repeat "0"%char 299 ++ str "1e309") (S754_zero false) = Ok (true, S754_infinity false).
Proof. vm_compute. auto. Qed.
Print Assumptions C73_large_exponent_double_refuted.
Example C73_example : exists q, parse_real exact (str "-12.50e-3") NotANumber = Ok (true, Finite q) /\ (q == -(1 # 80))%Q.
Proof. eexists. split; [vm_compute; reflexivity|]. reflexivity. Qed.

(* ---- C74: integers in doubles ---- *)
(* up to 2^53 with an exponent from 0 to 22 the result is the correctly rounded double *)
Theorem C74_integers : forall neg I e s t, number_text neg I [] e s -> (dec_value I <= 2 ^ 53)%Z -> (0 <= e <= 22)%Z ->
  parse_real double s t = Ok (true, let v := b64 (dec_value I * 10 ^ e) 0 in if neg then SFopp v else v).
Proof.
  intros neg I e s t H Hb He. rewrite (real_number double eq_refl neg I [] e s t H); [|cbn; lia|lia].
  destruct H as (sg & m & x & _ & _ & (HI & _) & _). rewrite double_value by auto. reflexivity.
Qed.
Print Assumptions C74_integers.

Example C74_integers_example : parse_real double (str "-7e2") S754_nan = Ok (true, SFopp (b64 700 0)).
Proof. vm_compute. reflexivity. Qed.
(* and integers up to 2^53 are held exactly *)
Theorem C74_exact : forall v, (0 < v <= 2 ^ 53)%Z -> exists m e, b64 v 0 = S754_finite false m e /\
  (inject_Z v == inject_Z (Zpos m) * Qpower (inject_Z 2) e)%Q.
Proof.
  intros v H. destruct (small_exact v) as [(-> & _)|(m & e & E & D & _)]; [lia|lia|]. exists m, e. split; [exact E|].
  destruct D as [[H1 ->]|[H1 ->]].
  - rewrite inject_Z_mult, Zpower_Qpower by lia. reflexivity.
  - rewrite inject_Z_mult, Zpower_Qpower by lia. rewrite <- Qmult_assoc, <- Qpower_plus by discriminate.
    replace (- e + e)%Z with 0%Z by lia. change (Qpower (inject_Z 2) 0) with 1%Q. now rewrite Qmult_1_r.
Qed.
Print Assumptions C74_exact.

Example C74_exact_example : b64 5 0 = S754_finite false 5629499534213120 (-50) /\ (5629499534213120 = 5 * 2 ^ 50)%Z.
Proof. split; vm_compute; reflexivity. Qed.
(* with a fraction the result need not be the nearest double *)
Theorem C74_fraction_refuted :
  parse_real double (str "1.118") S754_nan <> Ok (true, SFdiv 53 1024 (b64 1118 0) (b64 1000 0)).
Proof. vm_compute. discriminate. Qed.
Print Assumptions C74_fraction_refuted.
(* nor with an exponent above 22 *)
Theorem C74_exponent_refuted : parse_real double (str "5e24") S754_nan <> Ok (true, b64 (5 * 10 ^ 24) 0).
Proof. vm_compute. discriminate. Qed.
Print Assumptions C74_exponent_refuted.
Example C74_example : parse_real double (str "9007199254740992e22") S754_nan = Ok (true, b64 (9007199254740992 * 10 ^ 22) 0) /\
  parse_real double (str "-123") S754_nan = Ok (true, S754_finite true 8655355533852672 (-46)) /\
  (8655355533852672 = 123 * 2 ^ 46)%Z.
Proof. vm_compute. auto. Qed.

(* ---- C75: decimal sink ---- *)
Theorem C75_decimal : forall O, min_exponent10 O = (-307)%Z -> forall neg sg I F rest int_size frac_size t,
  sign_text neg sg -> Forall is_digit I -> Forall is_digit F ->
  length (drop_zeros I) <= int_size -> length F <= frac_size <= 615 -> (length F < frac_size -> rest = []) ->
  decimal_sink O int_size frac_size (sg ++ I ++ "."%char :: F ++ rest) t =
    Ok (true, narrow O (signed O neg (mantissa O I F))).
Proof. intros. now apply decimal_sink_ok. Qed.
Print Assumptions C75_decimal.

Example C75_decimal_example : exists q, decimal_sink exact 3 2 (str "00012.34567") NotANumber = Ok (true, Finite q) /\ (q == (1234 # 100))%Q.
Proof. eexists. split; [vm_compute; reflexivity|vm_compute; reflexivity]. Qed.
Theorem C75_no_point_refuted : forall O neg sg I int_size frac_size t,
  sign_text neg sg -> Forall is_digit I -> I <> [] -> length (drop_zeros I) <= int_size ->
  decimal_sink O int_size frac_size (sg ++ I) t = UB.
Proof. intros. eapply decimal_sink_ub; eauto. Qed.
Print Assumptions C75_no_point_refuted.

Example C75_no_point_refuted_ex : decimal_sink double 4 2 (str "12") S754_nan = UB.
Proof. vm_compute. reflexivity. Qed.
Theorem C75_empty_refuted : forall O int_size frac_size t, decimal_sink O int_size frac_size [] t = UB.
Proof. reflexivity. Qed.
Print Assumptions C75_empty_refuted.

Example C75_empty_refuted_ex : decimal_sink double 4 2 [] S754_nan = UB.
Proof. vm_compute. reflexivity. Qed.
(* too many integer digits: one is skipped as if it were the point *)
Theorem C75_long_integer_refuted : forall t,
  decimal_sink exact 2 3 (str "1234567") t = decimal_sink exact 2 3 (str "12.456") t.
Proof. reflexivity. Qed.
Print Assumptions C75_long_integer_refuted.
Example C75_example : exists q, decimal_sink exact 5 2 (str "-0012.345") NotANumber = Ok (true, Finite q) /\ (q == -(1234 # 100))%Q.
Proof. eexists. split; [vm_compute; reflexivity|]. reflexivity. Qed.
