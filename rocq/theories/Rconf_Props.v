(* Property C169: the macros strtk_enable_superscalar and strtk_use_lut. *)
From Verif Require Import Base Num_Spec Real_Model Real_Spec Real_Proofs Real_Proofs2 Real_Proofs3 Real_Float Rconf_Model Rconf_Proofs Rconf_Proofs2 Rconf_Proofs3.
From Coq Require Import ZArith QArith SpecFloat.
Local Open Scope nat_scope.

(* however often the digit step is repeated in a loop: the same answer for every text, with the
   arithmetic done in the same order *)
Theorem C169_superscalar : forall O k s t, use_lut k = false -> k_parse_real O k s t = parse_real O s t.
Proof.
  intros O k s t H. apply k_parse_real_same. apply Forall_forall. intros c _. now left.
Qed.
Print Assumptions C169_superscalar.

Example C169_superscalar_ex :
  k_parse_real exact (superscalar false true) (str "1234567.12345678") NotANumber = parse_real exact (str "1234567.12345678") NotANumber /\
  k_parse_real exact (superscalar false true) (str "12345x") NotANumber = Ok (false, NotANumber).
Proof. split; vm_compute; reflexivity. Qed.

(* the table gives the same answer for every text read as unsigned char, and for 7-bit texts read as char *)
Theorem C169_table : forall O k s t, signed_char k = false \/ Forall (fun c => (N_of_ascii c < 128)%N) s ->
  k_parse_real O k s t = parse_real O s t.
Proof.
  intros O k s t [H|H]; [|now apply k_low]. apply k_parse_real_same. apply Forall_forall. intros c _. right. now left.
Qed.
Print Assumptions C169_table.

Example C169_table_ex :
  k_parse_real exact (superscalar true false) (str "12" ++ [ascii_of_nat 200]) NotANumber = Ok (false, NotANumber) /\
  k_parse_real exact (superscalar true true) (str "-2.5e3f") NotANumber = parse_real exact (str "-2.5e3f") NotANumber.
Proof. split; vm_compute; reflexivity. Qed.

(* so every decimal notation is read as the number it denotes, whatever the macros *)
Theorem C169_numbers : forall O k, min_exponent10 O = (-307)%Z -> forall neg I F e s t,
  number_text neg I F e s -> length F <= 615 -> (-615 <= e)%Z ->
  k_parse_real O k s t = Ok (true, narrow O (signed O neg (shift_exponent O (mantissa O I F) e))).
Proof. intros O k Hm neg I F e s t Hs HF He. rewrite k_low by (eapply low_number; eassumption). now apply real_number. Qed.
Print Assumptions C169_numbers.

Example C169_numbers_ex :
  k_parse_real exact (superscalar true true) (str "+2.50E1L") NotANumber =
    Ok (true, Finite (signed exact false (shift_exponent exact (mantissa exact (str "2") (str "50")) 1))) /\
  (signed exact false (shift_exponent exact (mantissa exact (str "2") (str "50")) 1) == 25)%Q.
Proof. split; vm_compute; reflexivity. Qed.

(* with the table and char, a byte from 128 on where a digit could stand is an index below the table;
   without it such a text is refused *)
Theorem C169_high_refuted : forall O k neg sg I c r t, use_lut k = true -> signed_char k = true ->
  sign_text neg sg -> Forall is_digit I -> (128 <= N_of_ascii c)%N ->
  k_parse_real O k (sg ++ I ++ c :: r) t = UB /\ parse_real O (sg ++ I ++ c :: r) t = Ok (false, t).
Proof. intros. split; [eapply k_start_ub|eapply start_refused]; eassumption. Qed.
Print Assumptions C169_high_refuted.

Example C169_high_refuted_ex :
  k_parse_real exact (superscalar true true) (str "-12" ++ [ascii_of_nat 200]) NotANumber = UB /\
  k_parse_real exact (plain true) (str "-12" ++ [ascii_of_nat 200]) NotANumber = Ok (false, NotANumber).
Proof. split; vm_compute; reflexivity. Qed.
