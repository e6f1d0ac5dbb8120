(* Property C75, continued: what decimal_sink refuses. *)
From Verif Require Import Base Num_Spec Parse_Model Real_Model Real_Spec Real_Proofs7.
From Coq Require Import ZArith QArith.
Local Open Scope nat_scope.

(* a character that is no digit within the width of the fraction, a second point for instance *)
Theorem C75_bad_fraction : forall O neg sg I F c rest int_size frac_size t,
  sign_text neg sg -> Forall is_digit I -> Forall is_digit F -> ~ is_digit c ->
  length (drop_zeros I) <= int_size -> length F < frac_size ->
  decimal_sink O int_size frac_size (sg ++ I ++ "."%char :: F ++ c :: rest) t = Ok (false, t).
Proof. exact decimal_sink_bad_fraction. Qed.
Print Assumptions C75_bad_fraction.

Example C75_bad_fraction_example : decimal_sink exact 3 3 (str "-12.3.4") NotANumber = Ok (false, NotANumber) /\
  decimal_sink exact 3 3 (str "12.3x") NotANumber = Ok (false, NotANumber).
Proof. vm_compute. auto. Qed.

(* one that is neither a digit nor the point within the width of the integer part *)
Theorem C75_bad_integer : forall O neg sg I c rest int_size frac_size t,
  sign_text neg sg -> Forall is_digit I -> ~ is_digit c -> c <> "."%char ->
  sg ++ I <> [] \/ c <> "+"%char /\ c <> "-"%char -> length (drop_zeros I) < int_size ->
  decimal_sink O int_size frac_size (sg ++ I ++ c :: rest) t = Ok (false, t).
Proof. exact decimal_sink_bad_integer. Qed.
Print Assumptions C75_bad_integer.

Example C75_bad_integer_example : decimal_sink exact 3 3 (str "+-1.5") NotANumber = Ok (false, NotANumber) /\
  decimal_sink exact 3 3 (str "1,5") NotANumber = Ok (false, NotANumber) /\ decimal_sink exact 3 3 (str "x") NotANumber = Ok (false, NotANumber).
Proof. vm_compute. auto. Qed.
