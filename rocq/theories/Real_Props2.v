(* Property C124: how accurately floating point numbers are read. *)
From Verif Require Import Base Num_Spec Parse_Model Real_Model Real_Spec Real_Spec2 Real_Proofs3 Real_Proofs6.
From Coq Require Import ZArith QArith Qabs Qpower SpecFloat.
Local Open Scope nat_scope.

(* the double is the number written, changed by at most as many roundings as the notation counts *)
Theorem C124_accuracy : forall neg I F e s t, number_text neg I F e s ->
  length (drop_zeros I) <= 308 -> length F <= 307 -> (-307 <= e <= 308)%Z ->
  dec_value (I ++ F) = 0%Z \/ medium (Qabs (decimal neg I F e)) ->
  exists d q, parse_real double s t = Ok (true, d) /\ value d = Some q /\ within (roundings I F e) (decimal neg I F e) q.
Proof.
  intros neg I F e s t H LI LF He Hm. assert (H' := H). destruct H as (sg & m & x & _ & _ & (HI & HF & _) & _).
  destruct (double_within neg I F e HI HF LI LF He Hm) as (q & V & W). eexists. exists q. split; [|split; [exact V|exact W]].
  rewrite (real_number double eq_refl neg I F e s t H'); [reflexivity|lia|lia].
Qed.
Print Assumptions C124_accuracy.

(* 1.118 is not read as the nearest double (C74), but within the two roundings counted *)
Example C124_accuracy_example : number_text false (str "1") (str "118") 0 (str "1.118") /\
  roundings (str "1") (str "118") 0 = 2 /\
  exists d q, parse_real double (str "1.118") S754_nan = Ok (true, d) /\ value d = Some q /\ ~ (q == (1118 # 1000))%Q /\ within 2 (1118 # 1000) q.
Proof.
  split; [|split; [vm_compute; reflexivity|]].
  - exists [], (str "1.118"), []. split; [reflexivity|]. split; [left; reflexivity|]. split; [|left; left; auto].
    split; [repeat constructor; vm_compute; discriminate|]. split; [repeat constructor; vm_compute; discriminate|]. split; [right; reflexivity|discriminate].
  - eexists. eexists. split; [vm_compute; reflexivity|]. split; [cbn [value]; reflexivity|]. split; [vm_compute; discriminate|].
    match goal with |- within 2 ?x ?y => exists (y / x)%Q end. split; [|vm_compute; reflexivity]. split; apply Qle_bool_iff; vm_compute; reflexivity.
Qed.

(* in figures: never more than 10^-13 of the number *)
Theorem C124_error : forall neg I F e s t, number_text neg I F e s ->
  length (drop_zeros I) <= 308 -> length F <= 307 -> (-307 <= e <= 308)%Z ->
  dec_value (I ++ F) = 0%Z \/ medium (Qabs (decimal neg I F e)) ->
  exists d q, parse_real double s t = Ok (true, d) /\ value d = Some q /\
    (Qabs (q - decimal neg I F e) <= (1 # 10 ^ 13) * Qabs (decimal neg I F e))%Q.
Proof.
  intros neg I F e s t H LI LF He Hm. destruct (C124_accuracy neg I F e s t H LI LF He Hm) as (d & q & E & V & W). exists d, q. split; [exact E|]. split; [exact V|].
  apply (within_error 600); [apply rho_600|]. eapply within_mono; [|exact W]. now apply roundings_any.
Qed.
Print Assumptions C124_error.

Example C124_error_example : exists d q, parse_real double (str "-3.14159265358979323846264338327950288e-100") S754_nan = Ok (true, d) /\ value d = Some q /\
  (Qabs (q - decimal true (str "3") (str "14159265358979323846264338327950288") (-100)) <=
    (1 # 10 ^ 13) * Qabs (decimal true (str "3") (str "14159265358979323846264338327950288") (-100)))%Q.
Proof. eexists. eexists. split; [vm_compute; reflexivity|]. split; [cbn [value]; reflexivity|]. apply Qle_bool_iff. vm_compute. reflexivity. Qed.

(* and for up to 15 digits on either side and an exponent up to 22 not more than 2^-51 of it *)
Theorem C124_short : forall neg I F e s t, number_text neg I F e s ->
  length (drop_zeros I) <= 15 -> length (drop_zeros F) <= 15 -> length F <= 22 -> (-22 <= e <= 22)%Z ->
  exists d q, parse_real double s t = Ok (true, d) /\ value d = Some q /\
    (Qabs (q - decimal neg I F e) <= (1 # 2 ^ 51) * Qabs (decimal neg I F e))%Q.
Proof.
  intros neg I F e s t H LI LF LF2 He. destruct (C124_accuracy neg I F e s t H) as (d & q & E & V & W); try lia.
  - destruct H as (sg & m & x & _ & _ & (HI & HF & _) & _). now apply short_medium.
  - exists d, q. split; [exact E|]. split; [exact V|]. apply (within_error 3); [apply rho_3|]. eapply within_mono; [|exact W]. now apply roundings_short.
Qed.
Print Assumptions C124_short.

Example C124_short_example : exists d q, parse_real double (str "-123456.789e-5") S754_nan = Ok (true, d) /\ value d = Some q /\
  (Qabs (q - decimal true (str "123456") (str "789") (-5)) <= (1 # 2 ^ 51) * Qabs (decimal true (str "123456") (str "789") (-5)))%Q.
Proof. eexists. eexists. split; [vm_compute; reflexivity|]. split; [cbn [value]; reflexivity|]. apply Qle_bool_iff. vm_compute. reflexivity. Qed.

(* a float, which is rounded once more, is off by not more than 2^-23 of the number *)
Theorem C124_float : forall neg I F e s t, number_text neg I F e s ->
  length (drop_zeros I) <= 308 -> length F <= 307 -> (-307 <= e <= 308)%Z ->
  dec_value (I ++ F) = 0%Z \/ medium_float (Qabs (decimal neg I F e)) ->
  exists d q, parse_real float s t = Ok (true, d) /\ value d = Some q /\
    (Qabs (q - decimal neg I F e) <= (1 # 2 ^ 23) * Qabs (decimal neg I F e))%Q.
Proof.
  intros neg I F e s t H LI LF He Hm. assert (H' := H). destruct H as (sg & m & x & _ & _ & (HI & HF & _) & _).
  destruct (float_within neg I F e HI HF LI LF He Hm) as (q & V & W). eexists. exists q. split; [|split; [exact V|exact W]].
  rewrite (real_number float eq_refl neg I F e s t H') by lia. now rewrite float_value.
Qed.
Print Assumptions C124_float.

Example C124_float_example : exists d q, parse_real float (str "0.1") S754_nan = Ok (true, d) /\ value d = Some q /\
  ~ (q == (1 # 10))%Q /\ (Qabs (q - decimal false (str "0") (str "1") 0) <= (1 # 2 ^ 23) * Qabs (decimal false (str "0") (str "1") 0))%Q.
Proof. eexists. eexists. split; [vm_compute; reflexivity|]. split; [cbn [value]; reflexivity|]. split; [vm_compute; discriminate|]. apply Qle_bool_iff. vm_compute. reflexivity. Qed.

(* the bounds are needed: below 10^-307 digits are lost, and more than 309 digits in front of the
   point are infinite whatever the exponent *)
Theorem C124_tiny_refuted : exists d q, parse_real double (str "0.0000000000000001e-307") S754_nan = Ok (true, d) /\ value d = Some q /\
  ((1 # 100) * Qabs (decimal false (str "0") (str "0000000000000001") (-307)) < Qabs (q - decimal false (str "0") (str "0000000000000001") (-307)))%Q.
Proof. eexists. eexists. split; [vm_compute; reflexivity|]. split; [cbn [value]; reflexivity|]. vm_compute. reflexivity. Qed.
Print Assumptions C124_tiny_refuted.

Theorem C124_long_refuted : parse_real double (str "1" ++ repeat "0"%char 309 ++ str "e-300") S754_nan = Ok (true, S754_infinity false) /\
  (decimal false (str "1" ++ repeat "0"%char 309) [] (-300) == inject_Z (10 ^ 9))%Q.
Proof. split; [vm_compute; reflexivity|]. vm_compute. reflexivity. Qed.
Print Assumptions C124_long_refuted.
