(* C112: the IPv4 parser of strtk_ipv4_parser.cpp. *)
From Verif Require Import Base Split_Model Num_Model Num_Spec Num_Proofs Num_Props Sink_Spec Ipv4_Model Ipv4_Spec Ipv4_Proofs.
Local Open Scope nat_scope.

(* every text has exactly one decomposition into parts *)
Theorem C112_parts : forall data, exists! parts, dotted data parts.
Proof.
  intros data. assert (exists parts, dotted data parts) as (parts & H).
  { induction data as [|c s (parts & IH)]; [exists [[]]; now constructor|].
    destruct (ascii_dec c ".") as [->|N].
    - exists ([] :: parts). now apply (dt_more []).
    - inversion IH as [x Hx|x s' xs Hx H1 E1]; subst.
      + exists [c :: s]. constructor. intros [E|E]; auto.
      + exists ((c :: x) :: xs). apply (dt_more (c :: x)); [|exact H1]. intros [E|E]; auto. }
  exists parts. split; [exact H|]. intros ys. now apply dotted_fun.
Qed.
Print Assumptions C112_parts.
Example C112_parts_case : dotted (str "10..x") [str "10"; []; str "x"].
Proof.
  apply (dt_more (str "10")); [intros [E|[E|[]]]; discriminate|]. apply (dt_more []); [intros []|].
  constructor. intros [E|[]]; discriminate.
Qed.

(* The parser never reads or writes outside its data.  With fewer than four parts it
   fails and leaves the octets alone.  Otherwise the first four parts are taken one after
   the other. *)
Theorem C112_octets : forall data octet parts, length octet = 4 -> dotted data parts ->
  (length parts < 4 -> parse_octets data octet = Ok (false, octet)) /\
  (4 <= length parts -> exists b octet', parse_octets data octet = Ok (b, octet') /\ octets_taken (firstn 4 parts) octet b octet').
Proof. exact parse_octets_ok. Qed.
Print Assumptions C112_octets.
Example C112_octets_case :
  parse_octets (str "10.20.x.40") (str "abcd") = Ok (false, [ascii_of_nat 10; ascii_of_nat 20; "c"%char; "d"%char]) /\
  parse_octets (str "10.20.30") (str "abcd") = Ok (false, str "abcd").
Proof. split; vm_compute; reflexivity. Qed.

(* Success: the text has at least four parts and the first four are octets. *)
Theorem C112_success : forall data octet octet', length octet = 4 ->
  parse_octets data octet = Ok (true, octet') <->
  exists parts, dotted data parts /\ 4 <= length parts /\ Forall2 octet_text (firstn 4 parts) octet'.
Proof.
  intros data octet octet' Ho. destruct (C112_parts data) as (parts & Hd & U).
  destruct (parse_octets_ok data octet parts Ho Hd) as [A B]. split.
  - intros E. exists parts. split; [exact Hd|]. destruct (Nat.lt_ge_cases (length parts) 4) as [L|L].
    + rewrite (A L) in E. discriminate.
    + split; [exact L|]. destruct (B L) as (b & o' & E' & H). rewrite E in E'. injection E' as <- <-.
      apply (octets_taken_true _ octet); [exact H|]. rewrite firstn_length. lia.
  - intros (parts' & Hd' & L & H). rewrite <- (U _ Hd') in *. destruct (B L) as (b & o' & E & H').
    apply octets_taken_all with (os := octet) in H; [|rewrite firstn_length; lia].
    destruct (octets_taken_fun _ _ _ _ H' _ _ H) as (-> & ->). exact E.
Qed.
Print Assumptions C112_success.
Example C112_success_case :
  parse_octets (str "123.45.6.0") (str "abcd") = Ok (true, map ascii_of_nat [123; 45; 6; 0]).
Proof. vm_compute. reflexivity. Qed.

Lemma canonical_octet x c : canonical x (Z.of_N (N_of_ascii c)) -> octet_text x c /\ ~ In "."%char x.
Proof.
  intros (ds & (Hn & Hd) & Hz & [(_ & -> & E)|(L & _)]); [|lia].
  assert (B : (dec_value ds <= 255)%Z) by (pose proof (N_ascii_bounded c); lia).
  split; [|intros Hi; rewrite Forall_forall in Hd; specialize (Hd _ Hi); unfold is_digit in Hd; cbn in Hd; lia].
  split; [exact Hd|]. split.
  - destruct Hz as [->|Hh]; [cbn [length]; lia|]. destruct ds as [|d ds]; [contradiction|]. cbn [hd] in Hh.
    inversion Hd as [|? ? Hd0 Hds]; subst. destruct (Nat.lt_ge_cases (length ds) 3) as [L|L]; [cbn [length]; lia|]. exfalso.
    assert (1 <= digit_val d)%Z.
    { unfold digit_val, is_digit in *. enough (N_of_ascii d <> 48%N) by lia. intros E1. apply Hh.
      rewrite <- (ascii_N_embedding d), E1. reflexivity. }
    assert (Hv : (dec_value (d :: ds) = digit_val d * 10 ^ Z.of_nat (length ds) + dec_value ds)%Z).
    { change (d :: ds) with ([d] ++ ds). rewrite dec_value_app. unfold dec_value at 1. cbn [fold_left]. lia. }
    pose proof (dec_bounds _ Hds) as Hb.
    assert (10 ^ 3 <= 10 ^ Z.of_nat (length ds))%Z by (apply Z.pow_le_mono_r; lia). change (10 ^ 3)%Z with 1000%Z in *. nia.
  - rewrite <- E. apply Z.mod_small. pose proof (N_ascii_bounded c). lia.
Qed.

(* The usual notation: the decimal texts of four octets, joined with dots. *)
Theorem C112_quad : forall a b c d xa xb xc xd octet, length octet = 4 ->
  canonical xa (Z.of_N (N_of_ascii a)) -> canonical xb (Z.of_N (N_of_ascii b)) ->
  canonical xc (Z.of_N (N_of_ascii c)) -> canonical xd (Z.of_N (N_of_ascii d)) ->
  parse_octets (xa ++ "."%char :: xb ++ "."%char :: xc ++ "."%char :: xd) octet = Ok (true, [a; b; c; d]).
Proof.
  intros a b c d xa xb xc xd octet Ho Ha Hb Hc Hd.
  apply canonical_octet in Ha, Hb, Hc, Hd. destruct Ha as [Ha Na], Hb as [Hb Nb], Hc as [Hc Nc], Hd as [Hd Nd].
  apply C112_success; [exact Ho|]. exists [xa; xb; xc; xd]. split; [repeat (constructor; [assumption|]); now constructor|].
  split; [cbn [length]; lia|]. cbn [firstn]. exact (Forall2_cons _ _ Ha (Forall2_cons _ _ Hb (Forall2_cons _ _ Hc (Forall2_cons _ _ Hd (Forall2_nil _))))). 
Qed.
Print Assumptions C112_quad.
Example C112_quad_case : canonical (str "255") (Z.of_N (N_of_ascii (ascii_of_nat 255))).
Proof.
  exists (str "255"). split; [split; [discriminate|repeat constructor; discriminate]|]. split; [right; discriminate|].
  left. split; [|split]; [|reflexivity|vm_compute; reflexivity]. vm_compute. discriminate.
Qed.

(* The integer: the first octet is its lowest byte; after a failure the octets from the
   failing one on are 0. *)
Theorem C112_integer : forall data ip, length ip = 4 -> exists b ip', parse_ip data ip = Ok (b, ip') /\ length ip' = 4 /\
  parse_octets data (repeat zero 4) = Ok (b, ip') /\
  (b = true -> exists x0 x1 x2 x3 rest c0 c1 c2 c3, dotted data (x0 :: x1 :: x2 :: x3 :: rest) /\
     octet_text x0 c0 /\ octet_text x1 c1 /\ octet_text x2 c2 /\ octet_text x3 c3 /\
     little_endian ip' = (N_of_ascii c0 + 2 ^ 8 * N_of_ascii c1 + 2 ^ 16 * N_of_ascii c2 + 2 ^ 24 * N_of_ascii c3)%N) /\
  (b = false -> forall parts, dotted data parts -> length parts < 4 -> little_endian ip' = 0%N).
Proof.
  intros data ip Hip. unfold parse_ip. rewrite Hip. destruct (C112_parts data) as (parts & Hd & U).
  destruct (parse_octets_ok data (repeat zero 4) parts eq_refl Hd) as [A B].
  destruct (Nat.lt_ge_cases (length parts) 4) as [L|L].
  - rewrite (A L). exists false, (repeat zero 4). repeat split; try discriminate. 
  - destruct (B L) as (b & o' & E & H). rewrite E. exists b, o'. pose proof (octets_taken_length _ _ _ _ H) as Hl.
    split; [reflexivity|]. split; [exact Hl|]. split; [reflexivity|]. split.
    + intros ->. apply octets_taken_true in H; [|rewrite firstn_length, repeat_length; lia].
      destruct parts as [|x0 [|x1 [|x2 [|x3 rest]]]]; cbn [length] in L; try lia. cbn [firstn] in H.
      inversion H as [|? c0 ? ? H0 T0]; subst. inversion T0 as [|? c1 ? ? H1 T1]; subst. inversion T1 as [|? c2 ? ? H2 T2]; subst.
      inversion T2 as [|? c3 ? ? H3 T3]; subst. inversion T3; subst.
      exists x0, x1, x2, x3, rest, c0, c1, c2, c3. repeat (split; [assumption|]). cbn [little_endian]. lia.
    + intros _ ys Hy L'. rewrite <- (U _ Hy) in L'. lia.
Qed.
Print Assumptions C112_integer.
Example C112_integer_case :
  parse_ip (str "1.2.3.4") (str "abcd") = Ok (true, map ascii_of_nat [1; 2; 3; 4]) /\
  little_endian (map ascii_of_nat [1; 2; 3; 4]) = 67305985%N /\
  parse_ip (str "1.2.x.4") (str "abcd") = Ok (false, map ascii_of_nat [1; 2; 0; 0]).
Proof. repeat split; vm_compute; reflexivity. Qed.

(* Refuted: only texts of exactly four parts are taken. *)
Theorem C112_four_parts_refuted : ~ (forall data octet octet' parts, length octet = 4 -> dotted data parts ->
  parse_octets data octet = Ok (true, octet') -> length parts = 4).
Proof.
  intros H. specialize (H (str "1.2.3.4.5") (str "abcd") (map ascii_of_nat [1; 2; 3; 4]) [str "1"; str "2"; str "3"; str "4"; str "5"]).
  discriminate H; [reflexivity| |vm_compute; reflexivity].
  assert (N : forall c, c <> "."%char -> ~ In "."%char [c]) by (intros c n [E|[]]; now apply n).
  apply (dt_more [_] (str "2.3.4.5")); [apply N; discriminate|]. apply (dt_more [_] (str "3.4.5")); [apply N; discriminate|].
  apply (dt_more [_] (str "4.5")); [apply N; discriminate|]. apply (dt_more [_] (str "5")); [apply N; discriminate|].
  constructor. apply N. discriminate.
Qed.
Print Assumptions C112_four_parts_refuted.
Example C112_four_parts_case : parse_octets (str "1.2.3.4.oops") (str "abcd") = Ok (true, map ascii_of_nat [1; 2; 3; 4]).
Proof. vm_compute. reflexivity. Qed.

(* Refuted: a part with a value above 255 is not taken. *)
Theorem C112_range_refuted : ~ (forall data octet octet' parts x, length octet = 4 -> dotted data parts ->
  parse_octets data octet = Ok (true, octet') -> In x (firstn 4 parts) -> (dec_value x <= 255)%Z).
Proof.
  intros H. specialize (H (str "4294967297.0.0.1") (str "abcd") (map ascii_of_nat [1; 0; 0; 1]) [str "4294967297"; str "0"; str "0"; str "1"] (str "4294967297")).
  refine (H eq_refl _ _ (or_introl eq_refl) eq_refl); [|vm_compute; reflexivity].
  assert (N : forall c, c <> "."%char -> ~ In "."%char [c]) by (intros c n [E|[]]; now apply n).
  apply (dt_more (str "4294967297") (str "0.0.1")); [intros Hi; cbn in Hi; decompose [or] Hi; discriminate || contradiction|].
  apply (dt_more [_] (str "0.1")); [apply N; discriminate|]. apply (dt_more [_] (str "1")); [apply N; discriminate|].
  constructor. apply N. discriminate.
Qed.
Print Assumptions C112_range_refuted.
Example C112_range_case : parse_octets (str "256.0.0.1") (str "abcd") = Ok (false, str "abcd") /\
  parse_octets (str "4294967551.0.0.1") (str "abcd") = Ok (true, map ascii_of_nat [255; 0; 0; 1]).
Proof. split; vm_compute; reflexivity. Qed.

(* Refuted: an octet needs a digit. *)
Theorem C112_digit_refuted : ~ (forall data octet octet' parts x, length octet = 4 -> dotted data parts ->
  parse_octets data octet = Ok (true, octet') -> In x (firstn 4 parts) -> x <> []).
Proof.
  intros H. specialize (H (str "...") (str "abcd") (repeat zero 4) [[]; []; []; []] []).
  apply H; [reflexivity| |vm_compute; reflexivity|now left|reflexivity].
  repeat (apply (dt_more []); [intros []|]). constructor. intros [].
Qed.
Print Assumptions C112_digit_refuted.
Example C112_digit_case : parse_octets (str "10...1") (str "abcd") = Ok (true, map ascii_of_nat [10; 0; 0; 1]).
Proof. vm_compute. reflexivity. Qed.

(* Refuted: a failed parse leaves the octets alone. *)
Theorem C112_untouched_refuted : ~ (forall data octet octet', length octet = 4 ->
  parse_octets data octet = Ok (false, octet') -> octet' = octet).
Proof. intros H. discriminate (H (str "1.2.3.x") (str "abcd") (map ascii_of_nat [1; 2; 3; 100]) eq_refl eq_refl). Qed.
Print Assumptions C112_untouched_refuted.
Example C112_untouched_case : parse_octets (str "9.2.3.256") (str "abcd") = Ok (false, map ascii_of_nat [9; 2; 3; 100]).
Proof. vm_compute. reflexivity. Qed.
