(* Properties C18-C21: integer conversion. *)
From Verif Require Import Base Num_Model Num_Spec Num_Proofs Num_Proofs2 Num_Proofs3.
From Verif Require Export Num_Spec2.
Open Scope Z_scope.

(* C18.  The parser always returns; it accepts exactly optional '+', digits,
   value within the type, and yields that value.  (None is the refusal that
   leaves the target unchanged.) *)
Theorem C18_unsigned_exact : forall s,
  ((exists o, parse_unsigned t_ushort n_ushort s = Ok o) /\
   forall v, parse_unsigned t_ushort n_ushort s = Ok (Some v) <-> unsigned_text s v /\ v <= 65535) /\
  ((exists o, parse_unsigned t_uint n_uint s = Ok o) /\
   forall v, parse_unsigned t_uint n_uint s = Ok (Some v) <-> unsigned_text s v /\ v <= 4294967295) /\
  ((exists o, parse_unsigned t_ullong n_ullong s = Ok o) /\
   forall v, parse_unsigned t_ullong n_ullong s = Ok (Some v) <->
             unsigned_text s v /\ v <= 18446744073709551615).
Proof.
  intros s. split; [|split].
  - exact (unsigned_parse _ _ s fit_ushort).
  - exact (unsigned_parse _ _ s fit_uint).
  - exact (unsigned_parse _ _ s fit_ullong).
Qed.
Print Assumptions C18_unsigned_exact.

Example C18_ex_exact : unsigned_text (str "+007") 7 /\ parse_unsigned t_uint n_uint (str "+007") = Ok (Some 7) /\
  parse_unsigned t_uint n_uint (str "-7") = Ok None /\ parse_unsigned t_uint n_uint [] = Ok None.
Proof.
  split; [|repeat split; reflexivity]. exists ["+"%char], (str "007"). split; [now right|]. split; [reflexivity|].
  split; [|reflexivity]. split; [discriminate|]. repeat constructor; discriminate.
Qed.

(* unsigned long: the same with the 32-bit limit, whatever the width of long
   (64 bits here; with 32 bits it is the unsigned int case). *)
Theorem C18_unsigned_long : forall s,
  (exists o, parse_unsigned t_ulong n_ulong s = Ok o) /\
  forall v, parse_unsigned t_ulong n_ulong s = Ok (Some v) <-> unsigned_text s v /\ v <= 4294967295.
Proof. intros s. exact (unsigned_parse _ _ s fit_ulong). Qed.
Print Assumptions C18_unsigned_long.

Example C18_ex_long : parse_unsigned t_ulong n_ulong (str "4294967295") = Ok (Some 4294967295) /\
  parse_unsigned t_ulong n_ulong (str "4294967296") = Ok None.
Proof. split; reflexivity. Qed.

(* so a 64-bit unsigned long does not get its whole range *)
Theorem C18_unsigned_long_range_refuted :
  exists s v, unsigned_text s v /\ 0 <= v <= hi t_ulong /\ parse_unsigned t_ulong n_ulong s = Ok None.
Proof.
  exists (str "4294967296"), 4294967296. split; [|split; [vm_compute; split; congruence|reflexivity]].
  exists [], (str "4294967296"). repeat split; auto; [discriminate|]. apply digb_all. reflexivity.
Qed.
Print Assumptions C18_unsigned_long_range_refuted.

Example C18_ex_max : parse_unsigned t_ullong n_ullong (str "+00018446744073709551615") = Ok (Some 18446744073709551615).
Proof. reflexivity. Qed.
Example C18_ex_over : parse_unsigned t_ullong n_ullong (str "18446744073709551616") = Ok None.
Proof. reflexivity. Qed.
Example C18_ex_short : parse_unsigned t_ushort n_ushort (str "65535") = Ok (Some 65535) /\
  parse_unsigned t_ushort n_ushort (str "65536") = Ok None /\
  parse_unsigned t_ushort n_ushort (str "6553x") = Ok None /\
  parse_unsigned t_ushort n_ushort (str "+") = Ok None.
Proof. repeat split. Qed.

(* C19.  short: exact.  int and long long: exact for every text except those
   denoting the minimum of the type.  long: exact for the 32-bit range. *)
Theorem C19_short_exact : forall s,
  (exists o, parse_signed t_short n_short s = Ok o) /\
  forall v, parse_signed t_short n_short s = Ok (Some v) <-> signed_text s v /\ -32768 <= v <= 32767.
Proof. intros s. apply (signed_exact _ _ s fit_short). intros z Hz _. now apply finish_short. Qed.
Print Assumptions C19_short_exact.

Example C19_ex_short : parse_signed t_short n_short (str "-32768") = Ok (Some (-32768)) /\ parse_signed t_short n_short (str "-32769") = Ok None.
Proof. split; reflexivity. Qed.

Theorem C19_int_exact : forall s, ~ signed_text s (-2147483648) ->
  (exists o, parse_signed t_int n_int s = Ok o) /\
  forall v, parse_signed t_int n_int s = Ok (Some v) <->
            signed_text s v /\ -2147483648 <= v <= 2147483647.
Proof.
  intros s Hm. apply (signed_exact _ _ s fit_int). intros z Hz Ht.
  change (10 * m10 n_int + ldneg n_int) with 2147483648 in Hz.
  assert (z <> 2147483648) by (intros ->; now apply Hm).
  apply finish_neg_ok; [vm_compute; congruence|]. change (hi t_int) with 2147483647. lia.
Qed.
Print Assumptions C19_int_exact.

Example C19_ex_int : parse_signed t_int n_int (str "+2147483647") = Ok (Some 2147483647) /\ parse_signed t_int n_int (str "-2147483649") = Ok None.
Proof. split; reflexivity. Qed.

Theorem C19_long_long_exact : forall s, ~ signed_text s (-9223372036854775808) ->
  (exists o, parse_signed t_llong n_llong s = Ok o) /\
  forall v, parse_signed t_llong n_llong s = Ok (Some v) <->
            signed_text s v /\ -9223372036854775808 <= v <= 9223372036854775807.
Proof.
  intros s Hm. apply (signed_exact _ _ s fit_llong). intros z Hz Ht.
  change (10 * m10 n_llong + ldneg n_llong) with 9223372036854775808 in Hz.
  assert (z <> 9223372036854775808) by (intros ->; now apply Hm).
  apply finish_neg_ok; [vm_compute; congruence|]. change (hi t_llong) with 9223372036854775807. lia.
Qed.
Print Assumptions C19_long_long_exact.

Example C19_ex_long_long : parse_signed t_llong n_llong (str "-9223372036854775807") = Ok (Some (-9223372036854775807)) /\
  parse_signed t_llong n_llong (str "9223372036854775808") = Ok None.
Proof. split; reflexivity. Qed.

Theorem C19_long_exact : forall s,
  (exists o, parse_signed t_long n_long s = Ok o) /\
  forall v, parse_signed t_long n_long s = Ok (Some v) <->
            signed_text s v /\ -2147483648 <= v <= 2147483647.
Proof.
  intros s. apply (signed_exact _ _ s fit_long). intros z Hz _.
  change (10 * m10 n_long + ldneg n_long) with 2147483648 in Hz.
  apply finish_neg_ok; [vm_compute; congruence|]. change (hi t_long) with 9223372036854775807. lia.
Qed.
Print Assumptions C19_long_exact.

Example C19_ex_long : parse_signed t_long n_long (str "-2147483648") = Ok (Some (-2147483648)) /\ parse_signed t_long n_long (str "2147483648") = Ok None.
Proof. split; reflexivity. Qed.

(* every text of the minimum value overflows *)
Theorem C19_int_min_refuted : forall s, signed_text s (-2147483648) -> parse_signed t_int n_int s = UB.
Proof. intros s H. rewrite (signed_parse_text _ _ s _ fit_int H). reflexivity. Qed.
Print Assumptions C19_int_min_refuted.

Example C19_int_min_refuted_ex : parse_signed t_int n_int (str "-2147483648") = UB /\ parse_signed t_int n_int (str "-2147483647") <> UB.
Proof. split; [vm_compute; reflexivity|]. intros H. vm_compute in H. discriminate. Qed.

Theorem C19_long_long_min_refuted : forall s,
  signed_text s (-9223372036854775808) -> parse_signed t_llong n_llong s = UB.
Proof. intros s H. rewrite (signed_parse_text _ _ s _ fit_llong H). reflexivity. Qed.
Print Assumptions C19_long_long_min_refuted.

Example C19_ex_min_text : signed_text (str "-2147483648") (-2147483648) /\
  parse_signed t_int n_int (str "-2147483648") = UB.
Proof.
  split; [|reflexivity]. exists ["-"%char], (str "2147483648").
  split; [reflexivity|]. split; [split; [discriminate|apply digb_all; reflexivity]|]. right. auto.
Qed.

Theorem C19_long_range_refuted :
  exists s v, signed_text s v /\ lo t_long <= v <= hi t_long /\ parse_signed t_long n_long s = Ok None.
Proof.
  exists (str "2147483648"), 2147483648. split; [|split; [vm_compute; split; congruence|reflexivity]].
  exists [], (str "2147483648"). split; [reflexivity|].
  split; [split; [discriminate|apply digb_all; reflexivity]|]. left. auto.
Qed.
Print Assumptions C19_long_range_refuted.

Example C19_ex_bounds : parse_signed t_short n_short (str "-32768") = Ok (Some (-32768)) /\
  parse_signed t_short n_short (str "32768") = Ok None /\
  parse_signed t_int n_int (str "-0002147483647") = Ok (Some (-2147483647)) /\
  parse_signed t_int n_int (str "2147483648") = Ok None /\
  parse_signed t_llong n_llong (str "9223372036854775807") = Ok (Some 9223372036854775807) /\
  parse_signed t_int n_int (str "--1") = Ok None.
Proof. repeat split. Qed.

(* C20.  Formatting yields the canonical text, which is unique, and parsing
   the text gives the value back. *)
Theorem C20_canonical_unique : forall s t v, canonical s v -> canonical t v -> s = t.
Proof. exact canonical_unique. Qed.
Print Assumptions C20_canonical_unique.

Example C20_ex_canonical : canonical (str "-40") (-40) /\ ~ canonical (str "-040") (-40).
Proof.
  assert (C : canonical (str "-40") (-40)).
  { exists (str "40"). split; [split; [discriminate|repeat constructor; discriminate]|]. split; [right; discriminate|].
    right. repeat split; reflexivity. }
  split; [exact C|]. intros H. discriminate (C20_canonical_unique _ _ _ C H).
Qed.

Lemma round_u T n top : hi T < 10 ^ 20 -> unsigned_fit T n -> top = 10 * m10 n + ldpos n ->
  unsigned_round_trip T n top.
Proof.
  intros Hh Hf -> v Hv. pose proof (format_unsigned_ok v ltac:(lia)) as H.
  apply holds_ex in H. destruct H as (s & E & Hc & Ht). exists s. split; [exact E|]. split; [exact Hc|].
  intros Hl. apply (unsigned_parse T n s Hf). auto.
Qed.

Theorem C20_unsigned_round_trip :
  unsigned_round_trip t_ushort n_ushort 65535 /\
  unsigned_round_trip t_uint n_uint 4294967295 /\
  unsigned_round_trip t_ullong n_ullong 18446744073709551615 /\
  unsigned_round_trip t_ulong n_ulong 4294967295.
Proof.
  split; [|split; [|split]].
  - apply round_u; [reflexivity|exact fit_ushort|reflexivity].
  - apply round_u; [reflexivity|exact fit_uint|reflexivity].
  - apply round_u; [reflexivity|exact fit_ullong|reflexivity].
  - apply round_u; [reflexivity|exact fit_ulong|reflexivity].
Qed.
Print Assumptions C20_unsigned_round_trip.

Example C20_ex_unsigned : format_unsigned 65535 = Ok (str "65535") /\ parse_unsigned t_ushort n_ushort (str "65535") = Ok (Some 65535).
Proof. split; reflexivity. Qed.

Lemma round_s T n bottom top : lo T = - hi T - 1 -> 0 < hi T < 10 ^ 19 ->
  (forall s v, signed_text s v -> bottom <= v <= top -> parse_signed T n s = Ok (Some v)) ->
  signed_round_trip T n bottom top.
Proof.
  intros Hl Hh Hp v Hv. pose proof (format_signed_ok T v Hl Hh Hv) as H.
  apply holds_ex in H. destruct H as (s & E & Hc & Ht). exists s. split; [exact E|]. split; [exact Hc|].
  intros Hr. now apply Hp.
Qed.

(* int and long long: all values but the minimum come back (see C19) *)
Theorem C20_signed_round_trip :
  signed_round_trip t_short n_short (-32768) 32767 /\
  signed_round_trip t_int n_int (-2147483647) 2147483647 /\
  signed_round_trip t_llong n_llong (-9223372036854775807) 9223372036854775807 /\
  signed_round_trip t_long n_long (-2147483648) 2147483647.
Proof.
  split; [|split; [|split]];
    (apply round_s; [reflexivity|split; reflexivity|intros s v Ht Hr]).
  - apply C19_short_exact. auto.
  - apply C19_int_exact; [|split; auto; lia]. intros H. pose proof (signed_text_fun _ _ _ Ht H). lia.
  - apply C19_long_long_exact; [|split; auto; lia]. intros H. pose proof (signed_text_fun _ _ _ Ht H). lia.
  - apply C19_long_exact. auto.
Qed.
Print Assumptions C20_signed_round_trip.

Example C20_ex_signed : format_signed t_int (-2147483647) = Ok (str "-2147483647") /\
  parse_signed t_int n_int (str "-2147483647") = Ok (Some (-2147483647)).
Proof. split; reflexivity. Qed.

(* the minimum is formatted, but cannot be read back *)
Theorem C20_int_min_refuted : exists s,
  format_signed t_int (-2147483648) = Ok s /\ canonical s (-2147483648) /\ parse_signed t_int n_int s = UB.
Proof.
  exists (str "-2147483648"). split; [reflexivity|]. split; [|reflexivity].
  exists (str "2147483648"). split; [split; [discriminate|apply digb_all; reflexivity]|].
  split; [right; discriminate|]. right. repeat split; reflexivity.
Qed.
Print Assumptions C20_int_min_refuted.

(* a 64-bit long is formatted, but cannot be read back beyond 32 bits *)
Theorem C20_long_refuted : exists v s,
  lo t_long <= v <= hi t_long /\ format_signed t_long v = Ok s /\ canonical s v /\
  parse_signed t_long n_long s = Ok None.
Proof.
  exists 10000000000, (str "10000000000"). split; [vm_compute; split; congruence|].
  split; [reflexivity|]. split; [|reflexivity].
  exists (str "10000000000"). split; [split; [discriminate|apply digb_all; reflexivity]|].
  split; [right; discriminate|]. left. repeat split; try reflexivity. vm_compute; congruence.
Qed.
Print Assumptions C20_long_refuted.

Example C20_ex : format_unsigned 18446744073709551615 = Ok (str "18446744073709551615") /\
  format_signed t_llong (-9223372036854775808) = Ok (str "-9223372036854775808") /\
  format_unsigned 0 = Ok (str "0") /\ format_signed t_short (-100) = Ok (str "-100").
Proof. repeat split. Qed.

(* C21.  strtk::fast, for an unsigned target of w <= 64 bits and exactly the n
   characters of s (a read beyond them would be UB). *)
Theorem C21_checked : forall T w s, unsigned_type T w ->
  (exists o, numeric_convert T (length s) s true = Ok o) /\
  forall v, numeric_convert T (length s) s true = Ok (Some v) <->
            Forall is_digit s /\ (length s <= 19)%nat /\ v = dec_value s mod 2 ^ Z.of_nat w.
Proof.
  intros T w s (H1 & H2 & H3 & H4). rewrite (numeric_convert_checked T w H1 H2 H3 H4).
  split; [eauto|]. intros v. destruct (Nat.leb_spec (length s) 19); cbn [andb].
  - destruct (forallb digb s) eqn:E.
    + apply digb_all in E. split; [intros Hq; injection Hq as <-; auto|]. intros (_ & _ & ->). reflexivity.
    + split; [discriminate|]. intros (Hd & _). apply digb_all in Hd. congruence.
  - split; [discriminate|]. intros (_ & Hl & _). lia.
Qed.
Print Assumptions C21_checked.

Example C21_ex_checked : numeric_convert t_uint 10 (str "4294967297") true = Ok (Some 1) /\ numeric_convert t_uint 3 (str "12x") true = Ok None.
Proof. split; reflexivity. Qed.

Theorem C21_unchecked : forall T w s, unsigned_type T w -> Forall is_digit s ->
  numeric_convert T (length s) s false =
  Ok (if (length s <=? 20)%nat then Some (dec_value s mod 2 ^ Z.of_nat w) else None).
Proof. intros T w s (H1 & H2 & H3 & H4) Hd. now apply (numeric_convert_unchecked T w H1 H2 H3 H4). Qed.
Print Assumptions C21_unchecked.

Example C21_ex_unchecked : numeric_convert t_ullong 20 (str "18446744073709551615") false = Ok (Some 18446744073709551615) /\
  numeric_convert t_ullong 21 (str "000000000000000000001") false = Ok None.
Proof. split; reflexivity. Qed.

(* any target type, signed included, when the value fits *)
Theorem C21_exact : forall T s dc, lo T <= 0 -> 9 <= hi T < 2 ^ 64 -> Forall is_digit s ->
  dec_value s <= hi T -> (length s <= 19)%nat ->
  numeric_convert T (length s) s dc = Ok (Some (dec_value s)).
Proof. intros T s dc H1 [H2 H3] H4 H5 H6. now apply numeric_convert_exact. Qed.
Print Assumptions C21_exact.

Example C21_ex_exact : numeric_convert t_int 10 (str "2147483647") true = Ok (Some 2147483647) /\ numeric_convert t_short 3 (str "042") false = Ok (Some 42).
Proof. split; reflexivity. Qed.

Theorem C21_signed : forall T s, lo T <= 0 -> 9 <= hi T < 2 ^ 64 -> s <> [] ->
  (forall v dc, signed_text s v -> Z.abs v <= hi T -> lo T <= v -> Z.abs v < 10 ^ 19 ->
     signed_numeric_convert T s dc = Ok (Some v)) /\
  ((forall v, ~ signed_text s v) -> signed_numeric_convert T s true = Ok None).
Proof.
  intros T s H1 [H2 H3] Hne. split.
  - intros v dc. now apply signed_convert_exact.
  - now apply signed_convert_other.
Qed.
Print Assumptions C21_signed.

Example C21_ex_signed : signed_numeric_convert t_int (str "-00042") true = Ok (Some (-42)) /\ signed_numeric_convert t_int (str "+7") false = Ok (Some 7) /\
  signed_numeric_convert t_int (str "4-2") true = Ok None.
Proof. repeat split; reflexivity. Qed.

Theorem C21_all_digits_check : forall s,
  exists b, all_digits_check (length s) s = Ok b /\
            (b = true <-> Forall is_digit s /\ (length s <= 19)%nat).
Proof.
  intros s. rewrite all_digits_check_ok. eexists. split; [reflexivity|].
  rewrite andb_true_iff, digb_all, Nat.leb_le. tauto.
Qed.
Print Assumptions C21_all_digits_check.

Example C21_ex_all_digits : all_digits_check 4 (str "0123") = Ok true /\ all_digits_check 4 (str "01.3") = Ok false.
Proof. split; reflexivity. Qed.

(* twenty digits are converted without the check and refused with it *)
Theorem C21_twenty_digits_refuted : exists s,
  Forall is_digit s /\ dec_value s <= hi t_ullong /\
  numeric_convert t_ullong (length s) s false = Ok (Some (dec_value s)) /\
  numeric_convert t_ullong (length s) s true = Ok None.
Proof.
  exists (str "18446744073709551615"). split; [apply digb_all; reflexivity|].
  split; [vm_compute; congruence|]. split; reflexivity.
Qed.
Print Assumptions C21_twenty_digits_refuted.

(* without the check, characters that are no digits overflow long long at 19 characters *)
Theorem C21_unchecked_refuted : exists s, length s = 19%nat /\ numeric_convert t_ullong 19 s false = UB.
Proof. exists ("000"%char :: str "000000000000000000"). split; reflexivity. Qed.
Print Assumptions C21_unchecked_refuted.

(* signed targets: a value that does not fit overflows, check or no check *)
Theorem C21_signed_range_refuted : signed_numeric_convert t_int (str "3000000000") true = UB.
Proof. reflexivity. Qed.
Print Assumptions C21_signed_range_refuted.

(* the empty range is dereferenced; a lone sign counts as all digits *)
Theorem C21_signed_empty_refuted :
  signed_numeric_convert t_int [] true = UB /\ signed_all_digits_check 1 (str "-") = Ok true.
Proof. split; reflexivity. Qed.
Print Assumptions C21_signed_empty_refuted.

Example C21_ex_types : unsigned_type t_ushort 16 /\ unsigned_type t_uint 32 /\ unsigned_type t_ullong 64.
Proof. repeat split; lia. Qed.
Example C21_ex : numeric_convert t_ullong 19 (str "1234567890123456789") true = Ok (Some 1234567890123456789) /\
  numeric_convert t_uint 10 (str "4294967297") true = Ok (Some 1) /\
  numeric_convert t_uint 3 (str "12x") true = Ok None /\
  signed_numeric_convert t_int (str "-00042") true = Ok (Some (-42)).
Proof. repeat split. Qed.
