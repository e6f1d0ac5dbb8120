From Coq Require Import List Arith NArith Ascii Bool Lia.
From Verif Require Import Base Binary_Model Mem_Model Mem_Spec Mem_Proofs.
Import ListNotations.
Local Open Scope nat_scope.

(* C94: memcmp_n *)
Theorem C94_equal : forall strict le n b1 o1 b2 o2,
  aligned8 strict b1 o1 -> aligned8 strict b2 o2 -> o1 + n <= length (bytes b1) -> o2 + n <= length (bytes b2) ->
  exists c, memcmp_n strict le n b1 o1 b2 o2 = Ok c /\
            (c = true <-> sub (bytes b1) (o1, o1 + n) = sub (bytes b2) (o2, o2 + n)).
Proof. exact memcmp_ok. Qed.
Print Assumptions C94_equal.
Example C94_equal_ex :
  let b1 := Block 4096 (str "0123456789abcdef") in
  let b2 := Block 1024 (str "........0123456789abcdeF") in
  aligned8 true b2 8 /\ memcmp_n true true 15 b1 0 b2 8 = Ok true /\ memcmp_n true false 16 b1 0 b2 8 = Ok false.
Proof. split; [intros _; exists 129%N; reflexivity|]. split; vm_compute; reflexivity. Qed.

(* Whenever a call is defined, its answer is right. *)
Theorem C94_true : forall strict le n b1 o1 b2 o2, memcmp_n strict le n b1 o1 b2 o2 = Ok true -> 0 < n ->
  o1 + n <= length (bytes b1) /\ o2 + n <= length (bytes b2) /\ sub (bytes b1) (o1, o1 + n) = sub (bytes b2) (o2, o2 + n).
Proof. intros strict le n b1 o1 b2 o2. apply memcmp_true_inv. Qed.
Print Assumptions C94_true.

Example C94_defined_ex : memcmp_n true true 8 (Block 0 (str "abcdefgh.")) 0 (Block 64 (str "abcdefgh!")) 0 = Ok true.
Proof. reflexivity. Qed.
Theorem C94_false : forall strict le n b1 o1 b2 o2, memcmp_n strict le n b1 o1 b2 o2 = Ok false ->
  exists m, m <= n /\ o1 + m <= length (bytes b1) /\ o2 + m <= length (bytes b2) /\
            sub (bytes b1) (o1, o1 + m) <> sub (bytes b2) (o2, o2 + m).
Proof. intros strict le n b1 o1 b2 o2. apply memcmp_false_inv. Qed.
Print Assumptions C94_false.
(* Arrays shorter than N: a difference in the first word is still found, and
   pointers of two-byte alignment are enough for three bytes. *)
Example C94_true_ex : memcmp_n true true 3 (Block 1026 (str "xyz")) 0 (Block 2050 (str "xyzq")) 0 = Ok true.
Proof. vm_compute. reflexivity. Qed.
Example C94_false_ex : memcmp_n true true 13 (Block 0 (str "abcdefgh")) 0 (Block 0 (str "abcdefgX")) 0 = Ok false.
Proof. vm_compute. reflexivity. Qed.

(* Without alignment the call is undefined on machines that insist on it. *)
Theorem C94_unaligned_refuted : forall le n b1 o1 b2 o2, 2 <= n -> ((addr b1 + N.of_nat o1) mod 2 = 1)%N ->
  memcmp_n true le n b1 o1 b2 o2 = UB.
Proof. exact memcmp_odd. Qed.
Print Assumptions C94_unaligned_refuted.
Example C94_unaligned_ex : memcmp_n true true 4 (Block 4096 (str "abcdefgh")) 1 (Block 4096 (str "abcdefgh")) 1 = UB.
Proof. vm_compute. reflexivity. Qed.
(* The array overload accepts arrays shorter than N and reads beyond them. *)
Theorem C94_short_array_refuted : forall strict le n b1 b2 c, n > length (bytes b1) ->
  memcmp_n strict le n b1 0 b2 0 = Ok c -> c = false.
Proof.
  intros strict le n b1 b2 c L H. destruct c; [|reflexivity]. apply memcmp_true_inv in H; [|lia]. lia.
Qed.
Print Assumptions C94_short_array_refuted.
Example C94_short_array_ex : memcmp_n true true 8 (Block 0 (str "abcd")) 0 (Block 0 (str "abcd")) 0 = UB.
Proof. vm_compute. reflexivity. Qed.

(* C95: arrays and ranges *)
Theorem C95_make_string : forall s len,
  make_string s len = Ok (if len <=? length s then firstn len s else []).
Proof.
  intros s len. unfold make_string. rewrite Nat.leb_antisym. destruct (Nat.ltb_spec (length s) len) as [L|L]; cbn [negb]; [reflexivity|].
  rewrite string_of_ok by lia. unfold sub. cbn [fst snd]. rewrite Nat.sub_0_r. reflexivity.
Qed.
Print Assumptions C95_make_string.

Example C95_make_ex : make_string (str "abcd") 3 = Ok (str "abc") /\ make_string (str "abcd") 5 = Ok [].
Proof. split; reflexivity. Qed.
Theorem C95_make_string_range : forall s a b, a <= b <= length s -> make_string_range s (a, b) = Ok (sub s (a, b)).
Proof. intros s a b. apply string_of_ok. Qed.
Print Assumptions C95_make_string_range.

Example C95_make_string_range_ex : make_string_range (str "abcd") (1, 3) = Ok (str "bc") /\ make_string_range (str "abcd") (2, 2) = Ok [].
Proof. split; reflexivity. Qed.
(* a range the wrong way round, or one that ends behind the text *)
Theorem C95_make_string_range_refuted : forall s a b, b < a \/ a < b /\ length s < b -> make_string_range s (a, b) = UB.
Proof.
  intros s a b [L|[L1 L2]]; [|now apply string_of_ub]. unfold make_string_range, string_of. destruct (Nat.ltb_spec b a); [reflexivity|lia].
Qed.
Print Assumptions C95_make_string_range_refuted.

Example C95_make_string_range_refuted_ex : make_string_range (str "abcd") (3, 1) = UB /\ make_string_range (str "abcd") (1, 5) = UB.
Proof. split; reflexivity. Qed.

(* With the default length a string literal comes back with its terminator. *)
Example C95_make_string_ex : make_string (str "ab" ++ [zero]) 3 = Ok (str "ab" ++ [zero]) /\ make_string (str "ab") 3 = Ok [] /\
  make_string (str "abc") 2 = Ok (str "ab") /\ make_string_range (str "abcd") (1, 3) = Ok (str "bc").
Proof. repeat split. Qed.

Theorem C95_clear_array : forall (T : Type) (a : list T) t len,
  clear_array a t len = Ok (if len <=? length a then (true, overwritten a 0 (repeat t len)) else (false, a)).
Proof.
  intros T a t len. unfold clear_array. rewrite Nat.leb_antisym. destruct (Nat.ltb_spec (length a) len) as [L|L]; cbn [negb]; [reflexivity|].
  rewrite fill_n_ok by lia. unfold overwritten. rewrite repeat_length. reflexivity.
Qed.
Print Assumptions C95_clear_array.
Example C95_clear_array_ex : clear_array [1; 2; 3; 4] 9 3 = Ok (true, [9; 9; 9; 4]) /\ clear_array [1; 2] 9 3 = Ok (false, [1; 2]).
Proof. split; reflexivity. Qed.

Theorem C95_set_array_string : forall a s pad padding,
  set_array_string a s pad padding =
  Ok (if length s <=? length a
      then (true, if pad then s ++ repeat padding (length a - length s) else overwritten a 0 s)
      else (false, a)).
Proof.
  intros a s pad padding. unfold set_array_string. rewrite Nat.leb_antisym.
  destruct (Nat.ltb_spec (length a) (length s)) as [L|L]; cbn [negb]; [reflexivity|].
  rewrite copy_arr_ok by lia. cbn [bind]. rewrite firstn_all. unfold overwritten. cbn [firstn app Nat.add].
  destruct (Nat.ltb_spec (length s) (length a)) as [M|M]; cbn [andb].
  - destruct pad; [|reflexivity]. rewrite fill_n_ok by (rewrite app_length, skipn_length; lia). cbn [bind].
    rewrite firstn_app_len. rewrite (skipn_all2 (s ++ _)) by (rewrite app_length, skipn_length; lia). rewrite app_nil_r. reflexivity.
  - assert (E : length a - length s = 0) by lia. rewrite E, skipn_all2 by lia. cbn [repeat]. destruct pad; reflexivity.
Qed.
Print Assumptions C95_set_array_string.
Example C95_set_array_string_ex :
  set_array_string (str "......") (str "abc") true "0" = Ok (true, str "abc000") /\
  set_array_string (str "......") (str "abc") false "0" = Ok (true, str "abc...") /\
  set_array_string (str "..") (str "abc") true "0" = Ok (false, str "..").
Proof. repeat split. Qed.

(* From an array only equal sizes work. *)
Theorem C95_set_array_array : forall dest src pad padding, length src = length dest ->
  set_array_array dest src pad padding = Ok (true, src).
Proof.
  intros dest src pad padding L. unfold set_array_array. rewrite <- L, Nat.ltb_irrefl. cbn [andb].
  rewrite copy_arr_ok by lia. cbn [bind]. rewrite firstn_all, skipn_all2 by lia. rewrite app_nil_r. reflexivity.
Qed.
Print Assumptions C95_set_array_array.

Example C95_set_equal_ex : set_array_array (str "....") (str "abcd") true "0" = Ok (true, str "abcd").
Proof. reflexivity. Qed.
Theorem C95_set_array_longer : forall dest src pad padding, length dest < length src ->
  set_array_array dest src pad padding = Ok (false, dest).
Proof.
  intros dest src pad padding L. unfold set_array_array. apply Nat.ltb_lt in L. rewrite L. reflexivity.
Qed.
Print Assumptions C95_set_array_longer.

Example C95_set_longer_ex : set_array_array (str "..") (str "abcd") false "0" = Ok (false, str "..").
Proof. reflexivity. Qed.
Theorem C95_set_array_shorter_refuted : forall dest src pad padding, length src < length dest ->
  set_array_array dest src pad padding = UB.
Proof.
  intros dest src pad padding L. unfold set_array_array. destruct (Nat.ltb_spec (length dest) (length src)); [lia|].
  rewrite copy_arr_ub by lia. reflexivity.
Qed.
Print Assumptions C95_set_array_shorter_refuted.
Example C95_set_array_ex :
  set_array_array (str "....") (str "abcd") true "0" = Ok (true, str "abcd") /\
  set_array_array (str "...") (str "abcd") true "0" = Ok (false, str "...") /\
  set_array_array (str ".....") (str "abcd") true "0" = UB.
Proof. repeat split. Qed.

Theorem C95_reverse : forall (T : Type) (s : list T) a b, a <= b <= length s ->
  reverse (Object false s) (a, b) = Ok (Object false (overwritten s a (rev (sub s (a, b))))).
Proof.
  intros T s a b L. rewrite reverse_ok by exact L. unfold overwritten. rewrite rev_length, sub_length by lia.
  replace (a + (b - a)) with b by lia. reflexivity.
Qed.
Print Assumptions C95_reverse.

Example C95_reverse_part_ex : reverse (Object false [1; 2; 3; 4; 5]) (1, 4) = Ok (Object false [1; 4; 3; 2; 5]).
Proof. reflexivity. Qed.
Theorem C95_fill : forall (T : Type) (s : list T) a b v, a <= b <= length s ->
  fill (Object false s) (a, b) v = Ok (Object false (overwritten s a (repeat v (b - a)))).
Proof.
  intros T s a b v L. rewrite fill_ok by exact L. unfold overwritten. rewrite repeat_length.
  replace (a + (b - a)) with b by lia. reflexivity.
Qed.
Print Assumptions C95_fill.

Example C95_fill_part_ex : fill (Object false [1; 2; 3; 4; 5]) (1, 4) 0 = Ok (Object false [1; 0; 0; 0; 5]).
Proof. reflexivity. Qed.
Theorem C95_fill_sequence : forall (T : Type) (s : list T) t, fill_sequence s t = Ok (repeat t (length s)).
Proof.
  intros T s t. unfold fill_sequence. destruct (Nat.eqb_spec (length s) 0) as [E|E].
  - destruct s; [reflexivity|discriminate].
  - rewrite fill_n_ok by lia. cbn [firstn app Nat.add]. rewrite skipn_all, app_nil_r. reflexivity.
Qed.
Print Assumptions C95_fill_sequence.
Example C95_reverse_ex :
  reverse (Object false (str "abcdef")) (1, 5) = Ok (Object false (str "aedcbf")) /\
  reverse (Object false (str "abcde")) (0, 5) = Ok (Object false (str "edcba")) /\
  fill (Object false (str "abcdef")) (2, 4) "x"%char = Ok (Object false (str "abxxef")) /\ fill_sequence [1; 2] 7 = Ok [7; 7].
Proof. repeat split. Qed.

(* The const qualifier is cast away: on an object that is really const the
   calls compile and are undefined. *)
Theorem C95_const_refuted : forall (T : Type) (s : list T) a b v, a + 2 <= b <= length s ->
  reverse (Object true s) (a, b) = UB /\ fill (Object true s) (a, b) v = UB.
Proof. intros T s a b v L. split; [apply reverse_const; exact L|apply fill_const; lia]. Qed.
Print Assumptions C95_const_refuted.
Example C95_const_ex : reverse (Object true (str "ab")) (0, 2) = UB.
Proof. reflexivity. Qed.
