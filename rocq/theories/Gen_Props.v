From Coq Require Import List Arith NArith ZArith Ascii Bool Lia Permutation.
From Verif Require Import Base Binary_Model Binary_Spec Mem_Model Mem_Spec Cont_Model Cont_Spec Cont_Proofs Gen_Model Gen_Spec Gen_Proofs.
Import ListNotations.
Local Open Scope nat_scope.

Definition int32 := IntType (- 2 ^ 31) (2 ^ 31 - 1) true.
Definition uint8 := IntType 0 255 false.
Definition schar8 := IntType (-128) 127 false.

(* C96: iota *)
Theorem C96_range : forall ty s a b v, a <= b <= length s -> countable ty v (b - a) ->
  iota_range ty s (a, b) v = Ok (overwritten s a (map (counted ty v) (seq 0 (b - a)))).
Proof. exact iota_range_ok. Qed.
Print Assumptions C96_range.
Example C96_range_ex :
  iota_range int32 [0; 0; 0; 0; 0]%Z (1, 4) (-1) = Ok [0; -1; 0; 1; 0]%Z /\
  iota_range uint8 [7; 7; 7; 7]%Z (0, 3) 254 = Ok [254; 255; 0; 7]%Z /\
  iota_range schar8 [7; 7; 7; 7]%Z (0, 3) 126 = Ok [126; 127; -128; 7]%Z.
Proof. repeat split. Qed.
(* without wrapping the values are just v, v+1, ... *)
Theorem C96_values : forall ty v n i, countable ty v n -> (v + Z.of_nat n <= hi ty)%Z -> i < n -> counted ty v i = (v + Z.of_nat i)%Z.
Proof. intros ty v n i [R _] H Hi. unfold counted. rewrite Z.mod_small; lia. Qed.
Print Assumptions C96_values.
Example C96_values_ex : counted int32 5 3 = 8%Z /\ counted uint8 254 3 = 1%Z.
Proof. split; reflexivity. Qed.

Theorem C96_sequence : forall ty c n v, countable ty v n ->
  iota_count ty (fun c x => c ++ [x]) c n v = Ok (c ++ map (counted ty v) (seq 0 n)).
Proof.
  intros ty c n v H. rewrite iota_count_ok by exact H. f_equal. fold (iota_vals ty v n). generalize (iota_vals ty v n). intros l. revert c.
  induction l as [|x l IH]; intros c; cbn [fold_left]; [symmetry; apply app_nil_r|]. rewrite IH, <- app_assoc. reflexivity.
Qed.
Print Assumptions C96_sequence.

Example C96_sequence_ex : iota_count uint8 (fun c x => c ++ [x]) [9%Z] 4 254 = Ok [9; 254; 255; 0; 1]%Z.
Proof. reflexivity. Qed.
Theorem C96_set : forall ty lt s n v, strict_weak lt -> rising lt s -> countable ty v n ->
  exists r, iota_count ty (set_insert lt) s n v = Ok r /\ rising lt r /\ (forall x, In x s -> In x r) /\
            (forall x, In x r -> In x s \/ exists i, i < n /\ x = counted ty v i) /\
            (forall i, i < n -> exists x, In x r /\ (x = counted ty v i \/ (lt x (counted ty v i) = false /\ lt (counted ty v i) x = false))).
Proof.
  intros ty lt s n v Hl Hs H. rewrite iota_count_ok by exact H. eexists. split; [reflexivity|].
  destruct (fold_set lt Hl (iota_vals ty v n) s Hs) as (A & B & C & D). split; [exact A|]. split; [exact B|]. split.
  - intros x Hx. destruct (C x Hx) as [?|Hi]; [auto|right]. unfold iota_vals in Hi. apply in_map_iff in Hi.
    destruct Hi as (i & <- & Hi). apply in_seq in Hi. exists i. split; [lia|reflexivity].
  - intros i Hi. apply D. unfold iota_vals. apply in_map. apply in_seq. lia.
Qed.
Print Assumptions C96_set.

Example C96_set_ex : iota_count int32 (set_insert Z.ltb) [2; 6]%Z 4 4 = Ok [2; 4; 5; 6; 7]%Z.
Proof. reflexivity. Qed.
Theorem C96_multiset : forall ty lt s n v, strict_weak lt -> level_or_rising lt s -> countable ty v n ->
  exists r, iota_count ty (multiset_insert lt) s n v = Ok r /\ level_or_rising lt r /\
            Permutation r (s ++ map (counted ty v) (seq 0 n)).
Proof.
  intros ty lt s n v Hl Hs H. rewrite iota_count_ok by exact H. eexists. split; [reflexivity|].
  apply (fold_multiset lt Hl (iota_vals ty v n) s Hs).
Qed.
Print Assumptions C96_multiset.
Example C96_containers_ex :
  iota_count int32 (fun c x => c ++ [x]) [9%Z] 3 5 = Ok [9; 5; 6; 7]%Z /\
  iota_count int32 (set_insert Z.ltb) [6%Z] 3 5 = Ok [5; 6; 7]%Z /\
  iota_count uint8 (multiset_insert Z.ltb) [6%Z] 3 255 = Ok [0; 1; 6; 255]%Z.
Proof. repeat split. Qed.

(* The value is incremented once more than needed: filling up to the largest
   value of a signed type overflows after the last store. *)
Theorem C96_largest_refuted : forall ty v n s, overflows ty = true -> (v <= hi ty)%Z -> (v + Z.of_nat n = hi ty + 1)%Z -> length s = n ->
  iota_range ty s (0, n) v = UB /\ forall C (put : C -> Z -> C) c, iota_count ty put c n v = UB.
Proof.
  intros ty v n s O H1 H2 L. split.
  - unfold iota_range. apply (iota_range_ub ty n O n); lia.
  - intros C put c. apply iota_count_ub; [exact O|lia|lia].
Qed.
Print Assumptions C96_largest_refuted.
Example C96_largest_ex : iota_range int32 [0; 0]%Z (0, 2) (2 ^ 31 - 2) = UB /\ (2 ^ 31 - 2 + 1 <= hi int32)%Z.
Proof. split; [reflexivity|discriminate]. Qed.

(* C97: min_of_cont and max_of_cont *)
Theorem C97_min : forall (T : Type) (lt : T -> T -> bool) s, strict_weak lt -> s <> [] ->
  exists x k, min_of_cont lt s = Ok x /\ first_least lt s k x.
Proof. intros T lt s H. apply min_of_cont_ok. exact H. Qed.
Print Assumptions C97_min.

Example C97_first_ex : min_of_cont (fun a b : nat * nat => fst a <? fst b) [(2, 0); (1, 1); (1, 2)] = Ok (1, 1).
Proof. reflexivity. Qed.
Theorem C97_max : forall (T : Type) (lt : T -> T -> bool) s, strict_weak lt -> s <> [] ->
  exists x k, max_of_cont lt s = Ok x /\ first_least (fun a b => lt b a) s k x.
Proof. intros T lt s H N. rewrite max_is_min. apply min_of_cont_ok; [apply flip_weak; exact H|exact N]. Qed.
Print Assumptions C97_max.
(* pairs ordered by their first component: the first of the least *)
Example C97_min_ex :
  let lt := fun a b : nat * nat => fst a <? fst b in
  min_of_cont lt [(3, 0); (1, 1); (4, 2); (1, 3); (4, 4)] = Ok (1, 1) /\ max_of_cont lt [(3, 0); (1, 1); (4, 2); (1, 3); (4, 4)] = Ok (4, 2).
Proof. split; reflexivity. Qed.
Theorem C97_set : forall (T : Type) (lt : T -> T -> bool) s, strict_weak lt -> rising lt s -> s <> [] ->
  exists x y, min_of_set s = Ok x /\ In x s /\ (forall z, In z s -> lt z x = false) /\
              max_of_set s = Ok y /\ In y s /\ (forall z, In z s -> lt y z = false).
Proof.
  intros T lt s (H1 & H2 & H3) R N.
  destruct (exists_last N) as (m & y & Em). destruct s as [|x s]; [congruence|].
  exists x, y. unfold min_of_set, max_of_set. split; [reflexivity|]. split; [left; reflexivity|]. split.
  { intros z [->|Hz]; [apply H1|]. inversion R as [|? ? _ F]; subst. rewrite Forall_forall in F. specialize (F z Hz).
    destruct (lt z x) eqn:E; [|reflexivity]. pose proof (H2 _ _ _ E F) as X. rewrite H1 in X. discriminate. }
  split.
  { rewrite Em. rewrite app_length. cbn [length]. destruct (Nat.eqb_spec (length m + 1) 0); [lia|].
    replace (length m + 1 - 1) with (length m) by lia. apply rd_here. }
  split; [rewrite Em; apply in_or_app; right; left; reflexivity|].
  intros z Hz. rewrite Em in Hz, R. apply in_app_or in Hz. destruct Hz as [Hz|[->|[]]]; [|apply H1].
  assert (Q : lt z y = true).
  { clear Em N x s. induction m as [|w m IH]; [destruct Hz|]. cbn [app] in R. inversion R as [|? ? R' F]; subst.
    destruct Hz as [->|Hz]; [|apply IH; assumption]. rewrite Forall_forall in F. apply F. apply in_or_app. right; left; reflexivity. }
  destruct (lt y z) eqn:E; [|reflexivity]. pose proof (H2 _ _ _ E Q) as X. rewrite H1 in X. discriminate.
Qed.
Print Assumptions C97_set.
(* The order meant is that of the comparator: a set in falling order has its
   largest number as minimum. *)
Example C97_set_ex : rising (fun a b => b <? a) [7; 5; 2] /\ min_of_set [7; 5; 2] = Ok 7 /\ min_of_cont Nat.ltb [7; 5; 2] = Ok 2.
Proof. repeat split; repeat constructor. Qed.
Theorem C97_empty_refuted : forall (T : Type) (lt : T -> T -> bool),
  min_of_cont lt [] = UB /\ max_of_cont lt [] = UB /\ @min_of_set T [] = UB /\ @max_of_set T [] = UB.
Proof. intros T lt. repeat split. Qed.
Print Assumptions C97_empty_refuted.

Example C97_empty_refuted_ex : min_of_cont Nat.ltb [] = UB /\ min_of_cont Nat.ltb [3; 1; 2] = Ok 1.
Proof. repeat split; reflexivity. Qed.

(* C98: random data *)
Theorem C98_whole_words : forall strict le rnd ad q pre mid post pg, length mid = 4 * q ->
  (strict = true -> ((ad + N.of_nat (length pre)) mod 4 = 0)%N) ->
  generate_random_data strict le rnd (Block ad (pre ++ mid ++ post)) (length pre) (4 * q) pg =
  Ok (Block ad (pre ++ words (host_bytes le 4) rnd pg q ++ post)).
Proof. exact generate_whole. Qed.
Print Assumptions C98_whole_words.

Example C98_whole_words_ex : forall rnd, rnd 1 = 1684234849%N -> rnd 2 = 1684234850%N ->
  generate_random_data true true rnd (Block 62 (str "<<........>")) 2 8 1 = Ok (Block 62 (str "<<abcdbbcd>")).
Proof. intros rnd H1 H2. unfold generate_random_data. vm_compute. rewrite H1, H2. reflexivity. Qed.
(* A length that is no multiple of four: the last number overlaps the one
   before. *)
Theorem C98_tail : forall le rnd ad q r pre mid post pg, 0 < r < 4 -> 0 < q -> length mid = 4 * q + r ->
  generate_random_data false le rnd (Block ad (pre ++ mid ++ post)) (length pre) (4 * q + r) pg =
  Ok (Block ad (pre ++ firstn (4 * q + r - 4) (words (host_bytes le 4) rnd pg q) ++ host_bytes le 4 (rnd (pg + q)) ++ post)).
Proof. exact generate_tail. Qed.
Print Assumptions C98_tail.
Definition sample (k : nat) : N := 1684234849 + N.of_nat k.
Example C98_ex :
  generate_random_data true true sample (Block 64 (str "<........>")) 1 8 0 = UB /\
  generate_random_data true true sample (Block 63 (str "<........>")) 1 8 0 = Ok (Block 63 (str "<abcdbbcd>")) /\
  generate_random_data false true sample (Block 64 (str "<......>")) 1 6 2 = Ok (Block 64 (str "<cbdbcd>")).
Proof. vm_compute. repeat split. Qed.
(* Fewer than four bytes: the bytes before the given address are written. *)
Theorem C98_short_refuted : forall strict le rnd ad r pre mid post pg, 0 < r < 4 -> length mid = r -> length pre + r < 4 ->
  (strict = true -> ((ad + N.of_nat (length pre)) mod 4 = 0)%N) ->
  generate_random_data strict le rnd (Block ad (pre ++ mid ++ post)) (length pre) r pg = UB.
Proof. exact generate_short_ub. Qed.
Print Assumptions C98_short_refuted.

Example C98_short_refuted_ex : generate_random_data false true (fun _ => 1%N) (Block 0 (str "ab")) 0 2 0 = UB.
Proof. vm_compute. reflexivity. Qed.
Theorem C98_short_before_refuted : forall le rnd ad r pre mid post pg, 0 < r < 4 -> length mid = r -> 4 <= length pre + r ->
  generate_random_data false le rnd (Block ad (pre ++ mid ++ post)) (length pre) r pg =
  Ok (Block ad (firstn (length pre - (4 - r)) pre ++ host_bytes le 4 (rnd pg) ++ post)).
Proof. exact generate_short_before. Qed.
Print Assumptions C98_short_before_refuted.

Example C98_short_before_refuted_ex : generate_random_data false true (fun _ => 1%N) (Block 0 (str "abcdef")) 4 2 0 = Ok (Block 0 (str "ab" ++ map ascii_of_nat [1; 0; 0; 0])).
Proof. vm_compute; reflexivity. Qed.
Theorem C98_unaligned_refuted : forall le rnd ad q r pre mid post pg, 0 < r < 4 -> 0 < q -> length mid = 4 * q + r ->
  ((ad + N.of_nat (length pre)) mod 4 = 0)%N ->
  generate_random_data true le rnd (Block ad (pre ++ mid ++ post)) (length pre) (4 * q + r) pg = UB.
Proof. exact generate_unaligned. Qed.
Print Assumptions C98_unaligned_refuted.
Example C98_short_ex :
  generate_random_data false true sample (Block 64 (str "..")) 0 2 0 = UB /\
  generate_random_data false true sample (Block 64 (str "mine..")) 4 2 0 = Ok (Block 64 (str "miabcd")) /\
  generate_random_data true true sample (Block 64 (str ".....")) 0 5 0 = UB.
Proof. vm_compute. repeat split. Qed.

(* C99: random values *)
Theorem C99_values : forall (G T : Type) (step : G -> G) (draw : G -> T * G) c count g pregen (P : T -> Prop),
  (forall g, P (fst (draw g))) ->
  exists vs, generate_random_values step draw (fun c v => c ++ [v]) c count g pregen = c ++ vs /\
             vs = drawn draw count (steps step pregen g) /\ length vs = count /\ Forall P vs.
Proof.
  intros G T step draw c count g pregen P HP. eexists. split; [|split; [reflexivity|split; [apply drawn_length|apply drawn_in; exact HP]]].
  unfold generate_random_values. rewrite values_fold. generalize (drawn draw count (steps step pregen g)). intros l. revert c.
  induction l as [|x l IH]; intros c; cbn [fold_left]; [symmetry; apply app_nil_r|]. rewrite IH, <- app_assoc. reflexivity.
Qed.
Print Assumptions C99_values.

Example C99_values_ex :
  let step := fun g => (g * 5 + 3) mod 16 in let draw := fun g => (g, step g) in
  generate_random_values step draw (fun c v => c ++ [v]) [] 4 1 0 = [1; 8; 11; 10] /\ drawn draw 2 8 = [8; 11].
Proof. split; reflexivity. Qed.
Theorem C99_real_rng : forall (G T : Type) (step : G -> G) (draw : G -> T * G) seeded n,
  real_calls draw n (uniform_real_rng step seeded 0) = drawn draw n seeded.
Proof. intros G T step draw seeded n. apply real_calls_drawn. Qed.
Print Assumptions C99_real_rng.

Example C99_real_rng_ex :
  let step := fun g => (g * 5 + 3) mod 16 in let draw := fun g => (g, step g) in
  real_calls draw 4 (uniform_real_rng step 8 0) = [8; 11; 10; 5].
Proof. reflexivity. Qed.
(* pregen is ignored: the steps are taken with another copy of the generator *)
Theorem C99_pregen_refuted : forall (G T : Type) (step : G -> G) (draw : G -> T * G) seeded n pregen,
  real_calls draw n (uniform_real_rng step seeded pregen) = real_calls draw n (uniform_real_rng step seeded 0).
Proof. intros G T step draw seeded n pregen. rewrite !real_calls_drawn. reflexivity. Qed.
Print Assumptions C99_pregen_refuted.
Example C99_ex :
  let step := fun g => (g * 5 + 3) mod 16 in let draw := fun g => (g, step g) in
  generate_random_values step draw (fun c v => c ++ [v]) [100] 3 1 2 = [100; 11; 10; 5] /\
  real_calls draw 3 (uniform_real_rng step 1 0) = [1; 8; 11] /\ real_calls draw 3 (uniform_real_rng step 1 2) = [1; 8; 11].
Proof. vm_compute. repeat split. Qed.
