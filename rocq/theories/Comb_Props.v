(* C29-C32, C47: combinatorics and random selection. *)
From Verif Require Import Base Comb_Model Comb_Spec Comb_Proofs Comb_Proofs2 Comb_Proofs3 Comb_Proofs4 Comb_Proofs5 Comb_Proofs6.
From Verif Require Export Comb_Spec2.
From Coq Require Import Permutation Sorted.

Lemma wanted_fits n : (n <= 6074000999)%N -> (wanted_size n < 2 ^ 64)%N.
Proof.
  intros H. unfold wanted_size. pose proof (N.div_mod n 2 ltac:(lia)). pose proof (N.mod_lt n 2 ltac:(lia)).
  set (q := (n / 2)%N) in *. set (m := (n mod 2)%N) in *. clearbody q m.
  assert (q <= 3037000499)%N by lia.
  destruct (N.eq_dec m 0) as [->|Hm].
  - assert (n * q <= 6074000998 * 3037000499)%N by (apply N.mul_le_mono; lia). lia.
  - assert (n * q <= 6074000999 * 3037000499)%N by (apply N.mul_le_mono; lia). lia.
Qed.

Lemma after_calls_ok st : after_calls st -> statics_ok st.
Proof.
  induction 1 as [|st fuel n k st' r _ IH Hn Hf E]; [apply initial_ok|].
  destruct (n_choose_k_ok fuel st n k IH Hf) as (st2 & E2 & Hs); [lia|apply wanted_fits; auto|].
  rewrite E in E2. injection E2 as -> _. exact Hs.
Qed.

(* ---- C29 ---- *)
Theorem C29_binomial : forall st fuel n k,
  after_calls st -> (0 < n <= 6074000999)%N -> N.to_nat n < fuel ->
  exists st' v, n_choose_k fuel st n k = Ok (st', v) /\ after_calls st' /\
    ((k <= n)%N -> exists c, is_binomial n k c /\ v = (c mod 2 ^ 64)%N) /\ ((n < k)%N -> v = 0%N).
Proof.
  intros st fuel n k Hs Hn Hf.
  destruct (n_choose_k_ok fuel st n k (after_calls_ok _ Hs) Hf) as (st2 & E2 & _); [lia|apply wanted_fits; lia|].
  exists st2, (bin n k). assert ((n =? 0)%N = false) as E0 by (apply N.eqb_neq; lia). rewrite E0 in E2.
  split; [exact E2|]. split; [eapply one_more; [exact Hs| |exact Hf|exact E2]; lia|]. split.
  - intros Hk. apply bin_is. exact Hk.
  - intros Hk. unfold bin. rewrite binom_big by lia. reflexivity.
Qed.
Print Assumptions C29_binomial.

Example C29_ex_binomial : (' (_, v) <- n_choose_k 200 initial_statics 8 3 ;; Ok v) = Ok 56%N /\
  (' (_, v) <- n_choose_k 200 initial_statics 3 8 ;; Ok v) = Ok 0%N /\ is_binomial 8 3 56.
Proof. repeat split; vm_compute; reflexivity. Qed.

(* The coefficient is determined by the equation. *)
Theorem C29_unique : forall n k c c', is_binomial n k c -> is_binomial n k c' -> c = c'.
Proof.
  intros n k c c' H H'. unfold is_binomial in *. rewrite <- H' in H.
  apply N.mul_cancel_r in H; auto. pose proof (lt_O_fact (N.to_nat k)). pose proof (lt_O_fact (N.to_nat (n - k))). nia.
Qed.
Print Assumptions C29_unique.

Example C29_ex_unique : is_binomial 6 2 15 /\ ~ is_binomial 6 2 16.
Proof. split; vm_compute; [reflexivity|discriminate]. Qed.

(* n = 0 gives 0, also for k = 0, where the coefficient is 1. *)
Theorem C29_zero_refuted : forall fuel st, n_choose_k fuel st 0 0 = Ok (st, 0%N) /\ is_binomial 0 0 1.
Proof. intros. split; reflexivity. Qed.
Print Assumptions C29_zero_refuted.

(* For n = 2^33 the table size wraps to 0 and the function indexes the 5000-entry
   static table out of bounds. *)
Theorem C29_huge_refuted : forall fuel, n_choose_k (S fuel) initial_statics (2 ^ 33) 2 = UB.
Proof. exact n_choose_k_huge. Qed.
Print Assumptions C29_huge_refuted.

Example C29_ex : (' (st, a) <- n_choose_k 200 initial_statics 10 3 ;;
                  ' (st, b) <- n_choose_k 200 st 20 10 ;;
                  ' (st, c) <- n_choose_k 200 st 9 4 ;; Ok (a, b, c)) = Ok (120%N, 184756%N, 126%N).
Proof. vm_compute. reflexivity. Qed.

(* ---- C30 ---- *)
(* The specification: [arrangements] lists all permutations once, in lexicographic order. *)
Theorem C30_arrangements : forall (T : Type) (s : list T),
  length (arrangements (length s) s) = fact (length s) /\
  (forall p, In p (arrangements (length s) s) <-> Permutation p s) /\
  (forall k i j p q, i < j -> nth_error (arrangements k (seq 0 k)) i = Some p ->
     nth_error (arrangements k (seq 0 k)) j = Some q -> lex lt p q).
Proof.
  intros T s. split; [apply arr_length; reflexivity|]. split; [intros p; apply arr_in; reflexivity|].
  intros k i j p q Hij. apply arr_lex; auto; [apply seq_length|apply increasing_seq].
Qed.
Print Assumptions C30_arrangements.

Example C30_ex_arrangements : arrangements 3 (str "abc") =
  [str "abc"; str "acb"; str "bac"; str "bca"; str "cab"; str "cba"].
Proof. reflexivity. Qed.

Theorem C30_nth_positions : forall n k p, 1 <= k <= 21 ->
  nth_error (arrangements k (seq 0 k)) n = Some p ->
  nth_permutation_sequence (N.of_nat n) k = Ok (map N.of_nat p).
Proof. exact nth_perm_ok. Qed.
Print Assumptions C30_nth_positions.

Example C30_ex_positions : nth_error (arrangements 4 (seq 0 4)) 13 = Some [2; 0; 3; 1] /\
  nth_permutation_sequence 13 4 = Ok [2; 0; 3; 1]%N.
Proof. split; vm_compute; reflexivity. Qed.

Theorem C30_nth_string : forall n s p, 1 <= length s <= 21 ->
  nth_error (arrangements (length s) s) n = Some p -> nth_permutation_string (N.of_nat n) s = Ok p.
Proof. exact nth_perm_string_ok. Qed.
Print Assumptions C30_nth_string.

Example C30_ex_string : nth_error (arrangements 4 (str "wxyz")) 23 = Some (str "zyxw") /\
  nth_permutation_string 23 (str "wxyz") = Ok (str "zyxw").
Proof. split; vm_compute; reflexivity. Qed.

(* Distinct numbers give distinct permutations and every permutation has a number. *)
Theorem C30_bijection : forall k, 1 <= k <= 21 ->
  (forall i j, i < fact k -> j < fact k ->
     nth_permutation_sequence (N.of_nat i) k = nth_permutation_sequence (N.of_nat j) k -> i = j) /\
  (forall p, Permutation p (seq 0 k) ->
     exists n, n < fact k /\ nth_permutation_sequence (N.of_nat n) k = Ok (map N.of_nat p)).
Proof.
  intros k Hk. assert (length (arrangements k (seq 0 k)) = fact k) as Hl by (apply arr_length, seq_length).
  split.
  - intros i j Hi Hj E. rewrite <- Hl in Hi, Hj.
    apply nth_error_Some in Hi. apply nth_error_Some in Hj.
    destruct (nth_error (arrangements k (seq 0 k)) i) as [p|] eqn:Ep; [|congruence].
    destruct (nth_error (arrangements k (seq 0 k)) j) as [q|] eqn:Eq; [|congruence].
    rewrite (nth_perm_ok _ _ _ Hk Ep), (nth_perm_ok _ _ _ Hk Eq) in E. injection E as E.
    assert (p = q) as ->.
    { clear -E. revert q E. induction p as [|x p IH]; destruct q as [|y q]; intros E; try discriminate; [reflexivity|].
      cbn [map] in E. injection E as E1 E2. apply Nat2N.inj in E1. subst. f_equal. auto. }
    destruct (lt_eq_lt_dec i j) as [[H|H]|H]; auto; exfalso.
    + apply (lex_irrefl lt ltac:(intros; lia) q). eapply arr_lex; [apply seq_length|apply increasing_seq|exact H|exact Ep|exact Eq].
    + apply (lex_irrefl lt ltac:(intros; lia) q). eapply arr_lex; [apply seq_length|apply increasing_seq|exact H|exact Eq|exact Ep].
  - intros p Hp. apply (arr_in k) in Hp; [|apply seq_length]. apply In_nth_error in Hp. destruct Hp as [n Hn].
    exists n. split; [rewrite <- Hl; apply nth_error_Some; congruence|]. apply nth_perm_ok; auto.
Qed.
Print Assumptions C30_bijection.

Example C30_ex_bijection : map (fun i => nth_permutation_sequence i 3) [0; 1; 2; 3; 4; 5]%N =
  [Ok [0; 1; 2]; Ok [0; 2; 1]; Ok [1; 0; 2]; Ok [1; 2; 0]; Ok [2; 0; 1]; Ok [2; 1; 0]]%N.
Proof. vm_compute. reflexivity. Qed.

(* The empty sequence and sequences of 67 elements are undefined behaviour; with 22
   elements the number 21! mod 2^64 gives a permutation from the wrong block. *)
Theorem C30_empty_refuted : forall n, nth_permutation_sequence n 0 = UB /\ nth_permutation_string n [] = UB.
Proof. intros n. split; reflexivity. Qed.
Print Assumptions C30_empty_refuted.

Example C30_empty_refuted_ex : nth_permutation_string 3 [] = UB /\ nth_permutation_string 3 (str "abc") <> UB.
Proof. split; [reflexivity|]. intros H. vm_compute in H. discriminate. Qed.
Theorem C30_67_refuted : forall n, nth_permutation_sequence n 67 = UB.
Proof. intros n. vm_compute. reflexivity. Qed.
Print Assumptions C30_67_refuted.

Example C30_67_refuted_ex : nth_permutation_sequence 0 67 = UB /\ nth_permutation_sequence 0 3 <> UB.
Proof. split; [vm_compute; reflexivity|]. intros H. vm_compute in H. discriminate. Qed.
Theorem C30_22_refuted :
  let n := 14197454024290336768%N in
  (exists out, nth_permutation_sequence n 22 = Ok (1%N :: out)) /\
  (forall p, nth_error (arrangements 22 (seq 0 22)) (N.to_nat n) = Some p -> nth_error p 0 = Some 0).
Proof.
  cbv zeta. split; [eexists; vm_compute; reflexivity|].
  intros p. apply arr_head_22. lia.
Qed.
Print Assumptions C30_22_refuted.

Example C30_ex : nth_permutation_string 4 (str "abc") = Ok (str "cab").
Proof. vm_compute. reflexivity. Qed.

(* ---- C31 ---- *)
Theorem C31_choices : forall (T : Type) (s : list T) k c,
  In c (choices k s) <-> length c = k /\ subseq c s.
Proof. intros. apply choices_in. Qed.
Print Assumptions C31_choices.

Example C31_ex_choices : choices 2 (str "abcd") = [str "ab"; str "ac"; str "ad"; str "bc"; str "bd"; str "cd"] /\
  choices 5 (str "abcd") = [].
Proof. split; reflexivity. Qed.

Theorem C31_nth : forall (T : Type) fuel st n k (s : list T) complete ps,
  after_calls st -> 2 <= k -> k <= length s -> length s + 1 < fuel -> (N.of_nat (length s) < 2 ^ 32)%N ->
  (N.of_nat (length (choices k (seq 0 (length s)))) < 2 ^ 64)%N ->
  nth_error (choices k (seq 0 (length s))) n = Some ps ->
  exists st' out, nth_combination_range fuel st (N.of_nat n) (N.of_nat k) s complete = Ok (st', out) /\
    elements_at s (ps ++ if complete then others (length s) ps else []) out.
Proof.
  intros T fuel st n k s complete ps Hs H2 Hk Hf Hl Hb Hn.
  destruct (nth_comb_range_ok fuel st n k s complete ps (after_calls_ok _ Hs) H2 Hk Hf Hl Hb Hn) as (st' & out & E & _ & H).
  eauto.
Qed.
Print Assumptions C31_nth.

Example C31_ex_complete : (' (_, out) <- nth_combination_range 20 initial_statics 4 2 (str "abcd") true ;; Ok out) = Ok (str "bdac") /\
  nth_error (choices 2 (seq 0 4)) 4 = Some [1; 3] /\ others 4 [1; 3] = [0; 2].
Proof. repeat split; vm_compute; reflexivity. Qed.

(* Without complete_index the output is the n-th entry of the list of all choices of
   k elements. *)
Theorem C31_nth_choice : forall (T : Type) fuel st n k (s c : list T),
  after_calls st -> 2 <= k -> k <= length s -> length s + 1 < fuel -> (N.of_nat (length s) < 2 ^ 32)%N ->
  (N.of_nat (length (choices k s)) < 2 ^ 64)%N ->
  nth_error (choices k s) n = Some c ->
  exists st', nth_combination_range fuel st (N.of_nat n) (N.of_nat k) s false = Ok (st', c).
Proof.
  intros T fuel st n k s c Hs H2 Hk Hf Hl Hb Hn.
  assert (length (choices k (seq 0 (length s))) = length (choices k s)) as El
    by (rewrite !choices_length, seq_length; reflexivity).
  assert (n < length (choices k (seq 0 (length s)))) as Hlt by (rewrite El; apply nth_error_Some; congruence).
  destruct (nth_error (choices k (seq 0 (length s))) n) as [ps|] eqn:Eps; [|apply nth_error_None in Eps; lia].
  destruct (choices_elements s k n ps Eps) as (c' & Ec & Hat). assert (c' = c) as -> by congruence.
  rewrite <- El in Hb.
  destruct (C31_nth T fuel st n k s false ps Hs H2 Hk Hf Hl Hb Eps) as (st' & out & E & Hout).
  exists st'. rewrite E. do 2 f_equal. rewrite app_nil_r in Hout. clear -Hat Hout. unfold at_positions in Hat. unfold elements_at in Hout.
  revert out Hout. induction Hat as [|p x ps c Hx _ IH]; intros out H; inversion H; subst; [reflexivity|].
  f_equal; [congruence|auto].
Qed.
Print Assumptions C31_nth_choice.

Example C31_ex_choice : (' (_, out) <- nth_combination_range 20 initial_statics 5 2 (str "abcd") false ;; Ok out) = Ok (str "cd").
Proof. vm_compute. reflexivity. Qed.

Theorem C31_small_k_refuted : forall fuel st n r,
  comb_indices fuel st n r 0 = UB /\ comb_indices fuel st n r 1 = UB.
Proof. intros. split; [apply k_zero_ub|apply k_one_ub]. Qed.
Print Assumptions C31_small_k_refuted.

Example C31_small_k_refuted_ex : comb_indices 100 initial_statics 0 5 1 = UB.
Proof. vm_compute. reflexivity. Qed.

(* Through a plain output iterator the indices go to the start of the buffer and the rest of it stays;
   with complete_index the other indices go to the start again. *)
Theorem C31_buffer : forall fuel st n r k ps buf,
  after_calls st -> 2 <= k -> k <= r -> r + 1 < fuel -> (N.of_nat r < 2 ^ 32)%N ->
  (N.of_nat (length (choices k (seq 0 r))) < 2 ^ 64)%N ->
  nth_error (choices k (seq 0 r)) n = Some ps -> length ps <= length buf ->
  let first := map N.of_nat ps ++ skipn (length ps) buf in
  let rest := others r ps in
  (exists st', nth_combination_buffer fuel st (N.of_nat n) (N.of_nat r) (N.of_nat k) false buf = Ok (st', first)) /\
  (length rest <= length buf ->
   exists st', nth_combination_buffer fuel st (N.of_nat n) (N.of_nat r) (N.of_nat k) true buf =
     Ok (st', map N.of_nat rest ++ skipn (length rest) first)).
Proof.
  intros fuel st n r k ps buf Hs H2 Hk Hf Hl Hb Hn Hbuf first rest. rewrite choices_length, seq_length in Hb.
  assert (forall p, In p ps -> p < r) as Hp.
  { intros p Hin. apply nth_error_In in Hn. apply choices_in in Hn. destruct Hn as [_ H].
    pose proof (subseq_in _ _ _ H Hin) as Hi. apply in_seq in Hi. lia. }
  destruct (comb_indices_ok r k fuel) with (st := st) (n := n) (c := ps) as (st' & E & _); auto using after_calls_ok.
  assert (copy : forall (b : list N) (xs : list nat), length xs <= length b ->
    copy_out b 0 (map N.of_nat xs) = Ok (map N.of_nat xs ++ skipn (length xs) b)).
  { intros b xs Hx. unfold copy_out. apply holds_eq. eapply holds_weaken.
    - apply (for_up_rule (fun i c => c = firstn i (map N.of_nat xs) ++ skipn i b)) with (i := 0); [|reflexivity].
      intros i c Hi ->. cbn [Nat.add] in Hi. destruct (rd_ok (map N.of_nat xs) i ltac:(lia)) as (v & -> & Hv). cbn [bind Nat.add].
      rewrite map_length in Hi. assert (Li : length (firstn i (map N.of_nat xs)) = i) by (rewrite firstn_length, map_length; lia).
      destruct (skipn i b) as [|y t] eqn:Es.
      { assert (length (skipn i b) = 0) as Z by now rewrite Es. rewrite skipn_length in Z. lia. }
      assert (Et : skipn (S i) b = t).
      { change (S i) with (1 + i). rewrite <- skipn_skipn, Es. reflexivity. }
      rewrite Et, (firstn_S_nth _ _ _ Hv), <- app_assoc. rewrite <- Li at 2. clear. unfold wr. rewrite upd_here, app_length, (proj2 (Nat.ltb_lt _ _)) by (cbn [length]; lia). reflexivity.
    - intros c ->. cbn [Nat.add]. rewrite firstn_all, map_length. reflexivity. }
  assert (Lf : length first = length buf) by (unfold first; rewrite app_length, map_length, skipn_length; lia).
  split; [|intros Hr]; exists st'; unfold nth_combination_buffer; rewrite E; cbn [bind]; rewrite (copy buf ps Hbuf); cbn [bind].
  - reflexivity.
  - rewrite (missing_ok _ _ Hp). cbn [bind]. fold first rest. rewrite (copy first rest) by lia. reflexivity.
Qed.
Print Assumptions C31_buffer.

Example C31_ex_buffer : (' (_, out) <- nth_combination_buffer 10 initial_statics 4 4 2 false [9; 9; 9; 9; 9]%N ;; Ok out) = Ok [1; 3; 9; 9; 9]%N.
Proof. vm_compute. reflexivity. Qed.

(* With complete_index and a plain output iterator the complement overwrites the
   combination. *)
Theorem C31_buffer_refuted :
  (' (_, out) <- nth_combination_buffer 10 initial_statics 0 5 2 true [9; 9; 9; 9; 9]%N ;; Ok out)
    = Ok [2; 3; 4; 9; 9]%N /\
  (' (_, out) <- nth_combination_back 10 initial_statics 0 5 2 true ;; Ok out) = Ok [0; 1; 2; 3; 4]%N.
Proof. split; vm_compute; reflexivity. Qed.
Print Assumptions C31_buffer_refuted.

Example C31_ex : (' (_, out) <- nth_combination_range 20 initial_statics 7 3 (str "abcde") true ;; Ok out) = Ok (str "bcead")
  /\ nth_error (choices 3 (str "abcde")) 7 = Some (str "bce") /\ nth_error (choices 3 (seq 0 5)) 7 = Some [1; 2; 4].
Proof. repeat split; vm_compute; reflexivity. Qed.

(* ---- C32 ---- *)
(* [draw n] is the index drawn in round n, when length s - n candidates are left. *)
Theorem C32_permutation : forall (T : Type) (draw : nat -> nat) (s : list T),
  (forall n, n < length s -> draw n < length s - n) ->
  exists out, random_permutation draw s = Ok out /\ Permutation out s.
Proof. intros T draw s. apply random_permutation_ok. Qed.
Print Assumptions C32_permutation.

Example C32_ex_permutation : random_permutation (fun n => 3 - n) (str "abcd") = Ok (str "dcba").
Proof. reflexivity. Qed.

Theorem C32_combination : forall (T : Type) (draw : nat -> nat) (s : list T) k,
  (forall n, n < length s -> draw n < length s - n) ->
  (k <= length s -> exists out, random_combination draw s k = Ok (Some out) /\ length out = k /\ distinct_positions s out) /\
  (length s < k -> random_combination draw s k = Ok None).
Proof. intros T draw s k. apply random_combination_ok. Qed.
Print Assumptions C32_combination.

Example C32_ex_combination : random_combination (fun n => 1 - n) (str "abcd") 2 = Ok (Some (str "ba")) /\
  random_combination (fun _ => 0) (str "ab") 3 = Ok None.
Proof. split; reflexivity. Qed.

Theorem C32_select_k : forall (T : Type) (d : T) keep draw (s : list T) k, (forall n, draw n < k) ->
  exists out, select_k_randomly d keep draw s k = Ok (out, length out) /\
    length out = Nat.min k (length s) /\ distinct_positions s out.
Proof. intros T. apply select_k_ok. Qed.
Print Assumptions C32_select_k.

Example C32_ex_select_k : select_k_randomly zero (fun _ => true) (fun _ => 0) (str "abcd") 2 = Ok (str "db", 2) /\
  select_k_randomly zero (fun _ => true) (fun _ => 0) (str "a") 2 = Ok (str "a", 1).
Proof. split; reflexivity. Qed.

Theorem C32_select_1 : forall (T : Type) keep (s : list T), keep 0 = true -> s <> [] ->
  exists x, select_1_randomly keep s = Ok [x] /\ In x s.
Proof. intros T. apply select_1_ok. Qed.
Print Assumptions C32_select_1.

Example C32_ex_select_1 : select_1_randomly (fun n => n <=? 1) (str "abcd") = Ok (str "b").
Proof. reflexivity. Qed.

(* A generator whose range includes 1.0 is accepted (11992), and drawing 1.0 indexes
   past the end. *)
Theorem C32_closed_range_refuted : forall (T : Type) (draw : nat -> nat) (s : list T),
  s <> [] -> draw 0 = length s -> random_permutation draw s = UB.
Proof.
  intros T draw s Hs Hd. unfold random_permutation. cbn [loop]. rewrite seq_length, Hd.
  destruct s as [|a s']; [congruence|]. cbn [length Nat.eqb]. cbv zeta.
  rewrite rd_ub by (rewrite seq_length; simpl; lia). reflexivity.
Qed.
Print Assumptions C32_closed_range_refuted.

Example C32_closed_range_refuted_ex : random_permutation (fun _ => 3) [1; 2; 3] = UB /\ random_permutation (fun _ => 0) [1; 2; 3] <> UB.
Proof. split; [vm_compute; reflexivity|]. intros H. vm_compute in H. discriminate. Qed.

(* The chosen elements come in the order drawn, not in their original order. *)
Theorem C32_order_refuted : exists draw,
  random_combination draw (str "abc") 2 = Ok (Some (str "ca")).
Proof. exists (fun n => match n with 0 => 2 | _ => 0 end). vm_compute. reflexivity. Qed.
Print Assumptions C32_order_refuted.

(* select_1_randomly outputs an uninitialised value if no comparison succeeds. *)
Theorem C32_select_1_refuted : forall (T : Type) (x : T), select_1_randomly (fun _ => false) [x] = UB.
Proof. intros. reflexivity. Qed.
Print Assumptions C32_select_1_refuted.

Example C32_ex :
  random_permutation (fun n => match n with 0 => 2 | 1 => 0 | _ => 0 end) (str "abc") = Ok (str "cab") /\
  select_k_randomly zero (fun n => n =? 1) (fun _ => 1) (str "abcde") 2 = Ok (str "ad", 2).
Proof. split; vm_compute; reflexivity. Qed.

(* ---- C47 ---- *)
(* Whatever the contents and the ordering, next_combination permutes the range. *)
Theorem C47_permutes : forall (T : Type) (lt : T -> T -> bool) k (s : list T), k <= length s ->
  exists s' b, next_combination lt k s = Ok (s', b) /\ Permutation s' s.
Proof. intros T lt k s. apply next_permutes. Qed.
Print Assumptions C47_permutes.

Example C47_ex_permutes : next_combination Nat.ltb 2 [1; 3; 2; 4] = Ok ([1; 4; 2; 3], true) /\
  next_combination Nat.ltb 2 [3; 4; 1; 2] = Ok ([1; 2; 3; 4], false).
Proof. split; reflexivity. Qed.

(* From a sorted range of distinct elements, calling next_combination until it
   returns false shows every k-element choice once, in lexicographic order, and leaves
   the range sorted. *)
Theorem C47_enumerates : forall (T : Type) (lt : T -> T -> bool) (l : list T) k fuel,
  (forall a b, lt a b = true -> lt b a = false) ->
  StronglySorted (fun a b => lt a b = true) l -> k <= length l -> length (choices k l) < fuel ->
  visit_combinations fuel lt k l = Ok (choices k l, l).
Proof. intros T lt l k fuel Ha Hs Hk Hf. apply visit_ok; auto. rewrite <- choices_length. exact Hf. Qed.
Print Assumptions C47_enumerates.

Example C47_ex_enumerates : visit_combinations 20 Nat.ltb 3 [2; 4; 6; 8] =
  Ok ([[2; 4; 6]; [2; 4; 8]; [2; 6; 8]; [4; 6; 8]], [2; 4; 6; 8]).
Proof. reflexivity. Qed.

Theorem C47_lex_order : forall (T : Type) (R : T -> T -> Prop) (l : list T) k, StronglySorted R l ->
  forall i j p q, i < j -> nth_error (choices k l) i = Some p -> nth_error (choices k l) j = Some q -> lex R p q.
Proof. intros T R l k. apply choices_lex. Qed.
Print Assumptions C47_lex_order.

Example C47_ex_lex : choices 2 [1; 2; 3] = [[1; 2]; [1; 3]; [2; 3]] /\ lex lt [1; 2] [1; 3] /\ lex lt [1; 3] [2; 3].
Proof. split; [reflexivity|]. split; [apply lex_eq, lex_lt; lia|apply lex_lt; lia]. Qed.

(* The same for a loop over a combination_iterator. *)
Theorem C47_iterator : forall (T : Type) (lt : T -> T -> bool) (l : list T) k fuel,
  (forall a b, lt a b = true -> lt b a = false) ->
  StronglySorted (fun a b => lt a b = true) l -> l <> [] -> k <= length l -> S (length (choices k l)) < fuel ->
  ci_visit fuel lt k l = Ok (choices k l, l).
Proof. intros T lt l k fuel Ha Hs Hne Hk Hf. apply ci_visit_ok; auto. rewrite <- choices_length. exact Hf. Qed.
Print Assumptions C47_iterator.

Example C47_ex : visit_combinations 20 Nat.ltb 2 [1; 3; 5; 7] =
  Ok ([[1; 3]; [1; 5]; [1; 7]; [3; 5]; [3; 7]; [5; 7]], [1; 3; 5; 7]).
Proof. vm_compute. reflexivity. Qed.

(* nth_permutation over a range writes iterators: the one to the element at every position of
   the n-th arrangement *)
Theorem C30_nth_range : forall (T : Type) n (s : list T) p, 1 <= length s <= 21 ->
  nth_error (arrangements (length s) (seq 0 (length s))) n = Some p ->
  nth_permutation_range (N.of_nat n) s = Ok (map N.of_nat p) /\
  exists q, nth_error (arrangements (length s) s) n = Some q /\ at_positions s p q.
Proof.
  intros T n s p Hk E. split.
  - unfold nth_permutation_range. rewrite (nth_perm_ok n (length s) p Hk E). cbn [bind].
    assert (Hl : length (map N.of_nat p) = length s).
    { rewrite map_length. apply nth_error_In in E. apply arr_in in E; [|apply seq_length]. apply Permutation_length in E. now rewrite seq_length in E. }
    apply holds_eq. rewrite <- Hl. eapply holds_weaken.
    + apply (for_up_rule (fun i acc => acc = firstn i (map N.of_nat p))) with (i := 0); [|reflexivity].
      intros i acc Hi ->. destruct (rd_ok (map N.of_nat p) i ltac:(lia)) as (v & -> & N). cbn [bind holds]. symmetry. now apply firstn_S_nth.
    + intros acc ->. cbn [Nat.add]. apply firstn_all.
  - now apply arr_elements.
Qed.
Print Assumptions C30_nth_range.

Example C30_ex_range : nth_permutation_range 4 (str "xyz") = Ok [2; 0; 1]%N /\ nth_error (arrangements 3 (str "xyz")) 4 = Some (str "zxy").
Proof. split; reflexivity. Qed.
