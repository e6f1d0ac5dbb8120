(* C126: random selection with the numbers of a generator; C127: every outcome is equally likely *)
From Coq Require Import Permutation Factorial ZArith SpecFloat.
From Verif Require Import Base Parse_Model IO_Model IO_Spec IO_Proofs Stl_Model Stl_Props Comb_Model Comb_Spec Comb_Proofs5 Real_Spec Real_Float.
From Verif Require Import Rand_Model Rand_Spec Rand_Spec2 Rand_Float Rand_Float2 Rand_Proofs Rand_Proofs2 Rand_Proofs3 Rand_Proofs4 Rand_Proofs5.
Local Open Scope nat_scope.

(* for the examples *)
Definition half : spec_float := b64 1 (-1).
Definition fourth : spec_float := b64 1 (-2).

(* ---- C126 ---- *)
(* An index computed from a number of [0,1) is one of the container. *)
Theorem C126_index : forall n u, 0 < n -> (Z.of_nat n <= 2 ^ 53)%Z -> unit_double u ->
  exists i, to_size (dmul (of_size n) u) = Ok i /\ i < n.
Proof. intros n u Hn H53. now apply index_in_range. Qed.
Print Assumptions C126_index.

Example C126_index_example : to_size (dmul (of_size 3) top) = Ok 2 /\ to_size (dmul (of_size 7) half) = Ok 3 /\ unit_double top.
Proof. split; [vm_compute; reflexivity|]. split; [vm_compute; reflexivity|apply top_unit]. Qed.

Theorem C126_permutation : forall (T : Type) us (s : list T), (Z.of_nat (length s) <= 2 ^ 53)%Z -> Forall unit_double us -> length s <= length us ->
  exists p, random_permutation_r us s = Ok p /\ Permutation p s.
Proof. intros T us s. apply permutation_r_ok. Qed.
Print Assumptions C126_permutation.

Example C126_permutation_example : random_permutation_r [half; half; half] (str "abc") = Ok (str "bca") /\
  random_permutation_r [top; bottom; top; half] (str "abcd") = Ok (str "dacb").
Proof. split; vm_compute; reflexivity. Qed.

(* every arrangement can come out *)
Theorem C126_permutation_reached : forall (T : Type) (s p : list T), (Z.of_nat (length s) <= 2 ^ 51)%Z -> Permutation p s ->
  exists us, length us = length s /\ Forall unit_double us /\ random_permutation_r us s = Ok p.
Proof. intros T s p. apply permutation_r_reach. Qed.
Print Assumptions C126_permutation_reached.

Example C126_permutation_reached_example : random_permutation_r [top; half; bottom] (str "abc") = Ok (str "cba") /\
  random_permutation_r [bottom; bottom; bottom] (str "abc") = Ok (str "abc").
Proof. split; vm_compute; reflexivity. Qed.

Theorem C126_combination : forall (T : Type) us (s : list T) k, (Z.of_nat (length s) <= 2 ^ 53)%Z -> Forall unit_double us -> k <= length us ->
  (k <= length s -> exists xs, random_combination_r us s k = Ok (Some xs) /\ length xs = k /\ distinct_positions s xs) /\
  (length s < k -> random_combination_r us s k = Ok None).
Proof.
  intros T us s k H53 Hu Hl. split; [now apply combination_r_ok|]. intros H. unfold random_combination_r. apply Nat.ltb_lt in H. now rewrite H.
Qed.
Print Assumptions C126_combination.

Example C126_combination_example : random_combination_r [half; fourth] (str "abcd") 2 = Ok (Some (str "ca")) /\
  random_combination_r [half; half] (str "a") 2 = Ok None.
Proof. split; vm_compute; reflexivity. Qed.

Theorem C126_combination_reached : forall (T : Type) (s xs : list T), (Z.of_nat (length s) <= 2 ^ 51)%Z -> distinct_positions s xs ->
  exists us, length us = length xs /\ Forall unit_double us /\ random_combination_r us s (length xs) = Ok (Some xs).
Proof. intros T s xs. apply combination_r_reach. Qed.
Print Assumptions C126_combination_reached.

Example C126_combination_reached_example : random_combination_r [top; top] (str "abcd") 2 = Ok (Some (str "dc")) /\
  random_combination_r [bottom; top] (str "abcd") 2 = Ok (Some (str "ad")).
Proof. split; vm_compute; reflexivity. Qed.

(* at most two numbers are used for each element after the first k *)
Theorem C126_select_k : forall (T : Type) (d : T) us (s : list T) k, (Z.of_nat k <= 2 ^ 53)%Z -> Forall unit_double us -> 2 * (length s - k) <= length us ->
  exists out, select_k_randomly_r d us s k = Ok (out, length out) /\ length out = Nat.min k (length s) /\ distinct_positions s out.
Proof. intros T d us s k. apply select_k_r_ok. Qed.
Print Assumptions C126_select_k.

Example C126_select_k_example : select_k_randomly_r zero [half; half; top; bottom; half] (str "abcde") 2 = Ok (str "ae", 2) /\
  select_k_randomly_r zero [] (str "ab") 3 = Ok (str "ab", 2).
Proof. split; vm_compute; reflexivity. Qed.

(* every choice of k elements can come out, in some order *)
Theorem C126_select_k_reached : forall (T : Type) (d : T) (s xs : list T), (Z.of_nat (length s) <= 2 ^ 51)%Z -> distinct_positions s xs ->
  exists us out, Forall unit_double us /\ select_k_randomly_r d us s (length xs) = Ok (out, length xs) /\ Permutation out xs.
Proof. intros T d s xs. apply select_k_r_reach. Qed.
Print Assumptions C126_select_k_reached.

Example C126_select_k_reached_example : select_k_randomly_r zero [top; top; top] (str "abcde") 2 = Ok (str "ab", 2) /\
  select_k_randomly_r zero [top; bottom; bottom; bottom; half] (str "abcde") 2 = Ok (str "de", 2).
Proof. split; vm_compute; reflexivity. Qed.

Theorem C126_select_1 : forall (T : Type) us (s : list T), Forall unit_double us -> length s <= length us ->
  (s <> [] -> exists x, select_1_randomly_r us s = Ok [x] /\ In x s) /\ (s = [] -> select_1_randomly_r us s = Ok []).
Proof. intros T us s Hu Hl. split; [now apply select_1_r_ok|]. now intros ->. Qed.
Print Assumptions C126_select_1.

Example C126_select_1_example : select_1_randomly_r [top; top; fourth; top] (str "abcd") = Ok (str "c") /\ select_1_randomly_r [] [] = Ok (str "").
Proof. split; vm_compute; reflexivity. Qed.

Theorem C126_select_1_reached : forall (T : Type) (s : list T) x, (Z.of_nat (length s) <= 2 ^ 52)%Z -> In x s ->
  exists us, length us = length s /\ Forall unit_double us /\ select_1_randomly_r us s = Ok [x].
Proof. intros T s x. apply select_1_r_reach. Qed.
Print Assumptions C126_select_1_reached.

Example C126_select_1_reached_example : select_1_randomly_r [bottom; top; top] (str "abc") = Ok (str "a") /\
  select_1_randomly_r [bottom; bottom; bottom] (str "abc") = Ok (str "c").
Proof. split; vm_compute; reflexivity. Qed.

(* A generator that returns 1.0 makes the first draw read past the end, although its
   range passes the check on 11992. *)
Theorem C126_one_refuted : forall (T : Type) us (s : list T), s <> [] -> (Z.of_nat (length s) <= 2 ^ 53)%Z ->
  random_permutation_r (b64 1 0 :: us) s = UB.
Proof.
  intros T us s Hs H53. assert (L : 0 < length s) by (destruct s; [congruence|cbn; lia]).
  assert (E : to_size (dmul (of_size (length s)) (b64 1 0)) = Ok (length s)).
  { unfold dmul, of_size. rewrite (mul_exact _ _ (Z.of_nat (length s)) 1); [|apply small_exact; lia|apply small_exact; lia]. rewrite Z.mul_1_r.
    destruct (small_exact (Z.of_nat (length s)) ltac:(lia)) as [[H _]|(m & e & -> & D & _)]; [lia|].
    rewrite (to_size_whole m e (Z.of_nat (length s))); [now rewrite Nat2Z.id|split; [lia|]; eapply Z.le_lt_trans; [exact H53|reflexivity]|].
    unfold whole. destruct D as [[He ->]|[He D]].
    - replace (0 <=? e)%Z with true by (symmetry; apply Z.leb_le; lia). reflexivity.
    - destruct (Z.leb_spec 0 e) as [He2|He2]; [assert (e = 0)%Z as -> by lia; change (2 ^ (- 0))%Z with 1%Z in D; change (2 ^ 0)%Z with 1%Z; lia|].
      rewrite D. apply Z.div_mul. apply Z.pow_nonzero; lia. }
  unfold random_permutation_r. cbn [loop]. rewrite seq_length. replace (length s =? 0) with false by (symmetry; apply Nat.eqb_neq; lia).
  cbn [next bind]. rewrite E. cbn [bind]. rewrite rd_ub by (rewrite seq_length; lia). reflexivity.
Qed.
Print Assumptions C126_one_refuted.

Example C126_one_refuted_example : random_permutation_r [b64 1 0] (str "a") = UB /\ random_permutation_r [top] (str "a") = Ok (str "a").
Proof. split; vm_compute; reflexivity. Qed.

(* strtk_randomizer writes the lines of its input in some order, one to a line. *)
Theorem C126_randomizer : forall us fs args input text ls,
  (args = [] /\ text = input \/ exists f, args = [f] /\ text = if can_open fs f then contents fs f else []) ->
  lines_of text ls -> (Z.of_nat (length ls) <= 2 ^ 53)%Z -> Forall unit_double us -> length ls <= length us ->
  exists out p, randomizer us fs args input = Ok (out, 0) /\ lines_of out p /\ Permutation p ls.
Proof.
  intros us fs args input text ls Ha Hl H53 Hu Hlu.
  assert (E : exists out p, permute_lines us ls = Ok (out, 0) /\ lines_of out p /\ Permutation p ls).
  { unfold permute_lines. destruct (Nat.eqb_spec (length ls) 0) as [H0|H0].
    - exists [], []. split; [reflexivity|]. split; [constructor|]. apply length_zero_iff_nil in H0. now rewrite H0.
    - destruct (permutation_r_ok ls us H53 Hu Hlu) as (p & -> & P). cbn [bind]. exists (concat (map (fun l => l ++ [newline]) p)), p. split; [reflexivity|]. split; [|exact P].
      apply written_lines. apply Forall_forall. intros l Hi. apply (Permutation_in _ P) in Hi. clear - Hl Hi.
      induction Hl as [|l0 H1 H2|l0 s ls H1 _ IH]; [destruct Hi| |]; (destruct Hi as [<-|Hi]; [assumption|]); [destruct Hi|auto]. }
  destruct E as (out & p & E & R). exists out, p. split; [|exact R].
  assert (V : values_of Some ls ls true) by (rewrite <- (map_id ls) at 1; now apply values_all).
  destruct Ha as [[-> ->]|(f & -> & Et)]; cbn [randomizer].
  - destruct (load_ok Some input ls ls true [] Hl V) as (n & st & L & _). rewrite L. cbn [bind app]. exact E.
  - destruct (can_open fs f) eqn:O.
    + subst text. rewrite (C107_load_file _ _ _ Some fs f ls ls true [] Hl V), O. cbn [bind].
      assert (F : forall (l : list (list ascii)) a, fold_left (fun l x => l ++ [x]) l a = a ++ l).
      { induction l as [|x l IH]; intros a; cbn [fold_left]; [now rewrite app_nil_r|]. rewrite IH, <- app_assoc. reflexivity. }
      rewrite F. cbn [app]. exact E.
    + unfold load_from_file, ifstream. rewrite O. cbn [good negb bind]. subst text.
      assert (ls = []) by (inversion Hl; try congruence; match goal with H : _ ++ _ = [] |- _ => destruct (app_eq_nil _ _ H); discriminate end). subst ls. exact E.
Qed.
Print Assumptions C126_randomizer.

Example C126_randomizer_example :
  let fs := FSys (fun n => if n =? 1 then Some (str "one" ++ newline :: str "two" ++ newline :: str "three") else None) (fun n => n =? 1) (fun _ => false) in
  randomizer [half; top; top] fs [1] [] = Ok (str "two" ++ newline :: str "three" ++ newline :: str "one" ++ [newline], 0) /\
  randomizer [] fs [2] [] = Ok ([], 0) /\
  randomizer [half; half] fs [] (str "b" ++ newline :: str "a") = Ok (str "a" ++ newline :: str "b" ++ [newline], 0).
Proof. repeat split; vm_compute; reflexivity. Qed.

(* ... and with more than one file name it touches neither input nor files and reports the usage. *)
Theorem C126_usage : forall us fs args input, 2 <= length args ->
  randomizer us fs args input =
  Ok (str "usage: strtk_randomizer <file name>" ++ newline :: str "usage: cat data.txt | strtk_randomizer" ++ [newline], 1).
Proof. intros us fs [|a [|b args]] input H; cbn in H; try lia. reflexivity. Qed.
Print Assumptions C126_usage.

Example C126_usage_example : exists out, randomizer [] (FSys (fun _ => None) (fun _ => false) (fun _ => false)) [1; 2] (str "x") = Ok (out, 1) /\ length out = 75.
Proof. eexists. split; reflexivity. Qed.

(* ---- C127 ---- *)
(* Each arrangement of different elements comes from exactly one sequence of draws: if the
   sequences are equally likely, so are the arrangements. *)
Theorem C127_permutation : forall (T : Type) (s p : list T), NoDup s -> Permutation p s ->
  exists! ds, falling (length s) (length s) ds /\ random_permutation (fun n => nth n ds 0) s = Ok p.
Proof. intros T s p. apply fair_permutation. Qed.
Print Assumptions C127_permutation.

Example C127_permutation_example : random_permutation (fun n => nth n [2; 0; 0] 0) (str "abc") = Ok (str "cab") /\ falling 3 3 [2; 0; 0] /\
  random_permutation (fun n => nth n [1; 1; 0] 0) (str "abc") = Ok (str "bca").
Proof. split; [reflexivity|]. split; [|reflexivity]. split; [reflexivity|]. intros [|[|[|[|j]]]] d E; cbn in E; try discriminate; injection E as <-; lia. Qed.

Theorem C127_combination : forall (T : Type) (s xs : list T), NoDup s -> distinct_positions s xs ->
  exists! ds, falling (length s) (length xs) ds /\ random_combination (fun n => nth n ds 0) s (length xs) = Ok (Some xs).
Proof. intros T s xs. apply fair_combination. Qed.
Print Assumptions C127_combination.

Example C127_combination_example : random_combination (fun n => nth n [3; 0] 0) (str "abcd") 2 = Ok (Some (str "da")) /\
  random_combination (fun n => nth n [0; 2] 0) (str "abcd") 2 = Ok (Some (str "ad")).
Proof. split; reflexivity. Qed.

(* select_k_randomly: the element after n others is kept if a draw of n + 1 numbers is one of the
   first k, and then replaces that one of the elements selected.  Every choice of k elements comes
   from the same number of sequences of draws. *)
Theorem C127_select_k : forall (T : Type) (d : T) (s xs : list T), NoDup s -> distinct_positions s xs ->
  let k := length xs in
  there_are (fact (length s - k)) (fun rs => rising (S k) (length s - k) rs /\
    exists out, select_k_randomly d (fun n => nth n rs 0 <? k) (fun n => nth n rs 0) s k = Ok (out, k) /\ Permutation out xs).
Proof. intros T d s xs. apply count_select_k. Qed.
Print Assumptions C127_select_k.

Example C127_select_k_example :
  map (fun rs => select_k_randomly zero (fun n => nth n rs 0 <? 1) (fun n => nth n rs 0) (str "abc") 1) [[0; 0]; [0; 1]; [0; 2]; [1; 0]; [1; 1]; [1; 2]]
    = map (fun x => Ok (x, 1)) [str "c"; str "b"; str "b"; str "c"; str "a"; str "a"] /\
  select_k_randomly zero (fun n => nth n [1; 2] 0 <? 2) (fun n => nth n [1; 2] 0) (str "abcd") 2 = Ok (str "ac", 2).
Proof. split; reflexivity. Qed.

Theorem C127_select_1 : forall (T : Type) (s : list T) x, NoDup s -> In x s ->
  there_are (fact (length s - 1)) (fun rs => rising 1 (length s) rs /\ select_1_randomly (fun n => nth n rs 0 =? 0) s = Ok [x]).
Proof. intros T s x. apply count_select_1. Qed.
Print Assumptions C127_select_1.

Example C127_select_1_example :
  map (fun rs => select_1_randomly (fun n => nth n rs 0 =? 0) (str "abc")) [[0; 0; 0]; [0; 0; 1]; [0; 0; 2]; [0; 1; 0]; [0; 1; 1]; [0; 1; 2]]
    = map Ok [str "c"; str "b"; str "b"; str "c"; str "a"; str "a"].
Proof. reflexivity. Qed.
