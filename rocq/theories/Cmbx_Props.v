(* C139, C140: the combinator example and the combination iterator. *)
From Verif Require Import Base Num_Model Num_Spec Text_Model Parse_Spec Comb_Model Comb_Spec Comb_Proofs Comb_Proofs3 Cmbx_Model Cmbx_Spec Cmbx_Proofs.
From Verif Require Gen_Model.
From Coq Require Import Permutation Sorted.
Local Open Scope nat_scope.

(* The program writes one numbered line for each way to take k of the numbers 0 .. n - 1, in
   the order of the selections *)
Theorem C139_output : forall fuel n k, 0 < n -> (Z.of_nat n <= 2 ^ 32 - 1)%Z -> k <= n ->
  (Z.of_nat (length (choices k (first_numbers n))) < 2 ^ 64)%Z -> length (choices k (first_numbers n)) < fuel ->
  exists ls, combinator fuel n k = Ok (concat ls) /\ length ls = length (choices k (first_numbers n)) /\
    forall i c, nth_error (choices k (first_numbers n)) i = Some c -> exists l, nth_error ls i = Some l /\ numbered_line i c l.
Proof. exact combinator_ok. Qed.
Print Assumptions C139_output.
Definition tab : list ascii := [ascii_of_nat 9].
Definition eol : list ascii := [ascii_of_nat 10].
Example C139_output_example : combinator 20 6 4 = Ok (
  str "0000" ++ tab ++ str "0 1 2 3" ++ eol ++ str "0001" ++ tab ++ str "0 1 2 4" ++ eol ++ str "0002" ++ tab ++ str "0 1 2 5" ++ eol ++
  str "0003" ++ tab ++ str "0 1 3 4" ++ eol ++ str "0004" ++ tab ++ str "0 1 3 5" ++ eol ++ str "0005" ++ tab ++ str "0 1 4 5" ++ eol ++
  str "0006" ++ tab ++ str "0 2 3 4" ++ eol ++ str "0007" ++ tab ++ str "0 2 3 5" ++ eol ++ str "0008" ++ tab ++ str "0 2 4 5" ++ eol ++
  str "0009" ++ tab ++ str "0 3 4 5" ++ eol ++ str "0010" ++ tab ++ str "1 2 3 4" ++ eol ++ str "0011" ++ tab ++ str "1 2 3 5" ++ eol ++
  str "0012" ++ tab ++ str "1 2 4 5" ++ eol ++ str "0013" ++ tab ++ str "1 3 4 5" ++ eol ++ str "0014" ++ tab ++ str "2 3 4 5" ++ eol).
Proof. vm_compute. reflexivity. Qed.

(* which selections these are: n! / (k! (n-k)!) of them, every increasing list of k of the
   numbers, the selections in lexicographic order *)
Theorem C139_selections : forall n k, k <= n ->
  length (choices k (first_numbers n)) * (fact k * fact (n - k)) = fact n /\
  (forall c, In c (choices k (first_numbers n)) <-> length c = k /\ subseq c (first_numbers n)) /\
  (forall i j p q, i < j -> nth_error (choices k (first_numbers n)) i = Some p -> nth_error (choices k (first_numbers n)) j = Some q ->
     lex Z.lt p q).
Proof.
  intros n k H. assert (Hl : length (first_numbers n) = n) by (unfold first_numbers; now rewrite map_length, seq_length).
  split; [rewrite choices_length, Hl; now apply binom_fact|]. split; [intros c; apply choices_in|].
  apply choices_lex. clear. generalize (first_sorted n). induction 1 as [|a u S1 IH F]; constructor; auto.
  eapply Forall_impl; [|exact F]. intros b. apply Z.ltb_lt.
Qed.
Print Assumptions C139_selections.
Example C139_selections_example : choices 2 (first_numbers 4) = [[0; 1]; [0; 2]; [0; 3]; [1; 2]; [1; 3]; [2; 3]]%Z /\ 6 * (fact 2 * fact 2) = fact 4.
Proof. split; reflexivity. Qed.

(* There is one way to take nothing from nothing, but the begin of an empty range is its end:
   no line is written *)
Theorem C139_empty_refuted : forall fuel, combinator (S fuel) 0 0 = Ok [] /\ choices 0 (first_numbers 0) = [[]].
Proof. intros fuel. split; reflexivity. Qed.
Print Assumptions C139_empty_refuted.
Example C139_empty_example : combinator 9 3 0 = Ok (str "0000" ++ tab ++ eol).
Proof. reflexivity. Qed.

(* More elements than there are: the middle of the range is behind its end *)
Theorem C139_beyond_refuted : forall fuel n k, (Z.of_nat n <= 2 ^ 32 - 1)%Z -> n < k -> combinator fuel n k = UB.
Proof.
  intros fuel n k Hb H. unfold combinator. rewrite counting_list by auto. cbn [bind]. unfold ci_construct.
  replace (length (first_numbers n)) with n by (unfold first_numbers; now rewrite map_length, seq_length).
  now replace (n <? k) with true by (symmetry; now apply Nat.ltb_lt).
Qed.
Print Assumptions C139_beyond_refuted.
Example C139_beyond_example : combinator 30 3 4 = UB /\ combinator 30 4 4 = Ok (str "0000" ++ tab ++ str "0 1 2 3" ++ eol).
Proof. split; reflexivity. Qed.

(* C140.  += i leads from the first selection to the i-th one, or to the end if there are not
   so many; the range is then as it was at first *)
Theorem C140_advance : forall (T : Type) (lt : T -> T -> bool) (l : list T) k i,
  (forall a b, lt a b = true -> lt b a = false) ->
  StronglySorted (fun a b => lt a b = true) l -> l <> [] -> k <= length l ->
  exists it s, ci_advance lt (Z.of_nat i) (ci_start k) l = Ok (it, s) /\
    (i < length (choices k l) -> ci_equal it (ci_end s) = false /\ nth_error (choices k l) i = Some (sub s (0, k))) /\
    (length (choices k l) <= i -> ci_equal it (ci_end s) = true /\ s = l).
Proof.
  intros T lt l k i As Hs Hne Hk. pose proof (place_start lt As l k Hk) as P0.
  assert (H : holds (ci_advance lt (Z.of_nat i) (ci_start k) l) (fun '(it, s) => at_place l k i it s)).
  { unfold ci_advance. destruct (0 <? Z.of_nat i)%Z eqn:E.
    - rewrite Nat2Z.id. pose proof (advance_ok lt As l Hs Hne k Hk i 0 _ _ P0) as H. now rewrite Nat.add_0_r in H.
    - apply Z.ltb_ge in E. replace i with 0 by lia. exact P0. }
  destruct (ci_advance lt (Z.of_nat i) (ci_start k) l) as [[it s]| |]; cbn [holds] in H; try contradiction.
  exists it, s. split; [reflexivity|]. destruct (place_is lt As l Hs Hne k Hk _ _ _ H) as (P1 & P2). split.
  - intros Hi. destruct (P1 Hi) as (-> & E & N). split; [|exact N]. unfold ci_equal in *. now rewrite (Nat.eqb_sym (ci_begin (ci_start k))), (Nat.eqb_sym (ci_middle (ci_start k))).
  - intros Hi. destruct (P2 Hi) as (-> & _ & ->). split; [|reflexivity]. unfold ci_equal. now rewrite !Nat.eqb_refl.
Qed.
Print Assumptions C140_advance.
Example C140_advance_example : ci_advance Nat.ltb 4 (ci_start 2) [1; 3; 5; 7] = Ok (ci_start 2, [3; 7; 1; 5]) /\
  nth_error (choices 2 [1; 3; 5; 7]) 4 = Some [3; 7] /\ ci_advance Nat.ltb 6 (ci_start 2) [1; 3; 5; 7] = Ok (ci_end [1; 3; 5; 7], [1; 3; 5; 7]).
Proof. repeat split. Qed.

(* it never leads back: a distance of zero or less changes nothing *)
Theorem C140_back_refuted : forall (T : Type) (lt : T -> T -> bool) inc it (s : list T), (inc <= 0)%Z ->
  ci_advance lt inc it s = Ok (it, s).
Proof. intros T lt inc it s H. unfold ci_advance. now replace (0 <? inc)%Z with false by (symmetry; now apply Z.ltb_ge). Qed.
Print Assumptions C140_back_refuted.
Example C140_back_example : ci_advance Nat.ltb (-1) (ci_start 2) [1; 5; 3; 7] = Ok (ci_start 2, [1; 5; 3; 7]).
Proof. reflexivity. Qed.

(* distances add up *)
Theorem C140_sum : forall (T : Type) (lt : T -> T -> bool) a b it (s : list T), (0 <= a)%Z -> (0 <= b)%Z ->
  (' (it, s) <- ci_advance lt a it s ;; ci_advance lt b it s) = ci_advance lt (a + b) it s.
Proof.
  intros T lt a b it s Ha Hb.
  assert (N : forall n it s, ci_advance lt (Z.of_nat n) it s = for_up 0 n (fun _ '(it, s) => ci_next lt it s) (it, s)).
  { intros n it' s'. unfold ci_advance. rewrite Nat2Z.id. destruct n; [reflexivity|]. reflexivity. }
  rewrite <- (Z2Nat.id a), <- (Z2Nat.id b) by auto. generalize (Z.to_nat a) as n, (Z.to_nat b) as m. clear a b Ha Hb. intros n m.
  rewrite <- Nat2Z.inj_add, !N.
  assert (G : forall n i j st, for_up i n (fun _ '(it, s) => ci_next lt it s) st = for_up j n (fun _ '(it, s) => ci_next (T := T) lt it s) st).
  { clear. induction n as [|n IH]; intros i j st; cbn [for_up]; [reflexivity|]. destruct st as [it s].
    destruct (ci_next lt it s) as [st| |]; cbn [bind]; auto. }
  revert it s. induction n as [|n IH]; intros it s; cbn [for_up Nat.add bind].
  - apply N.
  - destruct (ci_next lt it s) as [[it' s']| |]; cbn [bind]; auto. rewrite (G n 1 0), (G (n + m) 1 0). apply IH.
Qed.
Print Assumptions C140_sum.
Example C140_sum_example : (' (it, s) <- ci_advance Nat.ltb 1 (ci_start 2) [1; 3; 5; 7] ;; ci_advance Nat.ltb 3 it s) = Ok (ci_start 2, [3; 7; 1; 5]).
Proof. reflexivity. Qed.

(* A range that is not sorted, of different elements, with sorted = false: the loop sees every
   selection of the sorted range once, in order, and leaves the range sorted *)
Theorem C140_unsorted : forall (T : Type) (lt : T -> T -> bool) (s : list T) k fuel,
  (forall a b, lt a b = true -> lt b a = false) -> (forall a b c, lt a b = true -> lt b c = true -> lt a c = true) ->
  (forall a b, a <> b -> lt a b = true \/ lt b a = true) -> NoDup s -> s <> [] -> k <= length s -> S (length (choices k s)) < fuel ->
  exists l, ci_construct lt k s false = Ok (ci_start k, l) /\ Permutation s l /\ StronglySorted (fun a b => lt a b = true) l /\
    ci_visit fuel lt k l = Ok (choices k l, l).
Proof.
  intros T lt s k fuel As Tr To Hn Hne Hk Hf. exists (std_sort lt s). pose proof (sort_perm lt s) as P. pose proof (Permutation_length P) as PL.
  pose proof (sort_sorted lt Tr To s Hn) as S1. split; [|split; [exact P|split; [exact S1|]]].
  - unfold ci_construct. now replace (length s <? k) with false by (symmetry; now apply Nat.ltb_ge).
  - apply ci_visit_ok; auto; [|lia|rewrite <- PL, <- choices_length; exact Hf]. intros E. rewrite E in PL. apply Hne. now apply length_zero_iff_nil.
Qed.
Print Assumptions C140_unsorted.
Example C140_unsorted_example : ci_construct Nat.ltb 2 [7; 1; 5] false = Ok (ci_start 2, [1; 5; 7]) /\
  ci_visit 9 Nat.ltb 2 [1; 5; 7] = Ok ([[1; 5]; [1; 7]; [5; 7]], [1; 5; 7]).
Proof. split; reflexivity. Qed.

(* with sorted = true, the default, selections are missed *)
Theorem C140_default_refuted : ci_construct Nat.ltb 2 [7; 5; 1] true = Ok (ci_start 2, [7; 5; 1]) /\
  ci_visit 9 Nat.ltb 2 [7; 5; 1] = Ok ([[7; 5]], [1; 7; 5]) /\ length (choices 2 [7; 5; 1]) = 3.
Proof. repeat split. Qed.
Print Assumptions C140_default_refuted.
Example C140_default_example : ci_visit 9 Nat.ltb 2 [1; 5; 7] = Ok ([[1; 5]; [1; 7]; [5; 7]], [1; 5; 7]) /\ choices 2 [7; 5; 1] = [[7; 5]; [7; 1]; [5; 1]].
Proof. split; reflexivity. Qed.
