(* C115: the random line selector of strtk_random_line.cpp. *)
From Verif Require Import Base Parse_Model IO_Model IO_Spec IO_Proofs Stl_Model Rline_Model Rline_Spec Rline_Proofs.
From Verif Require Export Rline_Spec2.
Local Open Scope nat_scope.

(* Which line is printed: the last one whose draw is below 1 / (its number). *)
Theorem C115_choice : forall M ds fs file ls, 0 < M -> can_open fs file = true -> lines_of (contents fs file) ls ->
  length ds = length ls -> Forall (fun d => d < M) ds -> (N.of_nat (length ls) < 2 ^ 64 - 1)%N ->
  (ls = [] -> random_line (N.of_nat M) (map N.of_nat ds) fs file = Ok []) /\
  (ls <> [] -> exists i l d, random_line (N.of_nat M) (map N.of_nat ds) fs file = Ok l /\
     nth_error ls i = Some l /\ nth_error ds i = Some d /\ d * (i + 1) < M /\
     forall j e, i < j -> nth_error ds j = Some e -> M <= e * (j + 1)).
Proof.
  intros M ds fs file ls HM Ho Hl Hd F B. unfold random_line, for_each_line_file, ifstream. rewrite Ho. cbn [good].
  rewrite (for_each_line_ok _ _ _ Hl). cbn [bind].
  destruct (run_ok M ls ds 1 [] Hd ltac:(lia)) as (l & E & H). change 1%N with (N.of_nat 1). rewrite E. cbn [bind Rline_Model.line]. split.
  - intros ->. destruct H as [(_ & ->)|(i & Hi & _)]; [reflexivity|destruct i; discriminate].
  - intros Hn. destruct H as [(Hf & _)|(i & Hi & Hp)].
    + exfalso. destruct ls as [|s ls]; [contradiction|]. destruct ds as [|d ds]; [discriminate|]. inversion F as [|? ? Hd0 _]; subst.
      apply (proj1 (fails_spec M (d :: ds) 1)) with (i := 0) (d := d) in Hf; [lia|reflexivity].
    + apply picks_spec in Hp. destruct Hp as ((d & Ed & Hd') & Hl').
      exists i, l, d. rewrite (Nat.add_comm i). split; [reflexivity|]. split; [exact Hi|]. split; [exact Ed|]. split; [exact Hd'|].
      intros j e Hj Ee. rewrite (Nat.add_comm j). exact (Hl' j e Hj Ee).
Qed.
Print Assumptions C115_choice.
Example C115_choice_case :
  let fs := FSys (fun _ => Some (str "a" ++ "010"%char :: str "b" ++ "010"%char :: str "c")) (fun _ => true) (fun _ => true) in
  random_line 6 [5; 2; 1]%N fs 0 = Ok (str "c") /\ random_line 6 [5; 2; 2]%N fs 0 = Ok (str "b") /\ random_line 6 [0; 3; 4]%N fs 0 = Ok (str "a").
Proof. repeat split; vm_compute; reflexivity. Qed.

Lemma sequences_in M n ds : In ds (sequences M n) -> length ds = n /\ Forall (fun d => d < M) ds.
Proof.
  revert ds. induction n as [|n IH]; intros ds H; cbn [sequences] in H.
  - destruct H as [<-|[]]. auto.
  - apply in_flat_map in H. destruct H as (d & Hd & H). apply in_map_iff in H. destruct H as (x & <- & Hx).
    apply in_seq in Hd. destruct (IH x Hx) as [<- F]. split; [reflexivity|]. constructor; [lia|exact F].
Qed.
Lemma prints_picks M fs file ls i l : 0 < M -> can_open fs file = true -> lines_of (contents fs file) ls -> NoDup ls ->
  (N.of_nat (length ls) < 2 ^ 64 - 1)%N -> nth_error ls i = Some l ->
  number (prints M fs file l) (sequences M (length ls)) = number (fun ds => picks M 1 ds i) (sequences M (length ls)).
Proof.
  intros HM Ho Hl Nd B Hi. apply number_ext. intros ds Hds. apply sequences_in in Hds. destruct Hds as [Ld Fd].
  unfold prints, random_line, for_each_line_file, ifstream. rewrite Ho. cbn [good].
  rewrite (for_each_line_ok _ _ _ Hl). cbn [bind].
  destruct (run_ok M ls ds 1 [] Ld ltac:(lia)) as (x & E & H). change 1%N with (N.of_nat 1). rewrite E. cbn [bind Rline_Model.line].
  destruct H as [(Hf & _)|(j & Hj & Hp)].
  { exfalso. destruct ls as [|s ls]; [destruct i; discriminate|]. destruct ds as [|d ds]; [discriminate|]. inversion Fd as [|? ? Hd0 _]; subst.
    apply (proj1 (fails_spec M (d :: ds) 1)) with (i := 0) (d := d) in Hf; [lia|reflexivity]. }
  destruct (list_eq_dec ascii_dec x l) as [->|N].
  - assert (j = i) as ->; [|now rewrite Hp]. apply (proj1 (NoDup_nth_error ls)); [exact Nd|eapply nth_error_some_lt; eauto|congruence].
  - destruct (picks M 1 ds i) eqn:P; [|reflexivity]. exfalso. apply N. rewrite (picks_unique M ds 1 i j P Hp) in Hi. congruence.
Qed.

(* Every line has the same chance if 1, ..., n divide the number of values of the generator. *)
Theorem C115_uniform : forall M fs file ls l, 0 < M -> can_open fs file = true -> lines_of (contents fs file) ls -> NoDup ls ->
  (N.of_nat (length ls) < 2 ^ 64 - 1)%N -> In l ls -> (forall k, 1 <= k <= length ls -> Nat.divide k M) ->
  length (sequences M (length ls)) = M ^ length ls /\
  number (prints M fs file l) (sequences M (length ls)) * length ls = M ^ length ls.
Proof.
  intros M fs file ls l HM Ho Hl Nd B Hi D. split; [apply number_all|]. apply In_nth_error in Hi. destruct Hi as (i & Hi).
  rewrite (prints_picks M fs file ls i l); auto. assert (L : i < length ls) by (eapply nth_error_some_lt; eauto).
  rewrite number_picks by exact L. set (n := length ls) in *.
  pose proof (fails_exact M (n - i - 1) (1 + i) ltac:(lia)) as X. replace (1 + i + (n - i - 1)) with n in X by lia.
  replace (M ^ i * c M (1 + i) * number (fails M (1 + i + 1)) (sequences M (n - i - 1)) * n)
    with (M ^ i * c M (1 + i) * (number (fails M (1 + i + 1)) (sequences M (n - i - 1)) * n)) by lia.
  rewrite X by (intros t Ht; apply D; lia).
  destruct (c_bounds M (1 + i) ltac:(lia)) as (B1 & B2 & B3). destruct (D (1 + i) ltac:(lia)) as (q & Eq).
  assert (c M (1 + i) = q) as -> by nia.
  replace (M ^ i * q * ((1 + i) * M ^ (n - i - 1))) with (M ^ i * (q * (1 + i)) * M ^ (n - i - 1)) by lia. rewrite <- Eq.
  rewrite <- (Nat.pow_1_r M) at 2. rewrite <- !Nat.pow_add_r. f_equal. lia.
Qed.
Print Assumptions C115_uniform.
Example C115_uniform_case :
  let fs := FSys (fun _ => Some (str "a" ++ "010"%char :: str "b" ++ "010"%char :: str "c")) (fun _ => true) (fun _ => true) in
  number (prints 6 fs 0 (str "a")) (sequences 6 3) = 72 /\ number (prints 6 fs 0 (str "b")) (sequences 6 3) = 72 /\
  number (prints 6 fs 0 (str "c")) (sequences 6 3) = 72 /\ length (sequences 6 3) = 216.
Proof. repeat split; vm_compute; reflexivity. Qed.

(* For any other generator the chance of line i (from 0) of n is between
   (1 - 1/M)^(n-i-1) / n and (1 + i/M) / n. *)
Theorem C115_nearly : forall M fs file ls i l, 0 < M -> can_open fs file = true -> lines_of (contents fs file) ls -> NoDup ls ->
  (N.of_nat (length ls) < 2 ^ 64 - 1)%N -> nth_error ls i = Some l ->
  M ^ (i + 1) * (M - 1) ^ (length ls - i - 1) <= number (prints M fs file l) (sequences M (length ls)) * length ls <=
  M ^ (length ls - 1) * (M + i).
Proof.
  intros M fs file ls i l HM Ho Hl Nd B Hi. rewrite (prints_picks M fs file ls i l); auto.
  assert (L : i < length ls) by (eapply nth_error_some_lt; eauto). rewrite number_picks by exact L. set (n := length ls) in *.
  pose proof (fails_upper M (n - i - 1) (1 + i) ltac:(lia)) as U. pose proof (fails_lower M (n - i - 1) (1 + i) ltac:(lia)) as W.
  replace (1 + i + (n - i - 1)) with n in * by lia.
  set (F := number (fails M (1 + i + 1)) (sequences M (n - i - 1))) in *. destruct (c_bounds M (1 + i) ltac:(lia)) as (B1 & B2 & B3).
  set (x := c M (1 + i)) in *. replace (M ^ i * x * F * n) with (M ^ i * (x * (F * n))) by lia.
  split.
  - rewrite Nat.pow_add_r, Nat.pow_1_r. rewrite <- Nat.mul_assoc. apply Nat.mul_le_mono_l.
    apply Nat.le_trans with (x * ((1 + i) * (M - 1) ^ (n - i - 1))); [|now apply Nat.mul_le_mono_l].
    rewrite Nat.mul_assoc. now apply Nat.mul_le_mono_r.
  - replace (M ^ (n - 1)) with (M ^ i * M ^ (n - i - 1)) by (rewrite <- Nat.pow_add_r; f_equal; lia).
    rewrite <- Nat.mul_assoc. apply Nat.mul_le_mono_l.
    apply Nat.le_trans with (x * ((1 + i) * M ^ (n - i - 1))); [now apply Nat.mul_le_mono_l|].
    rewrite Nat.mul_assoc, (Nat.mul_comm (M ^ _)). apply Nat.mul_le_mono_r. lia.
Qed.
Print Assumptions C115_nearly.
Example C115_nearly_case :
  let fs := FSys (fun _ => Some (str "a" ++ "010"%char :: str "b" ++ "010"%char :: str "c")) (fun _ => true) (fun _ => true) in
  number (prints 8 fs 0 (str "a")) (sequences 8 3) = 160 /\ number (prints 8 fs 0 (str "b")) (sequences 8 3) = 160 /\
  number (prints 8 fs 0 (str "c")) (sequences 8 3) = 192 /\ length (sequences 8 3) = 512.
Proof. repeat split; vm_compute; reflexivity. Qed.

(* Refuted: the chance is exactly 1/n, as the description of the program says.  No generator
   with 2^b values chooses among three lines with equal chances. *)
Theorem C115_exact_refuted : forall b fs file l0 l1 l2, can_open fs file = true -> lines_of (contents fs file) [l0; l1; l2] ->
  ~ (forall l, In l [l0; l1; l2] -> number (prints (2 ^ b) fs file l) (sequences (2 ^ b) 3) * 3 = (2 ^ b) ^ 3).
Proof.
  intros b fs file l0 l1 l2 _ _ H. specialize (H l0 (or_introl eq_refl)).
  rewrite <- Nat.pow_mul_r in H. revert H. generalize (number (prints (2 ^ b) fs file l0) (sequences (2 ^ b) 3)) as x. intros x.
  assert (K : forall m, 2 ^ m mod 3 = 1 \/ 2 ^ m mod 3 = 2).
  { induction m as [|m IH]; [now left|]. cbn [Nat.pow]. rewrite Nat.mul_mod by lia. destruct IH as [-> | ->]; [right|left]; reflexivity. }
  intros E. destruct (K (b * 3)) as [Q|Q]; rewrite <- E, Nat.mod_mul in Q by lia; discriminate.
Qed.
Print Assumptions C115_exact_refuted.
Example C115_exact_case :
  let fs := FSys (fun _ => Some (str "a" ++ "010"%char :: str "b" ++ "010"%char :: str "c")) (fun _ => true) (fun _ => true) in
  number (prints 4 fs 0 (str "a")) (sequences 4 3) = 16 /\ number (prints 4 fs 0 (str "c")) (sequences 4 3) = 32.
Proof. split; vm_compute; reflexivity. Qed.

(* For a file that does not open an empty line is printed. *)
Theorem C115_missing_file : forall M ds fs file, can_open fs file = false -> random_line M ds fs file = Ok [].
Proof. intros M ds fs file H. unfold random_line, for_each_line_file, ifstream. rewrite H. reflexivity. Qed.
Print Assumptions C115_missing_file.
Example C115_missing_file_case : random_line 6 [] (FSys (fun _ => None) (fun _ => true) (fun _ => true)) 0 = Ok [].
Proof. reflexivity. Qed.
