(* C128: the Bloom filter example. *)
From Verif Require Import Base Comb_Model Comb_Spec Comb_Spec2 Comb_Proofs Comb_Proofs3 Codec_Spec Bloom_Model Bloom_Spec
  IO_Model BFile_Model BFile_Spec Bdemo_Model Bdemo_Spec Bdemo_Proofs Bdemo_Proofs2.
From Coq Require Import Sorted.
Local Open Scope nat_scope.

(* the lines before the filter is saved *)
Definition report (k : nat) (letters : list ascii) (found : key -> bool) : list line :=
  let C := N.of_nat (length (choices k letters)) in
  [Insert_done (2 * C mod 2 ^ 32); Contain_done (2 * C mod 2 ^ 32);
   Positives (4 * C mod 2 ^ 32) (N.of_nat (length (List.filter found (halves k letters))) mod 2 ^ 32)].

(* For sorted distinct letters and an even k: the buffer is filled exactly, nothing is ever missing,
   the positives counted are the halves the filter contains, and the saved filter is read back equal. *)
Theorem C128_run : forall lt fuel le rnd st letters k min_k min_m fs file,
  (forall a b, lt a b = true -> lt b a = false) -> StronglySorted (fun a b => lt a b = true) letters -> after_calls st ->
  Nat.Even k -> 0 < k <= length letters -> (N.of_nat (length letters) <= 6074000999)%N ->
  (N.of_nat k * (2 * N.of_nat (length (choices k letters))) < 2 ^ 64)%N ->
  (0 < min_m <= 2 ^ 35 - 8)%Z -> length letters < fuel -> 2 * k * length (choices k letters) + 1 < fuel ->
  exists prm f0 f t found,
    compute_optimal_parameters min_k min_m
      (Params 1 (2 ^ 64 - 1) 1 7 (2 * N.of_nat (length (choices k letters))) 2779096485 0 0) = Ok (Some prm) /\
    new_filter fuel rnd prm = Ok f0 /\ run f0 (inserting (keys k letters)) = Ok f /\ bit_table f = Some t /\
    (forall s, contains f s = Ok (found s)) /\
    (f_write fs file = false ->
       main lt fuel le rnd st letters k min_k min_m fs file = Ok (1, report k letters found ++ [Not_written], fs)) /\
    (f_write fs file = true -> exists fs',
       main lt fuel le rnd st letters k min_k min_m fs file =
         Ok (if f_read fs file then 0 else 1, report k letters found ++ [if f_read fs file then Replicated else Not_read], fs') /\
       f_data fs' file = Some (file_image le f (probability le) t) /\
       (forall m, m <> file -> f_data fs' m = f_data fs m)).
Proof. intros lt fuel le rnd st letters k min_k min_m fs file Ha. apply main_ok. exact Ha. Qed.
Print Assumptions C128_run.

Definition below (a b : ascii) : bool := nat_of_ascii a <? nat_of_ascii b.
Definition disk : fsys := FSys (fun _ => None) (fun _ => true) (fun n => n <? 2).
Definition shown (o : outcome (nat * list line * fsys)) : outcome (nat * list line) := ' (r, l, _) <- o ;; Ok (r, l).
Example C128_ex_run :
  let m s k file := shown (main below 300 true (fun _ _ => 0%N) initial_statics (str s) k 2 24 disk file) in
  m "abcd"%string 2 1 = Ok (0, [Insert_done 12; Contain_done 12; Positives 24 12; Replicated]) /\
  m "abcd"%string 4 2 = Ok (1, [Insert_done 2; Contain_done 2; Positives 4 1; Not_written]) /\
  keys 2 (str "abc") = [str "ab"; str "AB"; str "ac"; str "AC"; str "bc"; str "BC"].
Proof. cbv zeta. split; [vm_compute; reflexivity|]. split; [vm_compute; reflexivity|reflexivity]. Qed.

(* The program as it stands: 26 letters, k = 14. *)
Definition alphabet : list ascii := str "abcdefghijklmnopqrstuvwxyz".

Fixpoint next_row (prev : N) (l : list N) : list N :=
  match l with [] => [prev] | x :: l' => (prev + x)%N :: next_row x l' end.
Fixpoint pascal (n : nat) : list N := match n with 0 => [1%N] | S n' => next_row 0 (pascal n') end.
Lemma next_row_nth : forall l p k, nth k (next_row p l) 0%N =
  ((match k with O => p | S k' => nth k' l 0%N end) + nth k l 0%N)%N.
Proof.
  induction l as [|x l IH]; intros p [|k]; cbn [next_row nth].
  - lia.
  - destruct k; cbn [nth]; reflexivity.
  - reflexivity.
  - rewrite IH. destruct k; reflexivity.
Qed.
Lemma pascal_binom : forall n k, nth k (pascal n) 0%N = N.of_nat (binom n k).
Proof.
  induction n as [|n IH]; intros k.
  - destruct k as [|[|k]]; reflexivity.
  - cbn [pascal]. rewrite next_row_nth. destruct k as [|k]; [rewrite IH; destruct n; reflexivity|].
    rewrite !IH. cbn [binom]. lia.
Qed.

Theorem C128_alphabet : forall lt fuel le rnd min_k min_m fs file,
  (forall a b, lt a b = true -> lt b a = false) -> StronglySorted (fun a b => lt a b = true) alphabet ->
  (0 < min_m <= 2 ^ 35 - 8)%Z -> (270415601 < N.of_nat fuel)%N -> f_write fs file = true -> f_read fs file = true ->
  exists x fs', main lt fuel le rnd initial_statics alphabet 14 min_k min_m fs file =
    Ok (0, [Insert_done 19315400; Contain_done 19315400; Positives 38630800 x; Replicated], fs').
Proof.
  intros lt fuel le rnd min_k min_m fs file Ha Hs Hm Hf W R.
  assert (E : N.of_nat (length (choices 14 alphabet)) = 9657700%N).
  { rewrite choices_length. change (length alphabet) with 26. rewrite <- pascal_binom. vm_compute. reflexivity. }
  destruct (C128_run lt fuel le rnd initial_statics alphabet 14 min_k min_m fs file Ha Hs) as (prm & f0 & f & t & found & _ & _ & _ & _ & _ & _ & H).
  - constructor.
  - exists 7. reflexivity.
  - change (length alphabet) with 26. lia.
  - change (length alphabet) with 26. lia.
  - rewrite E. reflexivity.
  - exact Hm.
  - change (length alphabet) with 26. lia.
  - lia.
  - destruct (H W) as (fs' & Hmain & _). rewrite R in Hmain. unfold report in Hmain. rewrite E in Hmain.
    eexists. exists fs'. rewrite Hmain. reflexivity.
Qed.
Print Assumptions C128_alphabet.

Example C128_ex_alphabet : (forall a b, below a b = true -> below b a = false) /\
  StronglySorted (fun a b => below a b = true) alphabet /\ length alphabet = 26.
Proof.
  split; [intros a b; unfold below; rewrite Nat.ltb_lt, Nat.ltb_ge; lia|]. split; [|reflexivity].
  unfold alphabet. cbn [str]. repeat (constructor; [|repeat (constructor; [reflexivity|]); constructor]). constructor.
Qed.

(* With an odd k the halves do not cover the buffer: the last one is read beyond it. *)
Theorem C128_odd_refuted : forall le, main below 300 le (fun _ _ => 0%N) initial_statics (str "abcdefg") 7 2 24 disk 1 = UB.
Proof. intros le. vm_compute. reflexivity. Qed.
Print Assumptions C128_odd_refuted.

(* Unsorted or repeated letters have fewer combinations than n_choose_k counts; the rest of the buffer
   has no value. *)
Theorem C128_letters_refuted : forall le,
  main below 300 le (fun _ _ => 0%N) initial_statics (str "cab") 2 2 24 disk 1 = UB /\
  main below 300 le (fun _ _ => 0%N) initial_statics (str "aab") 2 2 24 disk 1 = UB.
Proof. intros le. split; vm_compute; reflexivity. Qed.
Print Assumptions C128_letters_refuted.

(* the stored probability is the double nearest to 0.0001: a significand of 53 bits, 1009 as biased exponent,
   and no other significand is as near *)
Theorem C128_probability : forall le, exists m : Z, (2 ^ 52 <= m < 2 ^ 53)%Z /\
  probability le = Binary_Model.store le 8 (Z.to_N (1009 * 2 ^ 52 + (m - 2 ^ 52))) /\
  forall k : Z, (k <> m -> Z.abs (10000 * m - 2 ^ (1075 - 1009)) < Z.abs (10000 * k - 2 ^ (1075 - 1009)))%Z.
Proof.
  intros le. exists 7378697629483821%Z. split; [lia|]. split; [reflexivity|]. intros k H.
  change (2 ^ (1075 - 1009))%Z with 73786976294838206464%Z. lia.
Qed.
Print Assumptions C128_probability.

Example C128_probability_example : probability false = map ascii_of_nat [63; 26; 54; 226; 235; 28; 67; 45] /\ probability true = rev (probability false).
Proof. split; reflexivity. Qed.
