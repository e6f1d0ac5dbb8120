(* C119: how accurate sum and mean are *)
From Verif Require Import Base Real_Spec Real_Spec2 Numstats_Spec Numstats_Spec2 Real_Proofs6 Numstats_Proofs2.
From Coq Require Import ZArith QArith Qabs SpecFloat Lia Lqa.
Local Open Scope Q_scope.

(* the sum of n numbers that are not negative is off by at most n - 1 roundings *)
Theorem C119_sum_accuracy : forall vs qs, holds_numbers vs qs -> sum_of qs <= Qpower (inject_Z 10) 307 -> (Z.of_nat (length vs) <= 2 ^ 52)%Z ->
  exists q, value (total vs) = Some q /\ within (length vs - 1) (sum_of qs) q.
Proof. intros. apply approx_within. now apply total_approx. Qed.
Print Assumptions C119_sum_accuracy.

(* 0.1 + 0.2 + 0.3 *)
Definition tenths : list spec_float := [S754_finite false 7205759403792794 (-56); S754_finite false 7205759403792794 (-55); S754_finite false 5404319552844595 (-54)].
Definition tenths_q : list Q := [magnitude 7205759403792794 (-56); magnitude 7205759403792794 (-55); magnitude 5404319552844595 (-54)].
Lemma tenths_hold : holds_numbers tenths tenths_q.
Proof. repeat (constructor; [split; [vm_compute; reflexivity|]; split; [reflexivity|]; right; apply Qle_bool_iff; vm_compute; reflexivity|]). constructor. Qed.

Example C119_sum_accuracy_example : holds_numbers tenths tenths_q /\ total tenths = S754_finite false 5404319552844596 (-53) /\
  ~ magnitude 5404319552844596 (-53) == sum_of tenths_q.
Proof. split; [apply tenths_hold|]. split; [vm_compute; reflexivity|]. vm_compute. discriminate. Qed.

(* the mean by at most n *)
Theorem C119_mean_accuracy : forall vs qs, holds_numbers vs qs -> vs <> [] -> sum_of qs <= Qpower (inject_Z 10) 307 -> (Z.of_nat (length vs) <= 2 ^ 50)%Z ->
  exists q, value (mean vs) = Some q /\ within (length vs) (sum_of qs / inject_Z (Z.of_nat (length vs))) q.
Proof. intros. apply approx_within. now apply mean_approx. Qed.
Print Assumptions C119_mean_accuracy.

Example C119_mean_accuracy_example : mean tenths = S754_finite false 7205759403792795 (-55) /\
  within 3 (sum_of tenths_q / 3) (magnitude 7205759403792795 (-55)).
Proof.
  split; [vm_compute; reflexivity|]. exists (magnitude 7205759403792795 (-55) / (sum_of tenths_q / 3)).
  split; [|vm_compute; reflexivity]. split; apply Qle_bool_iff; vm_compute; reflexivity.
Qed.

(* in figures: by not more than n / 2^52 of it *)
Theorem C119_mean_error : forall vs qs, holds_numbers vs qs -> vs <> [] -> sum_of qs <= Qpower (inject_Z 10) 307 -> (Z.of_nat (length vs) <= 2 ^ 50)%Z ->
  exists q, value (mean vs) = Some q /\
    let m := sum_of qs / inject_Z (Z.of_nat (length vs)) in Qabs (q - m) <= inject_Z (Z.of_nat (length vs)) / inject_Z (2 ^ 52) * m.
Proof.
  intros vs qs H Hn Hs Hk. destruct (C119_mean_accuracy vs qs H Hn Hs Hk) as (q & V & W). exists q. split; [exact V|]. cbv zeta.
  assert (H1 : (1 <= length vs)%nat) by (destruct vs; [congruence|cbn; lia]).
  assert (Hy : 0 < inject_Z (Z.of_nat (length vs))) by (apply (Real_Proofs5.inj_lt 0); lia).
  pose proof (sum_nonneg vs qs H) as S0.
  assert (M0 : 0 <= sum_of qs / inject_Z (Z.of_nat (length vs))) by (apply Qmult_le_0_compat; [exact S0|]; apply Qlt_le_weak, Qinv_lt_0_compat, Hy).
  rewrite <- (Qabs_pos _ M0) at 2. eapply within_error; [|exact W].
  pose proof (rho_bernoulli (length vs) ltac:(lia)) as B. pose proof (rho_2 (length vs) ltac:(lia)) as R. set (n := inject_Z (Z.of_nat (length vs))) in *.
  change (inject_Z (2 ^ 52)) with (4503599627370496 # 1). assert (E : n / (4503599627370496 # 1) == (1 # 4503599627370496) * n) by (unfold Qdiv; apply Qmult_comm).
  rewrite E. nra.
Qed.
Print Assumptions C119_mean_error.

Example C119_mean_error_example : exists q, value (mean tenths) = Some q /\ Qabs (q - sum_of tenths_q / 3) <= 3 / inject_Z (2 ^ 52) * (sum_of tenths_q / 3).
Proof. eexists. split; [vm_compute; reflexivity|]. apply Qle_bool_iff. vm_compute. reflexivity. Qed.

(* with negative numbers everything may be lost: 1 + 2^53 - 2^53 is 0 *)
Theorem C119_cancel_refuted : total [b64 1 0; b64 (2 ^ 53) 0; b64 (- 2 ^ 53) 0] = S754_zero false.
Proof. vm_compute. reflexivity. Qed.
Print Assumptions C119_cancel_refuted.

Example C119_cancel_refuted_example : value (b64 (- 2 ^ 53) 0) = Some (- magnitude (2 ^ 52) 1) /\ 1 + magnitude (2 ^ 52) 1 + - magnitude (2 ^ 52) 1 == 1.
Proof. split; vm_compute; reflexivity. Qed.
