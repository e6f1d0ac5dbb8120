(* C120: how accurate the reported seconds are *)
From Verif Require Import Base Real_Spec Real_Spec2 Timer_Model Timer_Spec Timer_Proofs Timer_Props Real_Proofs6 Numstats_Proofs2.
From Coq Require Import ZArith QArith Qabs SpecFloat Lia Lqa.
Local Open Scope Q_scope.

(* any time measured, in seconds: off by not more than 2^-51 of it *)
Theorem C120_accuracy : forall (t : timer) (a b : Z * Z), clock a -> clock b ->
  (instant a <= instant b)%Z -> (instant b - instant a <= 2 ^ 63 - 1000000)%Z ->
  exists x q, time (stop (start t a) b) = Ok x /\ scoped_timer a b = Ok x /\ value x = Some q /\
    let s := inject_Z (instant b - instant a) / inject_Z 1000000 in Qabs (q - s) <= (1 # 2 ^ 51) * s.
Proof.
  intros t a b Ha Hb H1 H2. unfold scoped_timer, time. rewrite !C120_elapsed by auto. cbn [bind].
  assert (H0 : (0 <= instant b - instant a)%Z) by lia. set (u := (instant b - instant a)%Z) in *. clearbody u. clear H1. eexists.
  assert (A : approx 3 (inject_Z u / inject_Z 1000000) (SFmul 53 1024 (b64 u 0) millionth)).
  { assert (M : approx 1 (/ inject_Z 1000000) millionth).
    { eapply approx_eq; [|apply (approx_div 0 0 (inject_Z 1) (inject_Z 1000000)); [apply approx_small; lia|reflexivity|apply approx_small; lia| |lia]].
      - reflexivity.
      - intros _. split; apply Qle_bool_iff; vm_compute; reflexivity. }
    destruct (Z.eq_dec u 0) as [->|Hu]; [left; split; reflexivity|].
    apply (approx_mul 1 1); [|exact M| |lia].
    - apply approx_int; [lia|]. eapply Qle_trans; [apply Real_Proofs5.inj_le; apply (Z.le_trans _ (2 ^ 63)); [lia|apply Z.le_refl]|]. apply Qle_bool_iff. vm_compute. reflexivity.
    - intros _. assert (1 <= inject_Z u) by (apply (Real_Proofs5.inj_le 1); lia).
      assert (inject_Z u <= inject_Z (2 ^ 63)) by (apply Real_Proofs5.inj_le; lia). split.
      + apply (Qle_trans _ (1 * / inject_Z 1000000)); [apply Qle_bool_iff; vm_compute; reflexivity|]. apply Qmult_le_compat_r; [auto|]. apply Qle_bool_iff. reflexivity.
      + apply (Qle_trans _ (inject_Z (2 ^ 63) * / inject_Z 1000000)); [apply Qmult_le_compat_r; [auto|]; apply Qle_bool_iff; reflexivity|]. apply Qle_bool_iff. vm_compute. reflexivity. }
  apply approx_within in A. destruct A as (q & V & W). exists q. split; [reflexivity|]. split; [reflexivity|]. split; [exact V|]. cbv zeta.
  assert (S0 : 0 <= inject_Z u / inject_Z 1000000) by (apply Qmult_le_0_compat; [apply (Real_Proofs5.inj_le 0); lia|apply Qle_bool_iff; reflexivity]).
  rewrite <- (Qabs_pos _ S0) at 2. apply (within_error 3); [apply rho_3|exact W].
Qed.
Print Assumptions C120_accuracy.

(* five microseconds (which are not reported as the nearest double) and 200 years *)
Example C120_accuracy_example : exists q r, value (S754_finite false 5902958103587056 (-70)) = Some q /\ (Qabs (q - (5 # 1000000)) <= (1 # 2 ^ 51) * (5 # 1000000))%Q /\
  scoped_timer (0, 0)%Z (0, 5)%Z = Ok (S754_finite false 5902958103587056 (-70)) /\
  scoped_timer (0, 0)%Z (6311433600, 1)%Z = Ok (S754_finite false 6618017798553601 (-20)) /\ value (S754_finite false 6618017798553601 (-20)) = Some r /\
  ~ r == (6311433600000001 # 1000000).
Proof.
  eexists. eexists. split; [cbn [value]; reflexivity|]. split; [apply Qle_bool_iff; vm_compute; reflexivity|].
  split; [vm_compute; reflexivity|]. split; [vm_compute; reflexivity|]. split; [cbn [value]; reflexivity|]. vm_compute. discriminate.
Qed.
