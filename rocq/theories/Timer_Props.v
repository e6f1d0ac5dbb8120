(* C120: measuring time. *)
From Verif Require Import Base Real_Spec Timer_Model Timer_Spec Timer_Proofs.
From Coq Require Import ZArith Lia Floats.SpecFloat.
Local Open Scope Z_scope.

(* The microseconds between a start and the following stop, across the seconds, whatever was
   measured before. *)
Theorem C120_elapsed : forall (t : timer) (a b : Z * Z), clock a -> clock b ->
  instant a <= instant b -> instant b - instant a <= 2 ^ 63 - 1000000 ->
  usec_time (stop (start t a) b) = Ok (instant b - instant a).
Proof. intros t a b Ha Hb H1 H2. exact (measured (stop (start t a) b) eq_refl Ha Hb ltac:(cbn; lia)). Qed.
Print Assumptions C120_elapsed.
Example C120_elapsed_case : usec_time (stop (start new_timer (1700000000, 999999)) (1700000001, 2)) = Ok 3.
Proof. reflexivity. Qed.

(* Any calls of start and stop on one object: it is in use exactly if the last call was a start;
   the time is the maximum while it is in use, otherwise what the last start and the last stop
   are apart (the epoch for a call that was never made). *)
Theorem C120_history : forall (h : list call),
  let t := fold_left (fun t c => match c with Start now => start t now | Stop now => stop t now end) h new_timer in
  in_use t = running h /\
  (running h = true -> usec_time t = Ok (2 ^ 64 - 1)) /\
  (running h = false -> clock (last_start h) -> clock (last_stop h) ->
   (instant (last_start h) <= instant (last_stop h) <= instant (last_start h) + 2 ^ 63 - 1000000 ->
    usec_time t = Ok (instant (last_stop h) - instant (last_start h))) /\
   (fst (last_stop h) < fst (last_start h) -> usec_time t = Ok (2 ^ 64 - 1))).
Proof.
  intros h. cbn zeta. change (fold_left _ h new_timer) with (run h). unfold in_use. rewrite run_use. split; [reflexivity|]. split.
  - intros H. unfold usec_time. rewrite run_use, H. reflexivity.
  - intros H Ha Hb. split.
    + intros B. rewrite <- run_start, <- run_stop in *. apply measured; auto; [now rewrite run_use|lia].
    + intros B. unfold usec_time. rewrite run_use, run_start, run_stop, H. cbn [negb]. destruct (Z.leb_spec (fst (last_start h)) (fst (last_stop h))); [lia|]. reflexivity.
Qed.
Print Assumptions C120_history.
Example C120_history_case :
  let h := [Start (5, 0); Stop (9, 0); Start (20, 700000); Start (30, 500000); Stop (32, 250000)] in
  running h = false /\ last_start h = (30, 500000) /\ last_stop h = (32, 250000) /\
  usec_time (run h) = Ok 1750000 /\ usec_time (run (h ++ [Start (40, 0)])) = Ok 18446744073709551615 /\ usec_time (run []) = Ok 0.
Proof. repeat split. Qed.

(* A whole number of seconds is reported by time, and by a scoped timer, as exactly this number:
   although 0.000001 is not a double, the product is rounded to the right one. *)
Theorem C120_seconds : forall (t : timer) (a b : Z * Z) (n : Z), clock a -> clock b -> 0 <= n -> 1000000 * n < 2 ^ 53 ->
  instant b = instant a + 1000000 * n ->
  time (stop (start t a) b) = Ok (b64 n 0) /\ scoped_timer a b = Ok (b64 n 0).
Proof.
  intros t a b n Ha Hb H0 H E. unfold scoped_timer, time.
  rewrite !C120_elapsed by (auto; lia). cbn [bind]. replace (instant b - instant a) with (1000000 * n) by lia.
  rewrite seconds_exact by auto. split; reflexivity.
Qed.
Print Assumptions C120_seconds.
Example C120_seconds_case : scoped_timer (10, 900000) (13, 900000) = Ok (b64 3 0) /\
  b64 3 0 = S754_finite false 6755399441055744 (-51) /\ scoped_timer (10, 900000) (14, 0) <> Ok (b64 3 0).
Proof. repeat split. intros H. discriminate. Qed.

(* Other numbers of microseconds are not always reported by time as the nearest double. *)
Theorem C120_nearest_refuted : ~ (forall a b, clock a -> clock b -> instant a <= instant b -> instant b - instant a < 2 ^ 53 ->
  time (stop (start new_timer a) b) = Ok (SFdiv 53 1024 (b64 (instant b - instant a) 0) (b64 1000000 0))).
Proof.
  intros H. specialize (H (0, 0) (0, 5)). unfold clock, instant in H. cbn [fst snd] in H.
  specialize (H ltac:(lia) ltac:(lia) ltac:(lia) ltac:(lia)). vm_compute in H. discriminate.
Qed.
Print Assumptions C120_nearest_refuted.
Example C120_nearest_refuted_case : time (stop (start new_timer (0, 0)) (0, 5)) = Ok (S754_finite false 5902958103587056 (-70)) /\
  SFdiv 53 1024 (b64 5 0) (b64 1000000 0) = S754_finite false 5902958103587057 (-70).
Proof. repeat split; vm_compute; reflexivity. Qed.

(* A clock set back within one second is not noticed: the difference is negative and the result
   is a huge number that is not the maximum. *)
Theorem C120_set_back_refuted : forall (t : timer) (a b : Z * Z), clock a -> clock b -> fst a = fst b -> snd b < snd a ->
  usec_time (stop (start t a) b) = Ok (2 ^ 64 - (snd a - snd b)).
Proof.
  intros t a b [A1 A2] [B1 B2] E H. unfold usec_time. cbn [start stop in_use_ start_time_ stop_time_ negb].
  rewrite (proj2 (Z.leb_le _ _)) by lia. rewrite long_ok by lia. cbn [bind]. rewrite long_ok by lia. cbn [bind]. rewrite long_ok by lia. cbn [bind].
  rewrite long_ok by lia. cbn [bind]. f_equal. symmetry. apply (Z.mod_unique_pos _ _ (-1)); lia.
Qed.
Print Assumptions C120_set_back_refuted.
Example C120_set_back_refuted_case : usec_time (stop (start new_timer (7, 500)) (7, 498)) = Ok 18446744073709551614.
Proof. reflexivity. Qed.

(* More seconds than a signed 64-bit number of microseconds holds: undefined. *)
Theorem C120_overflow_refuted : forall (t : timer) (a b : Z * Z), fst b - fst a > 9223372036854 ->
  usec_time (stop (start t a) b) = UB.
Proof.
  intros t a b H. unfold usec_time. cbn [start stop in_use_ start_time_ stop_time_ negb].
  rewrite (proj2 (Z.leb_le _ _)) by lia. destruct (Z_lt_le_dec (fst b - fst a) (2 ^ 63)).
  - rewrite long_ok by lia. cbn [bind]. rewrite long_ub by lia. reflexivity.
  - rewrite long_ub by lia. reflexivity.
Qed.
Print Assumptions C120_overflow_refuted.
Example C120_overflow_refuted_case : usec_time (stop (start new_timer (0, 0)) (9223372036854, 0)) = Ok 9223372036854000000 /\
  usec_time (stop (start new_timer (0, 0)) (9223372036855, 0)) = UB.
Proof. split; reflexivity. Qed.
