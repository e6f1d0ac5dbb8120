From Coq Require Import List Arith NArith ZArith Ascii Bool Lia.
From Verif Require Import Base Binary_Model Binary_Spec Endian_Proofs Mem_Model Mem_Spec Cont_Model Cont_Spec Gen_Model Gen_Spec.
Import ListNotations.
Local Open Scope nat_scope.

(* ---- iota ---- *)
Lemma counted_0 ty v : (lo ty <= v <= hi ty)%Z -> counted ty v 0 = v.
Proof. intros H. unfold counted. rewrite Z.add_0_r, Z.mod_small; lia. Qed.
Lemma counted_step ty v i : (lo ty <= v <= hi ty)%Z -> counted ty v (S i) = counted ty (if (v =? hi ty)%Z then lo ty else v + 1)%Z i.
Proof.
  intros H. unfold counted. f_equal. destruct (Z.eqb_spec v (hi ty)) as [->|N].
  - replace (hi ty - lo ty + Z.of_nat (S i))%Z with (lo ty - lo ty + Z.of_nat i + 1 * (hi ty - lo ty + 1))%Z by lia.
    apply Z.mod_add. lia.
  - f_equal. lia.
Qed.
Lemma countable_step ty v n : countable ty v (S n) ->
  exists v', post_inc ty v = Ok v' /\ countable ty v' n /\ (forall i, counted ty v (S i) = counted ty v' i).
Proof.
  intros [R C]. exists (if (v =? hi ty)%Z then lo ty else v + 1)%Z. split; [|split].
  - unfold post_inc. destruct (Z.eqb_spec v (hi ty)); [|reflexivity]. destruct C as [->|C]; [reflexivity|lia].
  - destruct (Z.eqb_spec v (hi ty)); split; lia.
  - intros i. apply counted_step. exact R.
Qed.

Lemma iota_vals_S ty v v' n : (lo ty <= v <= hi ty)%Z -> (forall i, counted ty v (S i) = counted ty v' i) ->
  iota_vals ty v (S n) = v :: iota_vals ty v' n.
Proof.
  intros R H. unfold iota_vals. cbn [seq map]. rewrite counted_0 by exact R. f_equal.
  rewrite <- seq_shift, map_map. apply map_ext. exact H.
Qed.

Lemma iota_loop ty end_ : forall n fuel pre mid post v, length mid = n -> n < fuel -> countable ty v n -> end_ = length pre + n ->
  loop fuel (fun '(s, itr, value) =>
          if end_ =? itr then Ok (inr s)
          else s' <- wr s itr value ;; value' <- post_inc ty value ;; Ok (inl (s', S itr, value')))
       (pre ++ mid ++ post, length pre, v) = Ok (pre ++ iota_vals ty v n ++ post).
Proof.
  induction n as [|n IH]; intros fuel pre mid post v L F C E; (destruct fuel as [|fuel]; [lia|]); cbn [loop].
  - destruct mid; [|discriminate]. rewrite E, Nat.add_0_r, Nat.eqb_refl. reflexivity.
  - destruct mid as [|x mid]; [discriminate|]. destruct (Nat.eqb_spec end_ (length pre)); [lia|].
    cbn [app]. rewrite wr_here. cbn [bind]. destruct (countable_step ty v n C) as [v' [P [C' Hc]]]. rewrite P. cbn [bind].
    specialize (IH fuel (pre ++ [v]) mid post v'). rewrite app_length in IH. cbn [length] in IH, L.
    replace (length pre + 1) with (S (length pre)) in IH by lia. rewrite <- !app_assoc in IH. cbn [app] in IH.
    rewrite IH; [|lia|lia|exact C'|lia]. rewrite (iota_vals_S ty v v' n) by (apply C || exact Hc). reflexivity.
Qed.

Lemma iota_range_ok ty s a b v : a <= b <= length s -> countable ty v (b - a) ->
  iota_range ty s (a, b) v = Ok (overwritten s a (iota_vals ty v (b - a))).
Proof.
  intros L C. unfold iota_range.
  assert (E : s = firstn a s ++ sub s (a, b) ++ skipn b s).
  { rewrite <- (firstn_skipn a s) at 1. f_equal. rewrite <- (firstn_skipn (b - a) (skipn a s)) at 1. unfold sub. cbn [fst snd]. f_equal.
    rewrite skipn_skipn. f_equal. lia. }
  pose proof (iota_loop ty b (b - a) (S (length s)) (firstn a s) (sub s (a, b)) (skipn b s) v) as H.
  rewrite sub_length, firstn_length, Nat.min_l, <- E in H by lia. rewrite H by (lia || exact C || reflexivity).
  unfold overwritten, iota_vals. rewrite map_length, seq_length. replace (a + (b - a)) with b by lia. reflexivity.
Qed.

Lemma iota_count_ok {C} ty (put : C -> Z -> C) : forall n c v, countable ty v n ->
  iota_count ty put c n v = Ok (fold_left put (iota_vals ty v n) c).
Proof.
  induction n as [|n IH]; intros c v H; cbn [iota_count]; [reflexivity|].
  destruct (countable_step ty v n H) as [v' [P [H' Hc]]]. rewrite P. cbn [bind]. rewrite IH by exact H'.
  rewrite (iota_vals_S ty v v' n) by (apply H || exact Hc). reflexivity.
Qed.
Lemma iota_count_ub {C} ty (put : C -> Z -> C) : overflows ty = true -> forall n c v,
  (v <= hi ty)%Z -> (hi ty < v + Z.of_nat n)%Z -> iota_count ty put c n v = UB.
Proof.
  intros O. induction n as [|n IH]; intros c v H1 H2; [lia|]. cbn [iota_count]. unfold post_inc.
  destruct (Z.eqb_spec v (hi ty)) as [E|E]; [rewrite O; reflexivity|]. cbn [bind]. apply IH; lia.
Qed.
Lemma iota_range_ub ty end_ : overflows ty = true -> forall n fuel s a v, (v <= hi ty)%Z -> (hi ty < v + Z.of_nat n)%Z ->
  n < fuel -> end_ = a + n -> end_ <= length s ->
  loop fuel (fun '(s, itr, value) =>
          if end_ =? itr then Ok (inr s)
          else s' <- wr s itr value ;; value' <- post_inc ty value ;; Ok (inl (s', S itr, value')))
       (s, a, v) = UB.
Proof.
  intros O. induction n as [|n IH]; intros fuel s a v H1 H2 F E L; [lia|]. destruct fuel as [|fuel]; [lia|]. cbn [loop].
  destruct (Nat.eqb_spec end_ a); [lia|]. rewrite wr_ok by lia. cbn [bind]. unfold post_inc.
  destruct (Z.eqb_spec v (hi ty)) as [Ev|Ev]; [rewrite O; reflexivity|]. cbn [bind]. apply IH; try lia. rewrite upd_length. lia.
Qed.

(* ---- min_of_cont, max_of_cont ---- *)
Section MM.
Context {T : Type}.
Variable lt : T -> T -> bool.
Hypothesis Hlt : strict_weak lt.

Definition least_upto (s : list T) (n k : nat) : Prop :=
  exists x, nth_error s k = Some x /\ k < n /\ (forall j y, j < n -> nth_error s j = Some y -> lt y x = false) /\
            (forall j y, j < k -> nth_error s j = Some y -> lt x y = true).
Lemma least_step s i k : least_upto s i k -> i < length s ->
  holds (x <- rd s i ;; y <- rd s k ;; Ok (if lt x y then i else k)) (least_upto s (S i)).
Proof.
  destruct Hlt as (H1 & H2 & H3). intros (y & Ky & Kn & A & B) L. destruct (rd_ok s i L) as [x [E1 E2]]. rewrite E1, (rd_nth _ _ _ Ky). cbn [bind holds].
  destruct (lt x y) eqn:D.
  - exists x. repeat split; [exact E2|lia| |].
    + intros j z Hj Hz. destruct (Nat.eq_dec j i) as [->|Nj]; [assert (z = x) as -> by congruence; apply H1|].
      destruct (lt z x) eqn:Q; [|reflexivity]. pose proof (H2 _ _ _ Q D) as H. rewrite (A j z) in H; [discriminate|lia|exact Hz].
    + intros j z Hj Hz. destruct (lt x z) eqn:Q; [reflexivity|]. rewrite (H3 x z y Q (A j z Hj Hz)) in D. discriminate.
  - exists y. repeat split; [exact Ky|lia| |exact B]. intros j z Hj Hz.
    destruct (Nat.eq_dec j i) as [->|Nj]; [assert (z = x) as -> by congruence; exact D|]. apply (A j z); [lia|exact Hz].
Qed.
Lemma min_of_cont_ok s : s <> [] -> exists x k, min_of_cont lt s = Ok x /\ first_least lt s k x.
Proof.
  intros N. unfold min_of_cont, min_element. destruct s as [|s0 s]; [congruence|]. set (l := s0 :: s) in *.
  change (length l =? 0) with false. cbv iota.
  assert (H : holds (for_up 1 (length l - 1) (fun i smallest => x <- rd l i ;; y <- rd l smallest ;; Ok (if lt x y then i else smallest)) 0)
                    (least_upto l (1 + (length l - 1)))).
  { apply (for_up_rule (fun i k => least_upto l i k)).
    - intros k j Hk I. apply least_step; [exact I|]. unfold l in *. cbn [length] in *. lia.
    - exists s0. repeat split; [lia| |lia]. intros j y Hj Hy. assert (j = 0) as -> by lia. injection Hy as <-. apply Hlt. }
  apply holds_ex in H. destruct H as (k & E & x & Kx & Kn & A & B). rewrite E. cbn [bind]. exists x, k. rewrite (rd_nth _ _ _ Kx).
  split; [reflexivity|]. split; [exact Kx|]. split; [|exact B]. intros y Hy. apply In_nth_error in Hy. destruct Hy as [j Hj].
  apply (A j y); [|exact Hj]. apply nth_error_some_lt in Hj. lia.
Qed.
End MM.
Lemma flip_weak {T} (lt : T -> T -> bool) : strict_weak lt -> strict_weak (fun x y => lt y x).
Proof. intros (H1 & H2 & H3). repeat split; eauto. Qed.
Lemma max_is_min {T} (lt : T -> T -> bool) s : max_of_cont lt s = min_of_cont (fun x y => lt y x) s.
Proof. reflexivity. Qed.

(* ---- random data ---- *)
Lemma store4_ok strict le pre mid post ad v : (strict = true -> ((ad + N.of_nat (length pre)) mod 4 = 0)%N) -> length mid = 4 ->
  store4 strict le (Block ad (pre ++ mid ++ post)) (Z.of_nat (length pre)) v = Ok (Block ad (pre ++ host_bytes le 4 v ++ post)).
Proof.
  intros A L. unfold store4. destruct (Z.ltb_spec (Z.of_nat (length pre)) 0); [lia|]. cbn [addr bytes].
  replace (Z.to_N (Z.of_nat (length pre))) with (N.of_nat (length pre)) by lia.
  replace (strict && negb ((ad + N.of_nat (length pre)) mod 4 =? 0)%N) with false.
  2: { destruct strict; [|reflexivity]. rewrite (A eq_refl). reflexivity. }
  destruct (Z.ltb_spec (Z.of_nat (length (pre ++ mid ++ post))) (Z.of_nat (length pre) + 4)) as [X|X].
  { rewrite !app_length in X. lia. }
  cbv zeta. rewrite Nat2Z.id, firstn_app_len, store_host. f_equal. f_equal. f_equal. f_equal.
  rewrite app_assoc, <- L, <- app_length. apply skipn_app_len.
Qed.
Lemma four_split (mid : list ascii) : 4 <= length mid -> exists w r, mid = w ++ r /\ length w = 4 /\ length r = length mid - 4.
Proof. intros L. exists (firstn 4 mid), (skipn 4 mid). rewrite firstn_skipn, firstn_length, skipn_length. repeat split; lia. Qed.
Lemma words_S enc rnd k q : words enc rnd k (S q) = enc (rnd k) ++ words enc rnd (S k) q.
Proof. reflexivity. Qed.
Lemma words_length le rnd k q : length (words (host_bytes le 4) rnd k q) = 4 * q.
Proof. revert k. induction q as [|q IH]; intros k; [reflexivity|]. rewrite words_S, app_length, host_bytes_length, IH. lia. Qed.

Definition data_step (strict le : bool) (rnd : nat -> N) := fun '(b, k, itr, len) =>
  if 4 <=? len then
    b' <- store4 strict le b itr (rnd k) ;;
    Ok (inl (b', S k, (itr + 4)%Z, len - 4))
  else Ok (inr (b, k, itr, len) : (block * nat * Z * nat) + (block * nat * Z * nat)).
Lemma data_loop strict le rnd ad : forall q r fuel pre mid post k, r < 4 -> length mid = 4 * q + r -> q < fuel ->
  (strict = true -> ((ad + N.of_nat (length pre)) mod 4 = 0)%N) ->
  loop fuel (data_step strict le rnd) (Block ad (pre ++ mid ++ post), k, Z.of_nat (length pre), 4 * q + r)
  = Ok (Block ad (pre ++ words (host_bytes le 4) rnd k q ++ skipn (4 * q) mid ++ post), k + q, Z.of_nat (length pre + 4 * q), r).
Proof.
  induction q as [|q IH]; intros r fuel pre mid post k R L F A; (destruct fuel as [|fuel]; [lia|]); cbn [loop]; unfold data_step at 1.
  - destruct (Nat.leb_spec 4 (4 * 0 + r)); [lia|]. rewrite !Nat.mul_0_r, !Nat.add_0_r, skipn_O. reflexivity.
  - destruct (Nat.leb_spec 4 (4 * S q + r)); [|lia]. destruct (four_split mid) as (w & m & -> & Lw & Lm); [lia|].
    rewrite <- (app_assoc w m post). rewrite store4_ok by assumption. cbn [bind].
    specialize (IH r fuel (pre ++ host_bytes le 4 (rnd k)) m post (S k)). rewrite !app_length, host_bytes_length in *.
    replace (4 * S q + r - 4) with (4 * q + r) by lia. replace (Z.of_nat (length pre) + 4)%Z with (Z.of_nat (length pre + 4)) by lia.
    rewrite <- !app_assoc in IH. fold (data_step strict le rnd). rewrite IH; [|lia|lia|lia|].
    + rewrite words_S, <- app_assoc. replace (4 * S q) with (4 * q + length w) by lia. rewrite <- (skipn_skipn (w ++ m)), skipn_app_len.
      replace (S k + q) with (k + S q) by lia. replace (length pre + 4 + 4 * q) with (length pre + (4 * q + length w)) by lia. reflexivity.
    + intros St. specialize (A St). replace (ad + N.of_nat (length pre + 4))%N with (ad + N.of_nat (length pre) + 1 * 4)%N by lia.
      rewrite N.mod_add by discriminate. exact A.
Qed.

Lemma generate_loop strict le rnd ad q r pre mid post pg : r < 4 -> length mid = 4 * q + r ->
  (strict = true -> ((ad + N.of_nat (length pre)) mod 4 = 0)%N) ->
  generate_random_data strict le rnd (Block ad (pre ++ mid ++ post)) (length pre) (4 * q + r) pg =
  (let b := Block ad (pre ++ words (host_bytes le 4) rnd pg q ++ skipn (4 * q) mid ++ post) in
   if 0 <? r then store4 strict le b (Z.of_nat (length pre + 4 * q) - (4 - Z.of_nat r))%Z (rnd (pg + q)) else Ok b).
Proof.
  intros R L A. unfold generate_random_data. fold (data_step strict le rnd).
  rewrite (data_loop strict le rnd ad q r) by (lia || assumption). reflexivity.
Qed.

Lemma generate_whole strict le rnd ad q pre mid post pg : length mid = 4 * q ->
  (strict = true -> ((ad + N.of_nat (length pre)) mod 4 = 0)%N) ->
  generate_random_data strict le rnd (Block ad (pre ++ mid ++ post)) (length pre) (4 * q) pg =
  Ok (Block ad (pre ++ words (host_bytes le 4) rnd pg q ++ post)).
Proof.
  intros L A. pose proof (generate_loop strict le rnd ad q 0 pre mid post pg) as H. rewrite Nat.add_0_r in H.
  rewrite H by (lia || assumption). cbn [Nat.ltb Nat.leb]. cbv zeta. rewrite skipn_all2 by lia. reflexivity.
Qed.

Lemma generate_tail le rnd ad q r pre mid post pg : 0 < r < 4 -> 0 < q -> length mid = 4 * q + r ->
  generate_random_data false le rnd (Block ad (pre ++ mid ++ post)) (length pre) (4 * q + r) pg =
  Ok (Block ad (pre ++ firstn (4 * q + r - 4) (words (host_bytes le 4) rnd pg q) ++ host_bytes le 4 (rnd (pg + q)) ++ post)).
Proof.
  intros R Q L. rewrite generate_loop by (lia || discriminate). cbv zeta. destruct (Nat.ltb_spec 0 r); [|lia].
  set (W := words (host_bytes le 4) rnd pg q). assert (LW : length W = 4 * q) by apply words_length.
  rewrite <- (firstn_skipn (4 * q + r - 4) W) at 1.
  replace (pre ++ (firstn (4 * q + r - 4) W ++ skipn (4 * q + r - 4) W) ++ skipn (4 * q) mid ++ post)
    with ((pre ++ firstn (4 * q + r - 4) W) ++ (skipn (4 * q + r - 4) W ++ skipn (4 * q) mid) ++ post)
    by (rewrite <- !app_assoc; reflexivity).
  replace (Z.of_nat (length pre + 4 * q) - (4 - Z.of_nat r))%Z with (Z.of_nat (length (pre ++ firstn (4 * q + r - 4) W)))
    by (rewrite app_length, firstn_length; lia).
  rewrite store4_ok; [|discriminate|rewrite app_length, !skipn_length; lia]. rewrite <- app_assoc. reflexivity.
Qed.

Lemma generate_short_ub strict le rnd ad r pre mid post pg : 0 < r < 4 -> length mid = r -> length pre + r < 4 ->
  (strict = true -> ((ad + N.of_nat (length pre)) mod 4 = 0)%N) ->
  generate_random_data strict le rnd (Block ad (pre ++ mid ++ post)) (length pre) r pg = UB.
Proof.
  intros R L P A. pose proof (generate_loop strict le rnd ad 0 r pre mid post pg) as H. rewrite Nat.mul_0_r in H. cbn [Nat.add] in H.
  rewrite H by (lia || assumption). cbv zeta. destruct (Nat.ltb_spec 0 r); [|lia]. unfold store4.
  destruct (Z.ltb_spec (Z.of_nat (length pre + 0) - (4 - Z.of_nat r)) 0); [reflexivity|lia].
Qed.
Lemma generate_short_before le rnd ad r pre mid post pg : 0 < r < 4 -> length mid = r -> 4 <= length pre + r ->
  generate_random_data false le rnd (Block ad (pre ++ mid ++ post)) (length pre) r pg =
  Ok (Block ad (firstn (length pre - (4 - r)) pre ++ host_bytes le 4 (rnd pg) ++ post)).
Proof.
  intros R L P. pose proof (generate_loop false le rnd ad 0 r pre mid post pg) as H. rewrite Nat.mul_0_r in H. cbn [Nat.add] in H.
  rewrite H by (lia || discriminate). cbv zeta. destruct (Nat.ltb_spec 0 r); [|lia]. rewrite skipn_O, Nat.add_0_r, Nat.add_0_r.
  change (words (host_bytes le 4) rnd pg 0) with (@nil ascii). cbn [app].
  remember (length pre - (4 - r)) as n eqn:En.
  assert (E : pre ++ mid ++ post = firstn n pre ++ (skipn n pre ++ mid) ++ post)
    by (rewrite <- (firstn_skipn n pre) at 1; rewrite <- !app_assoc; reflexivity).
  rewrite E.
  replace (Z.of_nat (length pre) - (4 - Z.of_nat r))%Z with (Z.of_nat (length (firstn n pre)))
    by (rewrite firstn_length; lia).
  rewrite store4_ok; [reflexivity|discriminate|rewrite app_length, skipn_length; lia].
Qed.
Lemma generate_unaligned le rnd ad q r pre mid post pg : 0 < r < 4 -> 0 < q -> length mid = 4 * q + r ->
  ((ad + N.of_nat (length pre)) mod 4 = 0)%N ->
  generate_random_data true le rnd (Block ad (pre ++ mid ++ post)) (length pre) (4 * q + r) pg = UB.
Proof.
  intros R Q L A. rewrite generate_loop by (lia || auto). cbv zeta. destruct (Nat.ltb_spec 0 r); [|lia]. unfold store4.
  destruct (Z.ltb_spec (Z.of_nat (length pre + 4 * q) - (4 - Z.of_nat r)) 0); [reflexivity|]. cbn [andb addr].
  replace ((ad + Z.to_N (Z.of_nat (length pre + 4 * q) - (4 - Z.of_nat r))) mod 4 =? 0)%N with false; [reflexivity|].
  symmetry. apply N.eqb_neq.
  replace (ad + Z.to_N (Z.of_nat (length pre + 4 * q) - (4 - Z.of_nat r)))%N with (ad + N.of_nat (length pre) + N.of_nat r + N.of_nat (q - 1) * 4)%N by lia.
  rewrite N.mod_add by discriminate. rewrite <- N.add_mod_idemp_l, A, N.add_0_l by discriminate. rewrite N.mod_small; lia.
Qed.

(* ---- random values ---- *)
Section R.
Context {G T C : Type}.
Variable step : G -> G.
Variable draw : G -> T * G.
Lemma values_fold (put : C -> T -> C) : forall n c g, values_impl draw put c n g = fold_left put (drawn draw n g) c.
Proof.
  induction n as [|n IH]; intros c g; cbn [values_impl drawn fold_left]; [reflexivity|].
  destruct (draw g) as [v g'] eqn:E. rewrite IH. reflexivity.
Qed.
Lemma real_calls_drawn : forall n r, real_calls draw n r = drawn draw n (rnd_ r).
Proof.
  induction n as [|n IH]; intros r; cbn [real_calls drawn]; [reflexivity|].
  unfold real_call. destruct (draw (rnd_ r)) as [v g] eqn:E. rewrite IH. reflexivity.
Qed.
Lemma drawn_length n g : length (drawn draw n g) = n.
Proof. revert g. induction n as [|n IH]; intros g; cbn; auto. Qed.
Lemma drawn_in (P : T -> Prop) : (forall g, P (fst (draw g))) -> forall n g, Forall P (drawn draw n g).
Proof. intros H. induction n as [|n IH]; intros g; cbn; constructor; auto. Qed.
End R.
