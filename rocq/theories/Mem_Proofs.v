From Coq Require Import List Arith NArith Ascii Bool Lia.
From Verif Require Import Base Binary_Model Binary_Spec Endian_Proofs Binary_Proofs4 Mem_Model Mem_Spec.
Import ListNotations.
Local Open Scope nat_scope.

(* ---- memcmp_n ---- *)
Lemma load_inj le a b : length a = length b -> load le a = load le b -> a = b.
Proof.
  intros L E. destruct (host_load le (length a) a eq_refl) as [A _]. destruct (host_load le (length a) b (eq_sym L)) as [B _].
  rewrite <- A, E. exact B.
Qed.

Definition ready_w (strict : bool) (w : nat) (b : block) (o : nat) : Prop :=
  strict = true -> ((addr b + N.of_nat o) mod N.of_nat w = 0)%N.

Lemma fetch_ok strict le w b o : ready_w strict w b o -> o + w <= length (bytes b) ->
  fetch strict le w b o = Ok (load le (sub (bytes b) (o, o + w))).
Proof.
  intros R L. unfold fetch. destruct strict; cbn [andb].
  - rewrite (R eq_refl), N.eqb_refl. cbn [negb]. destruct (Nat.ltb_spec (length (bytes b)) (o + w)); [lia|reflexivity].
  - destruct (Nat.ltb_spec (length (bytes b)) (o + w)); [lia|reflexivity].
Qed.

Lemma next_size_cases n : 0 < n ->
  (8 <= n /\ next_size n = 8) \/ (4 <= n < 8 /\ next_size n = 4) \/ (2 <= n < 4 /\ next_size n = 2) \/ (n = 1 /\ next_size n = 1).
Proof.
  intros H. unfold next_size. destruct (Nat.leb_spec 8 n); [left; lia|]. destruct (Nat.leb_spec 4 n); [right; left; lia|].
  destruct (Nat.leb_spec 2 n); [right; right; left; lia|]. right; right; right. lia.
Qed.

Lemma size_cmp_ok strict le k b1 o1 b2 o2 : k = 8 \/ k = 4 \/ k = 2 \/ k = 1 ->
  ready_w strict k b1 o1 -> ready_w strict k b2 o2 -> o1 + k <= length (bytes b1) -> o2 + k <= length (bytes b2) ->
  exists c, size_cmp strict le k b1 o1 b2 o2 = Ok c /\
            (c = true <-> sub (bytes b1) (o1, o1 + k) = sub (bytes b2) (o2, o2 + k)).
Proof.
  intros K R1 R2 L1 L2. unfold size_cmp.
  replace ((k =? 8) || (k =? 4) || (k =? 2) || (k =? 1)) with true
    by (destruct K as [->|[->|[->| ->]]]; reflexivity).
  rewrite !fetch_ok by assumption. cbn [bind]. eexists. split; [reflexivity|]. rewrite N.eqb_eq. split.
  - intros E. apply (load_inj le) in E; [exact E|]. rewrite !sub_length; lia.
  - intros ->. reflexivity.
Qed.

(* what has been checked at the address a multiple of the next size is
   aligned for the rest *)
Lemma align_step (a : N) (n k : nat) : (k = next_size n) -> 0 < n ->
  (a mod N.of_nat k = 0)%N -> ((a + N.of_nat k) mod N.of_nat k = 0)%N.
Proof.
  intros -> H E. rewrite <- N.add_mod_idemp_l, E, N.add_0_l; [apply N.mod_same|];
  destruct (next_size_cases n H) as [[_ ->]|[[_ ->]|[[_ ->]|[_ ->]]]]; discriminate.
Qed.
Lemma mod_divides (a : N) (k j : N) : (0 < k)%N -> (0 < j)%N -> (a mod (k * j) = 0)%N -> (a mod k = 0)%N.
Proof.
  intros K J E. apply N.mod_divide; [lia|]. apply N.mod_divide in E; [|nia]. destruct E as [q ->]. exists (q * j)%N. lia.
Qed.

(* an address that is a multiple of the next size of n stays one when that
   size is taken off *)
Lemma align_next (a : N) n : 0 < n -> (a mod N.of_nat (next_size n) = 0)%N ->
  0 < n - next_size n -> ((a + N.of_nat (next_size n)) mod N.of_nat (next_size (n - next_size n)) = 0)%N.
Proof.
  intros H E P. pose proof (align_step a n _ eq_refl H E) as E'.
  set (a' := (a + N.of_nat (next_size n))%N) in *. clearbody a'.
  destruct (next_size_cases n H) as [[B S1]|[[B S1]|[[B S1]|[B S1]]]]; rewrite S1 in *;
  destruct (next_size_cases _ P) as [[B2 S2]|[[B2 S2]|[[B2 S2]|[B2 S2]]]]; rewrite S2; try lia;
  cbn [N.of_nat] in *; try exact E'; try apply N.mod_1_r.
Qed.
Lemma memcmp_impl_ok strict le b1 b2 : forall fuel n o1 o2, n < fuel ->
  (0 < n -> ready_w strict (next_size n) b1 o1 /\ ready_w strict (next_size n) b2 o2) ->
  o1 + n <= length (bytes b1) -> o2 + n <= length (bytes b2) ->
  exists c, memcmp_n_impl strict le fuel n b1 o1 b2 o2 = Ok c /\
            (c = true <-> sub (bytes b1) (o1, o1 + n) = sub (bytes b2) (o2, o2 + n)).
Proof.
  induction fuel as [|fuel IH]; intros n o1 o2 F R L1 L2; [lia|]. cbn [memcmp_n_impl]. cbv zeta.
  destruct (Nat.eqb_spec n 0) as [->|Hn].
  - exists true. split; [reflexivity|]. rewrite !Nat.add_0_r, !sub_empty. tauto.
  - assert (P : 0 < n) by lia. destruct (R P) as [R1 R2].
    assert (Hle : next_size n <= n /\ (next_size n = 8 \/ next_size n = 4 \/ next_size n = 2 \/ next_size n = 1)).
    { destruct (next_size_cases n P) as [[B ->]|[[B ->]|[[B ->]|[B ->]]]]; lia. }
    destruct Hle as [Hle K]. set (k := next_size n) in *.
    destruct (size_cmp_ok strict le k b1 o1 b2 o2 K R1 R2) as [c [E Hc]]; [lia|lia|]. rewrite E. cbn [bind].
    rewrite <- (sub_app (bytes b1) o1 (o1 + k) (o1 + n)), <- (sub_app (bytes b2) o2 (o2 + k) (o2 + n)) by lia.
    assert (LL : length (sub (bytes b1) (o1, o1 + k)) = length (sub (bytes b2) (o2, o2 + k))) by (rewrite !sub_length; lia).
    destruct c.
    + destruct (IH (n - k) (o1 + k) (o2 + k)) as [c [E2 Hc2]]; [lia| |lia|lia|].
      { intros P2. split; intros St; rewrite Nat2N.inj_add, N.add_assoc; apply (align_next _ n P); auto. }
      exists c. split; [exact E2|]. rewrite Hc2. replace (o1 + k + (n - k)) with (o1 + n) by lia. replace (o2 + k + (n - k)) with (o2 + n) by lia.
      rewrite (proj1 Hc eq_refl). split; [intros ->; reflexivity|apply app_inv_head].
    + exists false. split; [reflexivity|]. split; [discriminate|]. intros X. exfalso.
      assert (C : false = true); [apply Hc|discriminate].
      pose proof (f_equal (firstn (length (sub (bytes b1) (o1, o1 + k)))) X) as Y. rewrite firstn_app_len, LL, firstn_app_len in Y. exact Y.
Qed.

Lemma memcmp_ok strict le n b1 o1 b2 o2 : aligned8 strict b1 o1 -> aligned8 strict b2 o2 ->
  o1 + n <= length (bytes b1) -> o2 + n <= length (bytes b2) ->
  exists c, memcmp_n strict le n b1 o1 b2 o2 = Ok c /\
            (c = true <-> sub (bytes b1) (o1, o1 + n) = sub (bytes b2) (o2, o2 + n)).
Proof.
  intros R1 R2 L1 L2. apply memcmp_impl_ok; [lia| |assumption|assumption]. intros P.
  assert (D : forall a, (a mod 8 = 0)%N -> (a mod N.of_nat (next_size n) = 0)%N).
  { intros a E. destruct (next_size_cases n P) as [[_ ->]|[[_ ->]|[[_ ->]|[_ ->]]]]; cbn [N.of_nat];
    [exact E|apply (mod_divides a 4 2); [lia|lia|exact E]|apply (mod_divides a 2 4); [lia|lia|exact E]|apply N.mod_1_r]. }
  split; intros St; apply D; [destruct (R1 St) as [q ->]|destruct (R2 St) as [q ->]]; rewrite N.mul_comm; apply N.mod_mul; discriminate.
Qed.

(* The calls that are defined need the alignment of the first load and, when
   the blocks agree as far as they go, all the bytes. *)
Lemma fetch_inv strict le w b o x : fetch strict le w b o = Ok x ->
  ready_w strict w b o /\ o + w <= length (bytes b) /\ x = load le (sub (bytes b) (o, o + w)).
Proof.
  unfold fetch. intros H. destruct (strict && _) eqn:E; [discriminate|].
  destruct (Nat.ltb_spec (length (bytes b)) (o + w)); [discriminate|]. injection H as <-. repeat split; [|lia].
  intros ->. cbn [andb] in E. apply negb_false_iff, N.eqb_eq in E. exact E.
Qed.
Lemma size_cmp_inv strict le n b1 o1 b2 o2 c : 0 < n -> size_cmp strict le (next_size n) b1 o1 b2 o2 = Ok c ->
  ready_w strict (next_size n) b1 o1 /\ ready_w strict (next_size n) b2 o2 /\
  o1 + next_size n <= length (bytes b1) /\ o2 + next_size n <= length (bytes b2).
Proof.
  intros P H. unfold size_cmp in H.
  replace (_ || _) with true in H by (destruct (next_size_cases n P) as [[B ->]|[[B ->]|[[B ->]|[B ->]]]]; reflexivity).
  destruct (fetch strict le (next_size n) b1 o1) eqn:E1; [|discriminate|discriminate].
  destruct (fetch strict le (next_size n) b2 o2) eqn:E2; [|discriminate|discriminate].
  apply fetch_inv in E1. apply fetch_inv in E2. tauto.
Qed.
Lemma next_size_le n : 0 < n -> 0 < next_size n <= n.
Proof. intros P. destruct (next_size_cases n P) as [[B ->]|[[B ->]|[[B ->]|[B ->]]]]; lia. Qed.
Lemma memcmp_true_inv strict le b1 b2 : forall fuel n o1 o2, memcmp_n_impl strict le fuel n b1 o1 b2 o2 = Ok true -> 0 < n ->
  o1 + n <= length (bytes b1) /\ o2 + n <= length (bytes b2) /\ sub (bytes b1) (o1, o1 + n) = sub (bytes b2) (o2, o2 + n).
Proof.
  induction fuel as [|fuel IH]; intros n o1 o2 H P; cbn [memcmp_n_impl] in H; [discriminate|]. cbv zeta in H.
  destruct (Nat.eqb_spec n 0) as [->|Hn]; [lia|].
  destruct (size_cmp _ _ _ _ _ _ _) eqn:E; [|discriminate|discriminate]. cbn [bind] in H.
  destruct a; [|discriminate]. pose proof (size_cmp_inv _ _ _ _ _ _ _ _ P E) as (R1 & R2 & L1 & L2).
  pose proof (next_size_le n P) as B. set (k := next_size n) in *.
  destruct (size_cmp_ok strict le k b1 o1 b2 o2) as [c [E2 Hc]]; [|assumption..|].
  { unfold k. destruct (next_size_cases n P) as [[_ ->]|[[_ ->]|[[_ ->]|[_ ->]]]]; tauto. }
  rewrite E in E2. injection E2 as <-. pose proof (proj1 Hc eq_refl) as S1.
  destruct (Nat.eq_dec (n - k) 0) as [Z|Z].
  - assert (X : n = k) by lia. rewrite X. auto.
  - apply IH in H; [|lia]. destruct H as (A1 & A2 & A3). repeat split; [lia|lia|].
    rewrite <- (sub_app (bytes b1) o1 (o1 + k) (o1 + n)), <- (sub_app (bytes b2) o2 (o2 + k) (o2 + n)) by lia.
    rewrite S1. f_equal. replace (o1 + n) with (o1 + k + (n - k)) by lia. replace (o2 + n) with (o2 + k + (n - k)) by lia. exact A3.
Qed.
Lemma memcmp_false_inv strict le b1 b2 : forall fuel n o1 o2, memcmp_n_impl strict le fuel n b1 o1 b2 o2 = Ok false ->
  exists m, m <= n /\ o1 + m <= length (bytes b1) /\ o2 + m <= length (bytes b2) /\
            sub (bytes b1) (o1, o1 + m) <> sub (bytes b2) (o2, o2 + m).
Proof.
  induction fuel as [|fuel IH]; intros n o1 o2 H; cbn [memcmp_n_impl] in H; [discriminate|]. cbv zeta in H.
  destruct (Nat.eqb_spec n 0) as [->|Hn]; [discriminate|]. assert (P : 0 < n) by lia.
  destruct (size_cmp _ _ _ _ _ _ _) eqn:E; [|discriminate|discriminate]. cbn [bind] in H.
  pose proof (size_cmp_inv _ _ _ _ _ _ _ _ P E) as (R1 & R2 & L1 & L2).
  pose proof (next_size_le n P) as B. set (k := next_size n) in *.
  destruct (size_cmp_ok strict le k b1 o1 b2 o2) as [c [E2 Hc]]; [|assumption..|].
  { unfold k. destruct (next_size_cases n P) as [[_ ->]|[[_ ->]|[[_ ->]|[_ ->]]]]; tauto. }
  rewrite E in E2. injection E2 as <-. destruct a.
  - apply IH in H. destruct H as (m & M & A1 & A2 & A3). exists (k + m). repeat split; [lia|lia|lia|].
    intros X. apply A3. rewrite <- (sub_app (bytes b1) o1 (o1 + k) (o1 + (k + m))) in X by lia. rewrite <- (sub_app (bytes b2) o2 (o2 + k) (o2 + (k + m))) in X by lia.
    rewrite (proj1 Hc eq_refl) in X. apply app_inv_head in X. rewrite !Nat.add_assoc in X. exact X.
  - exists k. repeat split; [lia|lia|lia|]. intros X. apply Hc in X. discriminate.
Qed.
Lemma memcmp_odd le n b1 o1 b2 o2 : 2 <= n -> ((addr b1 + N.of_nat o1) mod 2 = 1)%N -> memcmp_n true le n b1 o1 b2 o2 = UB.
Proof.
  intros N2 O. unfold memcmp_n. cbn [memcmp_n_impl]. destruct (Nat.eqb_spec n 0); [lia|]. cbv zeta.
  unfold size_cmp. replace (_ || _) with true.
  2: { destruct (next_size_cases n ltac:(lia)) as [[_ ->]|[[_ ->]|[[_ ->]|[_ ->]]]]; reflexivity. }
  unfold fetch. cbn [andb].
  replace ((addr b1 + N.of_nat o1) mod N.of_nat (next_size n) =? 0)%N with false; [reflexivity|]. symmetry. apply N.eqb_neq. intros X.
  assert (Z : ((addr b1 + N.of_nat o1) mod 2 = 0)%N); [|rewrite Z in O; discriminate].
  destruct (next_size_cases n ltac:(lia)) as [[_ S1]|[[_ S1]|[[_ S1]|[Y _]]]]; [| | |lia]; rewrite S1 in X.
  - apply (mod_divides _ 2 4); [lia|lia|exact X].
  - apply (mod_divides _ 2 2); [lia|lia|exact X].
  - exact X.
Qed.

(* ---- arrays ---- *)
Section A.
Context {T : Type}.
Lemma exists_last_or (l : list T) : l = [] \/ exists m y, l = m ++ [y].
Proof. induction l as [|y m _] using rev_ind; [left; reflexivity|right; exists m, y; reflexivity]. Qed.
Lemma fill_n_ok (a : list T) from n t : from + n <= length a ->
  fill_n a from n t = Ok (firstn from a ++ repeat t n ++ skipn (from + n) a).
Proof.
  intros L. unfold fill_n. apply holds_eq.
  eapply holds_weaken; [apply (for_up_rule (fun k s => s = firstn from a ++ repeat t k ++ skipn (from + k) a))|].
  - intros k s [_ Hk] ->. cbn [Nat.add] in Hk. destruct (nth_error a (from + k)) as [x|] eqn:E.
    2: { apply nth_error_None in E. lia. }
    rewrite (skipn_nth_cons _ _ _ E), app_assoc.
    assert (LL : length (firstn from a ++ repeat t k) = from + k) by (rewrite app_length, firstn_length, repeat_length; lia).
    pose proof (wr_here _ x (skipn (S (from + k)) a) t : wr (_ ++ _ :: _) (length (firstn from a ++ repeat t k)) t = _) as W.
    rewrite LL in W. rewrite W. cbn [holds]. rewrite <- app_assoc. f_equal. rewrite Nat.add_succ_r.
    change (t :: skipn (S (from + k)) a) with ([t] ++ skipn (S (from + k)) a). rewrite app_assoc. f_equal. rewrite <- repeat_cons. reflexivity.
  - rewrite Nat.add_0_r. cbn [repeat app]. symmetry. apply firstn_skipn.
  - intros s ->. reflexivity.
Qed.
Lemma copy_arr_ok (src : list T) n dest : n <= length src -> n <= length dest ->
  copy_arr src n dest = Ok (firstn n src ++ skipn n dest).
Proof.
  intros L1 L2. unfold copy_arr. apply holds_eq.
  eapply holds_weaken; [apply (for_up_rule (fun k d => d = firstn k src ++ skipn k dest))|].
  - intros k d [_ Hk] ->. cbn [Nat.add] in Hk. destruct (rd_ok src k) as [x [E1 E2]]; [lia|]. rewrite E1. cbn [bind].
    destruct (nth_error dest k) as [y|] eqn:E. 2: { apply nth_error_None in E. lia. }
    rewrite (skipn_nth_cons _ _ _ E). assert (LL : length (firstn k src) = k) by (rewrite firstn_length; lia).
    pose proof (wr_here (firstn k src) y (skipn (S k) dest) x) as W. rewrite LL in W. rewrite W. cbn [holds]. rewrite (firstn_S_nth _ _ _ E2), <- app_assoc. reflexivity.
  - reflexivity.
  - intros s ->. reflexivity.
Qed.
Lemma string_of_ok (s : list T) a b : a <= b <= length s -> string_of s (a, b) = Ok (sub s (a, b)).
Proof.
  intros L. unfold string_of. destruct (Nat.ltb_spec b a); [lia|]. apply holds_eq.
  eapply holds_weaken; [apply (for_up_rule (fun k o => o = sub s (a, k)))|].
  - intros k o Hk ->. destruct (rd_ok s k) as [x [E1 E2]]; [lia|]. rewrite E1. cbn [bind holds]. symmetry. apply sub_S; [lia|exact E2].
  - symmetry. apply sub_empty.
  - intros o ->. f_equal. f_equal. lia.
Qed.
Lemma string_of_ub (s : list T) a b : a < b -> length s < b -> string_of s (a, b) = UB.
Proof.
  intros L1 L2. unfold string_of. destruct (Nat.ltb_spec b a); [lia|].
  assert (G : forall n i o, 0 < n -> length s < i + n -> for_up i n (fun i out => x <- rd s i ;; Ok (out ++ [x])) o = UB).
  { induction n as [|n IH]; intros i o Hn Hi; [lia|]. cbn [for_up].
    destruct (Nat.le_gt_cases (length s) i) as [Hl|Hl]; [rewrite rd_ub by exact Hl; reflexivity|].
    destruct (rd_ok s i Hl) as [x [E _]]. rewrite E. cbn [bind]. apply IH; lia. }
  apply G; lia.
Qed.
Lemma copy_arr_ub (src : list T) n dest : length src < n -> n <= length dest -> copy_arr src n dest = UB.
Proof.
  intros L1 L2. unfold copy_arr.
  assert (G : forall m i d, 0 < m -> length src < i + m -> i + m <= length d ->
              for_up i m (fun i d => x <- rd src i ;; wr d i x) d = UB).
  { induction m as [|m IH]; intros i d Hn Hi Hd; [lia|]. cbn [for_up].
    destruct (Nat.le_gt_cases (length src) i) as [Hl|Hl]; [rewrite rd_ub by exact Hl; reflexivity|].
    destruct (rd_ok src i Hl) as [x [E _]]. rewrite E. cbn [bind]. rewrite wr_ok by lia. cbn [bind].
    apply IH; [lia|lia|rewrite upd_length; lia]. }
  apply G; lia.
Qed.

(* ---- reverse and fill ---- *)
Lemma put_here (pre : list T) x post v : put (Object false (pre ++ x :: post)) (length pre) v = Ok (Object false (pre ++ v :: post)).
Proof. unfold put. cbn [is_const cells]. rewrite wr_here. reflexivity. Qed.

Lemma reverse_loop : forall fuel (mid pre post : list T), length mid < fuel ->
  loop fuel
    (fun '(o, first, last) =>
       if (first =? last) || (first =? last - 1) then Ok (inr o)
       else
         x <- rd (cells o) first ;;
         y <- rd (cells o) (last - 1) ;;
         o1 <- put o first y ;;
         o2 <- put o1 (last - 1) x ;;
         Ok (inl (o2, first + 1, last - 1)))
    (Object false (pre ++ mid ++ post), length pre, length pre + length mid)
  = Ok (Object false (pre ++ rev mid ++ post)).
Proof.
  induction fuel as [|fuel IH]; intros mid pre post F; [lia|]. cbn [loop].
  destruct mid as [|x mid].
  - cbn [length rev app]. rewrite Nat.add_0_r, Nat.eqb_refl. cbn [orb]. reflexivity.
  - destruct (exists_last_or mid) as [->|[m [y ->]]].
    + cbn [length rev app]. replace (length pre =? length pre + 1 - 1) with true by (symmetry; apply Nat.eqb_eq; lia).
      rewrite orb_true_r. reflexivity.
    + cbn [length]. rewrite app_length. cbn [length].
      destruct (Nat.eqb_spec (length pre) (length pre + S (length m + 1))); [lia|].
      destruct (Nat.eqb_spec (length pre) (length pre + S (length m + 1) - 1)); [lia|]. cbn [orb cells].
      replace (pre ++ (x :: m ++ [y]) ++ post) with (pre ++ x :: (m ++ [y] ++ post))
        by (cbn [app]; rewrite <- app_assoc; reflexivity).
      rewrite rd_here. cbn [bind].
      replace (length pre + S (length m + 1) - 1) with (length (pre ++ x :: m)) by (rewrite app_length; cbn [length]; lia).
      replace (pre ++ x :: m ++ [y] ++ post) with ((pre ++ x :: m) ++ y :: post) at 1
        by (rewrite <- app_assoc; reflexivity).
      rewrite rd_here. cbn [bind]. rewrite put_here. cbn [bind].
      replace (length (pre ++ x :: m)) with (length (pre ++ y :: m)) by (rewrite !app_length; reflexivity).
      replace (pre ++ y :: m ++ [y] ++ post) with ((pre ++ y :: m) ++ y :: post) by (rewrite <- app_assoc; reflexivity).
      rewrite put_here. cbn [bind].
      specialize (IH m (pre ++ [y]) (x :: post)). rewrite app_length in IH. cbn [length] in IH.
      replace (length pre + 1) with (length pre + 1 + 0) by lia.
      replace (length (pre ++ y :: m)) with (length pre + 1 + length m) by (rewrite app_length; cbn [length]; lia).
      rewrite Nat.add_0_r. replace ((pre ++ y :: m) ++ x :: post) with ((pre ++ [y]) ++ m ++ x :: post)
        by (rewrite <- !app_assoc; reflexivity).
      rewrite IH by (cbn [length] in F; rewrite app_length in F; cbn [length] in F; lia).
      cbn [rev]. rewrite rev_app_distr. cbn [rev app]. rewrite <- !app_assoc. reflexivity.
Qed.

Lemma reverse_ok (s : list T) a b : a <= b <= length s ->
  reverse (Object false s) (a, b) = Ok (Object false (firstn a s ++ rev (sub s (a, b)) ++ skipn b s)).
Proof.
  intros L. unfold reverse. destruct (Nat.ltb_spec b a); [lia|].
  pose proof (reverse_loop (S (b - a)) (sub s (a, b)) (firstn a s) (skipn b s)) as H0.
  rewrite sub_length, firstn_length, Nat.min_l in H0 by lia. replace (a + (b - a)) with b in H0 by lia.
  rewrite <- H0 by lia. f_equal. f_equal. f_equal. f_equal.
  rewrite <- (firstn_skipn a s) at 1. f_equal. rewrite <- (firstn_skipn (b - a) (skipn a s)) at 1. unfold sub; cbn [fst snd]. f_equal.
  rewrite skipn_skipn. f_equal. lia.
Qed.
Lemma fill_ok (s : list T) a b v : a <= b <= length s ->
  fill (Object false s) (a, b) v = Ok (Object false (firstn a s ++ repeat v (b - a) ++ skipn b s)).
Proof.
  intros L. unfold fill. destruct (Nat.ltb_spec b a); [lia|]. apply holds_eq.
  eapply holds_weaken; [apply (for_up_rule (fun k o => o = Object false (firstn a s ++ repeat v (k - a) ++ skipn k s)))|].
  - intros k o Hk ->. destruct (nth_error s k) as [x|] eqn:E. 2: { apply nth_error_None in E. lia. }
    rewrite (skipn_nth_cons _ _ _ E), app_assoc.
    assert (LL : length (firstn a s ++ repeat v (k - a)) = k) by (rewrite app_length, firstn_length, repeat_length; lia).
    pose proof (put_here (firstn a s ++ repeat v (k - a)) x (skipn (S k) s) v) as W. rewrite LL in W. rewrite W. cbn [holds]. f_equal. rewrite <- app_assoc. f_equal.
    replace (S k - a) with (S (k - a)) by lia. change (repeat v (S (k - a))) with (v :: repeat v (k - a)). rewrite repeat_cons, <- app_assoc. reflexivity.
  - rewrite Nat.sub_diag. cbn [repeat app]. now rewrite firstn_skipn.
  - intros o ->. replace (a + (b - a)) with b by lia. reflexivity.
Qed.
Lemma reverse_const (s : list T) a b : a + 2 <= b <= length s -> reverse (Object true s) (a, b) = UB.
Proof.
  intros L. unfold reverse. destruct (Nat.ltb_spec b a); [lia|]. cbn [loop].
  destruct (Nat.eqb_spec a b); [lia|]. destruct (Nat.eqb_spec a (b - 1)); [lia|]. cbn [orb cells].
  destruct (rd_ok s a) as [x [E1 _]]; [lia|]. destruct (rd_ok s (b - 1)) as [y [E2 _]]; [lia|]. rewrite E1, E2. reflexivity.
Qed.
Lemma fill_const (s : list T) a b v : a < b -> fill (Object true s) (a, b) v = UB.
Proof.
  intros L. unfold fill. destruct (Nat.ltb_spec b a); [lia|]. destruct (b - a) eqn:E; [lia|]. reflexivity.
Qed.
End A.
