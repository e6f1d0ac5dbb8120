From Verif Require Import Base Num_Model Num_Spec Num_Proofs2 Text_Model Parse_Spec Comb_Model Comb_Spec Comb_Proofs Comb_Proofs3 Cmbx_Model Cmbx_Spec.
From Verif Require Gen_Model Gen_Spec Gen_Props.
From Coq Require Import Permutation Sorted.
Local Open Scope nat_scope.

Section Walk.
Context {T : Type}.
Variable lt : T -> T -> bool.
Hypothesis lt_asym : forall a b, lt a b = true -> lt b a = false.
Variable l : list T.
Hypothesis Hs : StronglySorted (fun a b => lt a b = true) l.
Hypothesis Hne : l <> [].
Variable k : nat.
Hypothesis Hk : k <= length l.

(* the iterator refers to the i-th selection or, if there is none, is the end *)
Definition at_place (i : nat) (it : comb_iter) (s : list T) : Prop :=
  length s = length l /\
  ((exists c r, nth_error (sel k l) i = Some (c, r) /\ it = ci_start k /\ s = c ++ r) \/
   (length (choices k l) <= i /\ it = ci_end s /\ s = l)).

Lemma sel_len : length (choices k l) = length (sel k l).
Proof. rewrite <- sel_choices. apply map_length. Qed.

Lemma len_pos : 0 < length l.
Proof. destruct l; [contradiction|cbn; lia]. Qed.

Lemma place_start : at_place 0 (ci_start k) l.
Proof.
  split; [reflexivity|]. left. exists (firstn k l), (skipn k l). split; [now apply (sel_first lt)|]. now rewrite firstn_skipn.
Qed.

Lemma place_next i it s : at_place i it s -> holds (ci_next lt it s) (fun '(it', s') => at_place (S i) it' s').
Proof.
  pose proof len_pos as Hp. intros (Hl & [(c & r & En & -> & ->)|(Hi & -> & ->)]).
  - unfold ci_next, ci_start. cbn [ci_begin ci_middle].
    replace (0 =? length (c ++ r)) with false by (symmetry; apply Nat.eqb_neq; lia). cbn [negb].
    destruct (nth_error (sel k l) (S i)) as [[c' r']|] eqn:En'.
    + rewrite (next_step lt lt_asym l k i c r c' r' Hs En En'). cbn [bind negb holds]. split.
      * apply nth_error_In in En'. apply (sel_in lt) in En'. destruct En' as [_ Hq]. now apply Permutation_length in Hq.
      * left. exists c', r'. auto.
    + rewrite (next_end lt lt_asym l k i c r Hs Hk En En'). cbn [bind negb holds]. split; [reflexivity|]. right.
      split; [|auto]. rewrite sel_len. now apply nth_error_None.
  - unfold ci_next, ci_end. cbn [ci_begin]. rewrite Nat.eqb_refl. cbn [negb holds]. split; [reflexivity|]. right. repeat split; lia.
Qed.

Lemma place_is i it s : at_place i it s ->
  (i < length (choices k l) -> it = ci_start k /\ ci_equal (ci_end s) it = false /\ nth_error (choices k l) i = Some (sub s (0, k))) /\
  (length (choices k l) <= i -> it = ci_end l /\ ci_equal (ci_end s) it = true /\ s = l).
Proof.
  pose proof len_pos as Hp. intros (Hl & [(c & r & En & -> & ->)|(Hi & -> & ->)]).
  - assert (length c = k) as Hlc by (apply nth_error_In in En; apply (sel_in lt) in En; tauto). split.
    + intros _. split; [reflexivity|]. split.
      * unfold ci_equal, ci_start, ci_end. cbn [ci_begin ci_middle].
        replace (length (c ++ r) =? 0) with false by (symmetry; apply Nat.eqb_neq; lia). reflexivity.
      * rewrite (sub_prefix c r k Hlc). rewrite <- sel_choices, nth_error_map, En. reflexivity.
    + intros H. rewrite sel_len in H. apply nth_error_None in H. congruence.
  - split; [lia|]. intros _. split; [reflexivity|]. split; [|reflexivity]. unfold ci_equal. now rewrite !Nat.eqb_refl.
Qed.

Lemma advance_ok n : forall i it s, at_place i it s ->
  holds (for_up 0 n (fun _ '(it, s) => ci_next lt it s) (it, s)) (fun '(it', s') => at_place (n + i) it' s').
Proof.
  intros i it s H. replace (n + i) with ((0 + n) + i) by lia.
  apply (for_up_rule (fun j '(it', s') => at_place (j + i) it' s')); [|exact H].
  intros j [it' s'] _ Hj. apply (place_next (j + i) it' s' Hj).
Qed.
End Walk.

Lemma insert_perm {T} (lt : T -> T -> bool) x s : Permutation (x :: s) (sort_insert lt x s).
Proof.
  induction s as [|y s IH]; cbn [sort_insert]; [auto|]. destruct (lt y x); [|auto].
  transitivity (y :: x :: s); [apply perm_swap|now apply perm_skip].
Qed.
Lemma sort_perm {T} (lt : T -> T -> bool) (s : list T) : Permutation s (std_sort lt s).
Proof.
  induction s as [|x s IH]; cbn [std_sort fold_right]; [auto|]. transitivity (x :: std_sort lt s); [now apply perm_skip|apply insert_perm].
Qed.
Lemma sort_sorted {T} (lt : T -> T -> bool) :
  (forall a b c, lt a b = true -> lt b c = true -> lt a c = true) -> (forall a b, a <> b -> lt a b = true \/ lt b a = true) ->
  forall s, NoDup s -> StronglySorted (fun a b => lt a b = true) (std_sort lt s).
Proof.
  intros Ht Hd. induction s as [|x s IH]; intros Hn; cbn [std_sort fold_right]; [constructor|].
  inversion Hn as [|? ? Hx Hn']; subst. specialize (IH Hn'). fold (std_sort lt s).
  assert (Hx' : ~ In x (std_sort lt s)) by (intros H; apply Hx; eapply Permutation_in; [apply Permutation_sym, sort_perm|exact H]).
  clear Hx Hn Hn'. revert IH Hx'. generalize (std_sort lt s) as u. induction u as [|y u IHu]; intros Hu Hxu; cbn [sort_insert].
  - constructor; [constructor|constructor].
  - inversion Hu as [|? ? Hu' Hf]; subst. destruct (lt y x) eqn:E.
    + constructor; [apply IHu; [auto|intros H; apply Hxu; now right]|]. apply Forall_forall. intros z Hz.
      eapply Permutation_in in Hz; [|apply Permutation_sym, insert_perm]. destruct Hz as [<-|Hz]; [auto|]. rewrite Forall_forall in Hf. auto.
    + assert (lt x y = true) as Exy by (destruct (Hd x y) as [|]; [intros ->; apply Hxu; now left|auto|congruence]).
      constructor; [exact Hu|]. constructor; [exact Exy|]. rewrite Forall_forall in Hf |- *. intros z Hz. eauto.
Qed.

(* ---- the example ---- *)
Lemma join_numbers_ok d : forall xs output, Forall (fun v => (0 <= v < 10 ^ 20)%Z) xs ->
  exists ts, Forall2 canonical ts xs /\ join_numbers output d xs = Ok (output ++ separated d ts).
Proof.
  induction xs as [|x xs IH]; intros output H; cbn [join_numbers].
  - exists []. split; [constructor|]. cbn. now rewrite app_nil_r.
  - inversion H as [|? ? Hx Hxs]; subst. pose proof (format_unsigned_ok x Hx) as F.
    destruct (format_unsigned x) as [t| |]; cbn [holds] in F; try contradiction. destruct F as (F & _). cbn [bind].
    destruct xs as [|y xs].
    + exists [t]. split; [constructor; [auto|constructor]|]. reflexivity.
    + destruct (IH (output ++ t ++ d) Hxs) as (ts & F2 & E). exists (t :: ts). split; [now constructor|]. rewrite E.
      inversion F2; subst. cbn [separated]. now rewrite <- !app_assoc.
Qed.

Lemma counting_list n : (Z.of_nat n <= 2 ^ 32 - 1)%Z ->
  Gen_Model.iota_count counting (fun c x => c ++ [x]) [] n 0%Z = Ok (first_numbers n).
Proof.
  intros H.
  assert (C : Gen_Spec.countable counting 0 n) by (split; [cbn; lia|right; cbn [Gen_Model.hi counting]; lia]).
  rewrite (Gen_Props.C96_sequence counting [] n 0%Z C). cbn [app]. f_equal. unfold first_numbers.
  apply map_ext_in. intros i Hi. apply in_seq in Hi. rewrite (Gen_Props.C96_values counting 0 n i C); cbn [Gen_Model.hi counting]; lia.
Qed.

Lemma first_sorted n : StronglySorted (fun a b => (a <? b)%Z = true) (first_numbers n).
Proof.
  unfold first_numbers. generalize 0. induction n as [|n IH]; intros a; cbn [seq map]; [constructor|]. constructor; [apply IH|].
  apply Forall_forall. intros z Hz. apply in_map_iff in Hz. destruct Hz as (b & <- & Hb). apply in_seq in Hb. apply Z.ltb_lt. lia.
Qed.

Lemma choices_member {A} (l : list A) k c x : In c (choices k l) -> In x c -> In x l.
Proof. intros H Hx. apply choices_in in H. eapply subseq_in; [apply H|exact Hx]. Qed.

Lemma combinator_ok fuel n k : 0 < n -> (Z.of_nat n <= 2 ^ 32 - 1)%Z -> k <= n ->
  (Z.of_nat (length (choices k (first_numbers n))) < 2 ^ 64)%Z -> length (choices k (first_numbers n)) < fuel ->
  exists ls, combinator fuel n k = Ok (concat ls) /\ length ls = length (choices k (first_numbers n)) /\
    forall i c, nth_error (choices k (first_numbers n)) i = Some c -> exists l, nth_error ls i = Some l /\ numbered_line i c l.
Proof.
  intros Hn Hb Hk Hc Hf. unfold combinator. rewrite counting_list by auto. cbn [bind].
  assert (Hl : length (first_numbers n) = n) by (unfold first_numbers; now rewrite map_length, seq_length).
  unfold ci_construct. replace (length (first_numbers n) <? k) with false by (symmetry; apply Nat.ltb_ge; lia). cbn [bind].
  set (u := first_numbers n) in *. set (cs := choices k u) in *.
  assert (Hne : u <> []) by (intros E; rewrite E in Hl; cbn in Hl; lia).
  assert (Hs : StronglySorted (fun a b => (a <? b)%Z = true) u) by apply first_sorted.
  assert (As : forall a b, (a <? b)%Z = true -> (b <? a)%Z = false) by (intros a b H; apply Z.ltb_lt in H; apply Z.ltb_ge; lia).
  assert (Hku : k <= length u) by lia.
  assert (HH : holds (loop fuel
    (fun '(itr, s, count, out) =>
       if ci_equal (ci_end s) itr then Ok (inr out)
       else
         t <- format_unsigned count ;;
         line <- join_numbers [] (str " ") (sub s (0, k)) ;;
         let out := out ++ right_align 4 "0" t ++ [ascii_of_nat 9] ++ line ++ [ascii_of_nat 10] in
         ' (itr, s) <- ci_next Z.ltb itr s ;;
         Ok (inl (itr, s, cast t_ulong (count + 1), out)))
    (ci_start k, u, 0%Z, [])) (fun out => exists ls, out = concat ls /\ length ls = length cs /\
      forall i c, nth_error cs i = Some c -> exists l, nth_error ls i = Some l /\ numbered_line i c l)).
  { apply (loop_rule (fun '(it, s, count, out) => exists ls, at_place u k (length ls) it s /\ count = Z.of_nat (length ls) /\
        length ls <= length cs /\ out = concat ls /\
        forall i c, i < length ls -> nth_error cs i = Some c -> exists l, nth_error ls i = Some l /\ numbered_line i c l)
      (fun '(it, s, count, out) => length cs - Z.to_nat count)).
    - intros [[[it s] count] out] (ls & P & -> & Hle & -> & G). destruct (place_is Z.ltb As u Hs Hne k Hku _ _ _ P) as (P1 & P2). fold cs in P1, P2.
      destruct (Nat.lt_ge_cases (length ls) (length cs)) as [Hlt|Hge].
      + destruct (P1 Hlt) as (-> & -> & Hsel). cbn [bind].
        assert (B64 : (Z.of_nat (length ls) < 10 ^ 20)%Z) by (change (10 ^ 20)%Z with 100000000000000000000%Z; change (2 ^ 64)%Z with 18446744073709551616%Z in Hc; lia).
        pose proof (format_unsigned_ok (Z.of_nat (length ls)) ltac:(lia)) as F.
        destruct (format_unsigned (Z.of_nat (length ls))) as [t| |]; cbn [holds] in F; try contradiction. destruct F as (F & _). cbn [bind].
        destruct (join_numbers_ok (str " ") (sub s (0, k)) []) as (ts & Fts & ->).
        { apply Forall_forall. intros v Hv. apply nth_error_In in Hsel. pose proof (choices_member _ _ _ _ Hsel Hv) as Hin.
          unfold u, first_numbers in Hin. apply in_map_iff in Hin. destruct Hin as (j & <- & Hj). apply in_seq in Hj.
          change (10 ^ 20)%Z with 100000000000000000000%Z. change (2 ^ 32)%Z with 4294967296%Z in Hb. lia. }
        cbn [bind app]. cbv zeta. pose proof (place_next Z.ltb As u Hs Hne k Hku _ _ _ P) as N.
        destruct (ci_next Z.ltb (ci_start k) s) as [[it' s']| |]; cbn [holds] in N; try contradiction. cbn [bind holds].
        set (line := right_align 4 "0" t ++ ascii_of_nat 9 :: separated (str " ") ts ++ [ascii_of_nat 10]).
        assert (NL : numbered_line (length ls) (sub s (0, k)) line).
        { exists t, ts. split; [exact F|]. split; [exact Fts|]. unfold line, right_align.
          destruct (4 <=? length t) eqn:E4.
          - apply Nat.leb_le in E4. replace (4 - length t) with 0 by lia. reflexivity.
          - now rewrite <- !app_assoc. }
        split.
        * exists (ls ++ [line]). rewrite app_length. cbn [length]. split; [now rewrite Nat.add_1_r|]. split.
          { unfold cast. change (lo t_ulong) with 0%Z. change (hi t_ulong - 0 + 1)%Z with (2 ^ 64)%Z. rewrite Z.mod_small by lia. lia. }
          split; [lia|]. split; [now rewrite concat_app; cbn [concat]; rewrite app_nil_r|].
          intros i c Hi Hc'. destruct (Nat.eq_dec i (length ls)) as [->|Hd].
          -- rewrite Hsel in Hc'. injection Hc' as <-. exists line. split; [|exact NL].
             rewrite nth_error_app2 by lia. now rewrite Nat.sub_diag.
          -- destruct (G i c ltac:(lia) Hc') as (l & Hl' & HL). exists l. split; [|exact HL]. rewrite nth_error_app1 by lia. exact Hl'.
        * unfold cast. change (lo t_ulong) with 0%Z. change (hi t_ulong - 0 + 1)%Z with (2 ^ 64)%Z. rewrite Z.mod_small by lia. lia.
      + destruct (P2 Hge) as (-> & -> & ->). cbn [holds]. exists ls. split; [reflexivity|]. split; [lia|].
        intros i c Hi. apply G; [|exact Hi]. apply Nat.lt_le_trans with (length cs); [|exact Hge]. apply nth_error_Some. congruence.
    - exists []. split; [now apply (place_start Z.ltb)|]. split; [reflexivity|]. split; [cbn; lia|]. split; [reflexivity|]. cbn. lia.
    - cbn. lia. }
  destruct (loop fuel _ _) as [out| |]; cbn [holds] in HH; try contradiction. destruct HH as (ls & -> & HH). eauto.
Qed.
