(* Property C42, continued: searches by character type, and for no elements at all. *)
From Verif Require Import Base Text_Model Text_Spec Text_Spec2 Text_Proofs Text_Props.
Local Open Scope nat_scope.

Theorem C42_types : forall t c, type_pred t c = true <->
  In c (match t with
        | digits => decimal_digits
        | letters => upper_letters ++ lower_letters
        | lowercase_letters => lower_letters
        | uppercase_letters => upper_letters
        | letters_digits => upper_letters ++ lower_letters ++ decimal_digits
        end).
Proof. intros t c. destruct (C65_character_classes c) as (H1 & H2 & H3 & H4 & H5 & _). destruct t; assumption. Qed.
Print Assumptions C42_types.

Example C42_types_example : type_pred letters "Q" = true /\ type_pred letters "4" = false /\ type_pred letters_digits "4" = true /\ type_pred digits "Q" = false.
Proof. vm_compute. auto. Qed.

Theorem C42_match_type : forall n t m s a, 1 <= n -> a <= length s -> (N.of_nat (length s) < 2 ^ 32)%N ->
  exists b, match_n_consecutive (N.of_nat n) t m s a = Ok b /\
    (b = true <-> match m with
                  | exactly_n => window (type_pred t) s n a
                  | atleast_n => exists k, n <= k /\ a + k < length s /\ window (type_pred t) s k a /\ ~ sat (type_pred t) s (a + k)
                  end).
Proof.
  intros n t m s a Hn Ha Hl. destruct m.
  - exact (C42_match_exactly ascii (type_pred t) n s a Hn Ha Hl).
  - exact (C42_match_atleast ascii (type_pred t) n s a Ha Hl).
Qed.
Print Assumptions C42_match_type.

Example C42_match_type_example : match_n_consecutive 2 letters exactly_n (str "abc1") 0 = Ok true /\ match_n_consecutive 4 letters atleast_n (str "abc1") 0 = Ok false /\
  match_n_consecutive 4 letters_digits exactly_n (str "abc1") 0 = Ok true /\ match_n_consecutive 4 letters_digits atleast_n (str "abc1") 0 = Ok false.
Proof. vm_compute. auto. Qed.

(* asked for no elements, where every place qualifies, the exact searches find nothing: the
   remaining count is decremented below zero *)
Theorem C42_zero_refuted : forall (A : Type) (p : A -> bool) s a, a <= length s -> (N.of_nat (length s) < 2 ^ 64 - 1)%N ->
  window p s 0 a /\ find_exactly_n p 0 s a false = Ok (length s, length s) /\ match_exactly_n p 0 s a = Ok false.
Proof.
  intros A p s a Ha Hl. split; [intros j Hj; lia|].
  assert (Hd : forall i c, i < length s -> c = 0%N \/ (2 ^ 64 <= c + 1 + N.of_nat i)%N -> (2 ^ 64 <= dec64 c + 1 + N.of_nat i + 1)%N /\ (dec64 c =? 0)%N = false).
  { intros i c Hi [->|H]; unfold dec64; [cbn [N.eqb]; split; [lia|reflexivity]|]. destruct (N.eqb_spec c 0); [lia|]. split; [lia|]. apply N.eqb_neq. lia. }
  split.
  - unfold find_exactly_n. destruct (N.ltb_spec (distance32 s a) 0); [lia|]. apply holds_eq.
    apply loop_rule with (I := fun '(itr, count) => itr <= length s /\ (count = 0 \/ 2 ^ 64 <= count + 1 + N.of_nat itr)%N) (mu := fun '(itr, _) => length s - itr).
    + intros [itr count] (Hi & Hc). destruct (Nat.eqb_spec itr (length s)) as [->|Hne]; [reflexivity|].
      destruct (rd_ok s itr ltac:(lia)) as (x & E & _). rewrite E. cbn [bind]. destruct (p x).
      * destruct (Hd itr count ltac:(lia) Hc) as (D1 & D2). cbv zeta. rewrite D2. cbn [negb holds]. split; [|lia]. split; [lia|]. right. lia.
      * apply holds_bind. eapply holds_weaken; [apply skip_not_ok; lia|]. intros i' (H1 & _). cbn [negb holds]. split; [|lia]. split; [lia|]. now left.
    + split; [exact Ha|]. now left.
    + lia.
  - unfold match_exactly_n. destruct (N.ltb_spec (distance32 s a) 0); [lia|]. apply holds_eq.
    apply loop_rule with (I := fun '(itr, count) => itr <= length s /\ (count = 0 \/ 2 ^ 64 <= count + 1 + N.of_nat itr)%N) (mu := fun '(itr, _) => length s - itr).
    + intros [itr count] (Hi & Hc). destruct (Nat.eqb_spec itr (length s)) as [->|Hne]; [reflexivity|].
      destruct (rd_ok s itr ltac:(lia)) as (x & E & _). rewrite E. cbn [bind]. destruct (p x); [|reflexivity].
      destruct (Hd itr count ltac:(lia) Hc) as (D1 & D2). cbv zeta. rewrite D2. cbn [negb holds]. split; [|lia]. split; [lia|]. right. lia.
    + split; [exact Ha|]. now left.
    + lia.
Qed.
Print Assumptions C42_zero_refuted.

Example C42_zero_example : find_exactly_n is_digit 0 (str "12a") 0 false = Ok (3, 3) /\ match_exactly_n is_digit 0 (str "12a") 0 = Ok false.
Proof. vm_compute. auto. Qed.
