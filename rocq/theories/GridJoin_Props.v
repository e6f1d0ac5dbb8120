(* Property C110: joining rows and columns of a token_grid with a predicate. *)
From Verif Require Import Base Split_Model Split_Spec Parse_Spec Grid_Spec Grid_Model Grid_Rep Grid_Proofs Grid_Proofs2 Grid_Props
  GridJoin_Model GridJoin_Spec GridJoin_Proofs.
Local Open Scope nat_scope.

(* a row: tokens the predicate refuses count as empty texts *)
Theorem C110_join_row : forall p buf g rs i r d result, represents g rs -> within buf rs -> nth_error rs i = Some r -> S i < length rs ->
  join_row_if p buf g (N.of_nat i) d result = Ok (true, result ++ joined d (map (fun t => if p t then sub buf t else []) r)).
Proof. intros p buf g rs i r d result Hg Hw Hi Hl. rewrite (join_row_if_ok buf g rs Hg Hw p i r d result Hi). apply Nat.ltb_lt in Hl. now rewrite Hl. Qed.
Print Assumptions C110_join_row.

Example C110_join_row_example :
  on_grid (fun g => join_row_if (fun t => negb (fst t =? 2)) demo_text g 0 (str "-") (str ">")) = Ok (true, str ">a-c") /\
  on_grid (fun g => join_row_if (fun t => fst t <? 4) demo_text g 0 (str "-") []) = Ok (true, str "a-b-") /\
  on_grid (fun g => join_row_if (fun _ => true) demo_text g 0 (str "-") []) = on_grid (fun g => join_row demo_text g 0 (str "-") []).
Proof. repeat split. Qed.

(* the last row of the grid loses its last token *)
Theorem C110_last_row_refuted : forall p buf g rs r d result, represents g rs -> within buf rs -> nth_error rs (length rs - 1) = Some r ->
  join_row_if p buf g (N.of_nat (length rs - 1)) d result =
    Ok (true, result ++ joined d (map (fun t => if p t then sub buf t else []) (removelast r))).
Proof.
  intros p buf g rs r d result Hg Hw Hi. rewrite (join_row_if_ok buf g rs Hg Hw p _ r d result Hi). pose proof (nth_error_some_lt _ _ _ Hi).
  destruct (Nat.ltb_spec (S (length rs - 1)) (length rs)); [lia|reflexivity].
Qed.
Print Assumptions C110_last_row_refuted.

Example C110_last_row_example : on_grid (fun g => join_row_if (fun _ => true) demo_text g 2 (str "-") []) = Ok (true, []).
Proof. reflexivity. Qed.

Theorem C110_no_such_row : forall p buf g rs i d result, represents g rs -> length rs <= i ->
  join_row_if p buf g (N.of_nat i) d result = Ok (false, result).
Proof. intros. eapply join_row_if_bad; eassumption. Qed.
Print Assumptions C110_no_such_row.

Example C110_no_such_row_example : on_grid (fun g => join_row_if (fun _ => true) demo_text g 3 (str "-") (str "x")) = Ok (false, str "x").
Proof. reflexivity. Qed.

(* a column: the rows before the last of the range as with join_column; the text of the last row
   follows without a delimiter *)
Theorem C110_join_column : forall p buf g rs a b c d result, represents g rs -> within buf rs ->
  (N.of_nat c <= max_c g)%N -> a <= b -> b <= length rs ->
  join_column_if p buf g (N.of_nat c) (N.of_nat a, N.of_nat b) d result =
    Ok (true, result ++ joined d (picked (sub buf) (fun i => p (N.of_nat i)) c a (slice rs a (b - 1))) ++
              (if a <? b then concat (picked (sub buf) (fun i => p (N.of_nat i)) c (b - 1) (slice rs (b - 1) b)) else [])).
Proof. intros. now apply join_column_if_ok. Qed.
Print Assumptions C110_join_column.

Example C110_join_column_example :
  on_grid (fun g => join_column_if (fun _ _ => true) demo_text g 0 (all_rows g) (str "-") []) = Ok (true, str "a-dgh") /\
  on_grid (fun g => join_column_if (fun i _ => negb (i =? 1)%N) demo_text g 0 (all_rows g) (str "-") (str ">")) = Ok (true, str ">a-gh") /\
  on_grid (fun g => join_column_if (fun _ r => 3 <? length r) demo_text g 2 (0, 2)%N (str "-") []) = Ok (true, str "e").
Proof. repeat split. Qed.

(* so a predicate that accepts every row does not give what join_column gives *)
Theorem C110_accept_all_refuted : forall d, d <> [] -> exists buf g rs,
  represents g rs /\ within buf rs /\ counts_right g rs /\
  join_column buf g 0 (all_rows g) d [] = Ok (true, str "a" ++ d ++ str "b") /\
  join_column_if (fun _ _ => true) buf g 0 (all_rows g) d [] = Ok (true, str "ab").
Proof.
  intros d Hd. exists (str "a" ++ nl ++ str "b"), (Grid [(0,1); (3,4)] [(0,0)%N; (1,1)%N] 1 1), [[(0,1)]; [(3,4)]].
  assert (R : represents (Grid [(0,1); (3,4)] [(0,0)%N; (1,1)%N] 1 1) [[(0,1)]; [(3,4)]]).
  { split; [reflexivity|]. split; [reflexivity|]. split; [repeat constructor; discriminate|reflexivity]. }
  assert (W : within (str "a" ++ nl ++ str "b") [[(0,1)]; [(3,4)]]) by (repeat constructor; cbn; lia).
  split; [exact R|]. split; [exact W|]. split.
  - exists 1, 1. split; [reflexivity|]. split; [reflexivity|]. split; (split; [exists [(0,1)]; split; [now left|reflexivity]|]); intros r [<-|[<-|[]]]; cbn; lia.
  - split.
    + refine (eq_trans (C63_join_column _ _ _ 0 2 0 d [] R _ _ _) _); [cbn; lia|lia|cbn; lia|cbn; rewrite ?app_nil_r; reflexivity].
    + refine (eq_trans (C110_join_column _ _ _ _ 0 2 0 d [] R W _ _ _) _); [cbn; lia|lia|cbn; lia|reflexivity].
Qed.
Print Assumptions C110_accept_all_refuted.

Example C110_accept_all_example :
  on_grid (fun g => join_column demo_text g 0 (all_rows g) (str "-") []) = Ok (true, str "a-d-gh") /\
  on_grid (fun g => join_column_if (fun _ _ => true) demo_text g 0 (all_rows g) (str "-") []) = Ok (true, str "a-dgh").
Proof. split; reflexivity. Qed.

Theorem C110_no_such_column : forall p buf g rs a b c d result, represents g rs ->
  (max_c g < N.of_nat c)%N \/ b < a \/ length rs < b ->
  join_column_if p buf g (N.of_nat c) (N.of_nat a, N.of_nat b) d result = Ok (false, result).
Proof.
  intros p buf g rs a b c d result Hg H. unfold join_column_if. destruct (N.ltb_spec (max_c g) (N.of_nat c)) as [L|L]; [reflexivity|].
  rewrite (valid_rows _ _ Hg). destruct (Nat.leb_spec a b), (Nat.leb_spec b (length rs)); cbn; auto; lia.
Qed.
Print Assumptions C110_no_such_column.

Example C110_no_such_column_example :
  on_grid (fun g => join_column_if (fun _ _ => true) demo_text g 5 (all_rows g) (str "-") []) = Ok (false, []) /\
  on_grid (fun g => join_column_if (fun _ _ => true) demo_text g 0 (1, 4)%N (str "-") []) = Ok (false, []).
Proof. split; reflexivity. Qed.
