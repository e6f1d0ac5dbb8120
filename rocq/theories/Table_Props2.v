(* C133 and C134 for tables with unreadable or missing values and with NUL characters. *)
From Verif Require Import Base Split_Model Num_Model Num_Spec Text_Model Parse_Spec
  Grid_Spec Grid_Model Grid_Rep Grid_Proofs Grid_Proofs2 Grid_Props Table_Model Table_Spec Table_Proofs Table_Proofs2 Table_Props Table_Spec2 Table_Proofs3.
Local Open Scope nat_scope.

(* whatever the values are: a period one of whose values cannot be read ends the partition with false, the
   sums of the periods before it stay; a period whose rows have no values sums to nought *)
Theorem C133_unreadable : forall T (conv : list ascii -> option T) add nought rows times,
  table "," rows -> (N.of_nat (length (concat rows)) < 2 ^ 32)%N -> Forall2 (number_at 0 4294967295) rows times ->
  exists ranges, groups (fun i => nth i (period_starts 0 times) false) (length rows) 0 ranges /\
    bucket_sums conv add nought (table_text "," rows) = Ok (up_to_none (map (fun q => group_sum conv add nought (slice rows (fst q) (snd q))) ranges)).
Proof. intros T conv add nought rows times Ht Hs Hm. now apply bucket_sums_any. Qed.
Print Assumptions C133_unreadable.
Example C133_unreadable_ex : sums_of [("5", "1"); ("6", "2"); ("9", "x"); ("10", "8"); ("13", "16"); ("14", "32")]%string = Ok (false, [3]%Z) /\
  bucket_sums to_ullong Z.add 0%Z (table_text "," [map str ["5"; "1"]; map str ["6"]; map str ["9"]; map str ["10"]]%string) = Ok (true, [1; 0]%Z).
Proof. split; vm_compute; reflexivity. Qed.

(* a cell with a NUL is printed up to it *)
Theorem C134_nul : forall rows, loose_table "," rows -> (N.of_nat (length (concat rows)) < 2 ^ 32)%N ->
  exists shown, print_table (table_text "," rows) = Ok (bracketed shown) /\ map (@length _) shown = map (@length _) rows /\
    forall i j c, cell rows i j = Some c -> exists s a b r, cell shown i j = Some r /\ padded a b c s /\ before_nul s r /\ length s = width_of rows j /\
      (j <= 1 \/ i = 0 -> a <= b <= a + 1) /\ (1 < j -> 0 < i -> b = 0).
Proof.
  intros rows Ht Hs. eexists. split; [apply print_table_any; assumption|]. split.
  - rewrite map_mapi. assert (G : forall l k, mapi (fun i (x : list (list ascii)) => length (mapi (fun j c => c_string (show_cell (width_of rows j) i j c)) 0 x)) k l = map (@length _) l).
    { induction l as [|r l IH]; intros k; cbn [mapi map]; [reflexivity|]. now rewrite IH, mapi_length. }
    apply G.
  - intros i j c Hc. unfold cell in Hc. destruct (nth_error rows i) as [r|] eqn:Ei; [|discriminate].
    destruct (show_cell_ok (width_of rows j) i j c (width_bound _ _ _ _ _ Ei Hc)) as (a & b & Hp & Hl & Hab).
    exists (show_cell (width_of rows j) i j c), a, b, (c_string (show_cell (width_of rows j) i j c)). split; [|split; [exact Hp|split; [apply c_string_before|split; [exact Hl|]]]].
    + unfold cell. rewrite mapi_nth, Ei. cbn [option_map]. rewrite mapi_nth, Hc. reflexivity.
    + destruct (Nat.leb_spec j 1), (Nat.eqb_spec i 0); cbn [orb] in Hab; split; intros; try exact Hab; lia.
Qed.
Print Assumptions C134_nul.
Example C134_nul_ex : print_table (table_text "," [[str "ab" ++ [zero] ++ str "d"; str "e"]; [str "12345"; str "6"]]) =
  Ok (str "[ab] [e] " ++ [newline] ++ str "[12345] [6] " ++ [newline]) /\ before_nul (str "ab" ++ [zero] ++ str "d ") (str "ab").
Proof. split; [vm_compute; reflexivity|]. split; [intros [H|[H|[]]]; discriminate|]. right. exists (str "d "). reflexivity. Qed.
