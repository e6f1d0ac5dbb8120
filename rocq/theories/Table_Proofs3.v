(* The sums of periods with unreadable values, and printing cells with a NUL. *)
From Verif Require Import Base Split_Model Split_Spec Split_Proofs Split_Props Parse_Model Parse_Spec Parse_Proofs Parse_Proofs2 Num_Model Num_Spec Num_Proofs Num_Props Text_Model Text_Spec Text_Props
  Grid_Spec Grid_Model Grid_Rep Grid_Proofs Grid_Proofs2 Grid_Props Table_Model Table_Spec Table_Proofs Table_Proofs2 Table_Spec2.
Local Open Scope nat_scope.

Section Buckets.
Context {T : Type}.
Variables (conv : list ascii -> option T) (add : T -> T -> T) (nought : T).
Lemma all_taken : forall cells us, all_values conv cells = Some us -> taken conv cells true us.
Proof.
  intros cells us H. exists cells, []. split; [now rewrite app_nil_r|]. split; [|reflexivity]. revert us H.
  induction cells as [|c cells IH]; intros us H; cbn [all_values] in H; [now injection H as <-|].
  destruct (conv c) as [v|] eqn:Ec; [|discriminate]. destruct (all_values conv cells) as [vs|]; [|discriminate]. injection H as <-. cbn [map]. now rewrite Ec, (IH vs eq_refl).
Qed.
Lemma taken_all : forall cells us, map conv cells = map Some us -> all_values conv cells = Some us.
Proof.
  induction cells as [|c cells IH]; intros [|u us] H; cbn in H; try discriminate; [reflexivity|]. injection H as E H. cbn [all_values]. now rewrite E, (IH us H).
Qed.
Lemma bucket_sums_any rows times : table ","%char rows -> small (length (concat rows)) ->
  Forall2 (number_at 0 4294967295) rows times ->
  exists ranges, groups (fun i => nth i (period_starts 0 times) false) (length rows) 0 ranges /\
    bucket_sums conv add nought (table_text ","%char rows) = Ok (up_to_none (map (fun q => group_sum conv add nought (slice rows (fst q) (snd q))) ranges)).
Proof.
  intros Ht Hs Htm. destruct (load_cells (compressed (str ",")) (table_text ","%char rows) rows eq_refl) as (g & rs & E & Hg & Hc & Hw & Hm).
  - exact (cells_compressed ","%char rows comma_in Ht).
  - exact Hs.
  - assert (Hlen : length rs = length rows) by (rewrite <- Hm; now rewrite map_length).
    unfold bucket_sums. rewrite E. cbn [bind]. rewrite (all_rows_ok g rs Hg).
    set (h := fun (x : list T) (q : N * N) => match group_sum conv add nought (slice rows (N.to_nat (fst q)) (N.to_nat (snd q))) with Some v => (x ++ [v], true) | None => (x, false) end).
    pose proof (fun H1 H2 => stateful (tick (table_text ","%char rows)) (bucket conv add nought (table_text ","%char rows) g) h g rs (next_tick times)
      (fun i => nth i (period_starts 0 times) false) Hg H1 H2 []) as St. change (next_tick times 0) with 0%Z in St. rewrite St; clear St.
    + destruct (C63_sequential_partition (list T) (fun i _ => nth (N.to_nat i) (period_starts 0 times) false) h g rs 0 (length rs) [] Hg ltac:(lia) ltac:(lia)) as (ranges & ok & x' & -> & Hgr & Hca).
      exists ranges. rewrite <- Hlen. split.
      * assert (Hat : forall i, i < length rs -> at_row (fun i _ => nth (N.to_nat i) (period_starts 0 times) false) rs i = nth i (period_starts 0 times) false).
        { intros i Hi. unfold at_row. destruct (nth_error rs i) eqn:En; [now rewrite Nat2N.id|apply nth_error_None in En; lia]. }
        clear -Hgr Hat. induction Hgr as [|s Hs H|s e rest Hs H He (j & Hj & Hj') _ IH].
        -- constructor.
        -- constructor; [exact Hs|]. intros i Hi Hp j Hj. rewrite <- Hat by lia. apply (H i Hi); [|exact Hj]. rewrite Hat by lia. exact Hp.
        -- apply groups_cut; [exact Hs| | | |exact IH].
           ++ intros i Hi Hp k Hk. rewrite <- Hat by lia. apply (H i Hi); [|exact Hk]. rewrite Hat by lia. exact Hp.
           ++ rewrite <- Hat by lia. exact He.
           ++ exists j. split; [exact Hj|]. rewrite <- Hat by lia. exact Hj'.
      * assert (K : forall x, called (on_nat h) ranges x ok x' -> (ok, x') = (fst (up_to_none (map (fun q => group_sum conv add nought (slice rows (fst q) (snd q))) ranges)),
          x ++ snd (up_to_none (map (fun q => group_sum conv add nought (slice rows (fst q) (snd q))) ranges)))).
        { clear. induction ranges as [|q ranges IH]; intros x H; inversion H; subst; cbn [map].
          - cbn [up_to_none fst snd]. now rewrite app_nil_r.
          - match goal with Hx : on_nat h _ _ = _, Hy : called _ _ _ _ _ |- _ => unfold on_nat, h in Hx; cbn [fst snd] in Hx; rewrite !Nat2N.id in Hx; apply IH in Hy; rewrite Hy;
              destruct (group_sum conv add nought (slice rows (fst q) (snd q))) as [v|]; [injection Hx as <-|discriminate] end.
            cbn [up_to_none fst snd]. now rewrite <- app_assoc.
          - match goal with Hx : on_nat h _ _ = _ |- _ => unfold on_nat, h in Hx; cbn [fst snd] in Hx; rewrite !Nat2N.id in Hx;
              destruct (group_sum conv add nought (slice rows (fst q) (snd q))) as [v|]; [discriminate|injection Hx as <-] end.
            cbn [up_to_none fst snd]. now rewrite app_nil_r. }
        specialize (K [] Hca). injection K as -> ->. cbn [app]. now destruct (up_to_none _).
    + intros i r Hi. pose proof (map_nth_error (map (sub (table_text ","%char rows))) i rs Hi) as Hi'. rewrite Hm in Hi'.
      destruct (forall2_at _ _ _ Htm i _ Hi') as (t & Et & (c & Hc1 & Hc2 & Hc3)). rewrite nth_error_map in Hc1. unfold tick. unfold tok in *.
      destruct (nth_error r 0) as [tk|]; [|discriminate]. cbn in Hc1. injection Hc1 as <-.
      rewrite (proj2 (to_size_iff _ t) (conj Hc2 Hc3)). cbv beta. rewrite (mark_at times i 0%Z t Et). unfold next_tick. rewrite (firstn_S_at _ _ _ Et), fold_left_app. cbn [fold_left].
      set (nx := fold_left tick_after (firstn i times) 0%Z). unfold tick_after. destruct (nx <=? t)%Z eqn:El; [|reflexivity]. do 2 f_equal. apply Z.mod_small.
      assert (0 <= t)%Z. { destruct Hc2 as (sg & ds & _ & _ & Hd & ->). apply (dec_bounds ds). apply Hd. } lia.
    + intros x a b Hab. unfold bucket, h. cbn [fst snd]. rewrite !Nat2N.id. change 1%N with (N.of_nat 1).
      assert (H1 : (N.of_nat 1 <= max_c g)%N).
      { destruct rs as [|r rs']; [cbn in Hab; lia|]. apply (column_at_most g (r :: rs') r 1 Hc (or_introl eq_refl)).
        destruct Hg as (_ & _ & Hne & _). inversion Hne. destruct r; [congruence|cbn; lia]. }
      destruct (C63_accumulate_column T add (table_text ","%char rows) g rs conv a b 1 nought Hg H1 ltac:(lia) ltac:(lia)) as (ok & vs & -> & Htk). cbn [bind].
      rewrite <- column_map, <- slice_map, Hm in Htk. unfold group_sum. destruct (all_values conv (column (slice rows a b) 1)) as [us|] eqn:Eu.
      * destruct (taken_fun _ _ _ _ _ _ (all_taken _ _ Eu) Htk) as [<- <-]. rewrite (proj2 (N.eqb_neq _ _)) by lia. reflexivity.
      * destruct ok; [|reflexivity]. exfalso. destruct Htk as (done & rest & E1 & E2 & ->). rewrite app_nil_r in E1. rewrite E1 in Eu. rewrite (taken_all _ _ E2) in Eu. discriminate.
Qed.
End Buckets.

Lemma c_string_before s : before_nul s (c_string s).
Proof.
  induction s as [|c s (IH & D)]; cbn [c_string]; [split; [intros []|now left]|]. destruct (Ascii.eqb_spec c zero) as [->|Hn].
  - split; [intros []|]. right. now exists s.
  - split; [intros [H|H]; [congruence|exact (IH H)]|]. destruct D as [D|(rest & D)]; [left|right; exists rest]; cbn [app]; f_equal; exact D.
Qed.
Lemma print_table_any rows : loose_table ","%char rows -> small (length (concat rows)) ->
  print_table (table_text ","%char rows) = Ok (bracketed (mapi (fun i r => mapi (fun j c => c_string (show_cell (width_of rows j) i j c)) 0 r) 0 rows)).
Proof.
  intros Ht Hs. destruct (load_cells (separate (str ",")) (table_text ","%char rows) rows eq_refl) as (g & rs & E & Hg & Hc & Hw & Hm).
  - exact (cells_separate ","%char rows comma_in Ht).
  - exact Hs.
  - unfold print_table. rewrite E. cbn [bind]. destruct (C63_column_widths (table_text ","%char rows) g rs [] Hg Hc Hw) as (n & Hn & ->). cbn [bind app].
    rewrite (row_count_ok g rs Hg). set (text := table_text ","%char rows) in *.
    set (F := fun i (r : list tok) => concat (mapi (fun j t => "["%char :: c_string (show_cell (width_of rows j) i j (sub text t)) ++ [("]")%char; " "%char]) 0 r) ++ [newline]).
    assert (R : forall i r out, nth_error rs i = Some r -> 
      (rw <- row g (N.of_nat i) ;;
       out <- for_range 0 (r_size rw)
         (fun c out =>
            null <- is_null g rw c ;;
            w <- rd (map (fun c => list_max (map (@length ascii) (map (sub text) (column rs c)))) (seq 0 n)) (N.to_nat c) ;;
            t <- row_token g rw c ;;
            let cell :=
              if (null : bool) then repeat " "%char w
              else if (c <=? 1)%N || (N.of_nat i =? 0)%N then center w " " (sub text t)
              else right_align w " " (sub text t) in
            Ok (out ++ str "[" ++ c_string cell ++ str "] ")) out ;;
       Ok (out ++ [ascii_of_nat 10])) = Ok (out ++ F i r)).
    { intros i r out Hi. destruct (row_ok _ _ _ _ Hg Hi) as (rw & -> & _ & Hrow). cbn [bind]. pose proof Hrow as (Hsz & Hne & _ & Htk).
      rewrite Hsz. unfold for_range. change (N.to_nat 0) with 0. rewrite Nat.sub_0_r, Nat2N.id.
      rewrite (for_up_foldi _ (fun j out t => out ++ ("["%char :: c_string (show_cell (width_of rows j) i j (sub text t)) ++ [("]")%char; " "%char]))).
      - cbn [bind]. rewrite foldi_app, <- app_assoc. reflexivity.
      - intros j t st Hj. cbn [plus].
        assert (Hin : fst t <= snd t /\ snd t <= length text).
        { unfold within in Hw. rewrite Forall_forall in Hw. specialize (Hw r (nth_error_In _ _ Hi)). rewrite Forall_forall in Hw. apply Hw. eapply nth_error_In; eassumption. }
        rewrite (C62_is_null text g rw r j t Hrow Hj (proj1 Hin) (proj2 Hin)). cbn [bind]. rewrite Nat2N.id.
        assert (Hjn : j < n).
        { destruct rs as [|r0 rs']; [now destruct i|]. destruct Hc as (mn & mx & _ & Ex & _ & [_ Hmx]). rewrite Hn in Ex. apply Nat2N.inj in Ex. subst mx.
          specialize (Hmx r (nth_error_In _ _ Hi)). exact (Nat.lt_le_trans _ _ _ (nth_error_some_lt _ _ _ Hj) Hmx). }
        rewrite (rd_nth _ _ (width_of rows j)).
        2: { rewrite nth_error_map. assert (Es : nth_error (seq 0 n) j = Some j).
             { rewrite (nth_error_nth' _ 0) by (rewrite seq_length; lia). now rewrite seq_nth by lia. }
             rewrite Es. cbn [option_map]. unfold width_of. rewrite <- Hm at 1. rewrite column_map. reflexivity. }
        cbn [bind]. rewrite (Htk j t Hj). cbn [bind]. do 2 f_equal.
        assert (Hcell : nth_error rows i = Some (map (sub text) r)) by (pose proof (map_nth_error (map (sub text)) i rs Hi) as H; rewrite Hm in H; exact H).
        assert (Hcj : nth_error (map (sub text) r) j = Some (sub text t)) by (now apply map_nth_error).
        assert (Ecell : (if negb (nonempty (sub text t)) then repeat " "%char (width_of rows j)
              else if (N.of_nat j <=? 1)%N || (N.of_nat i =? 0)%N then center (width_of rows j) " " (sub text t)
              else right_align (width_of rows j) " " (sub text t)) = show_cell (width_of rows j) i j (sub text t)).
        { unfold show_cell. replace (N.of_nat j <=? 1)%N with (j <=? 1) by (destruct (Nat.leb_spec j 1), (N.leb_spec (N.of_nat j) 1); auto; lia).
          replace (N.of_nat i =? 0)%N with (i =? 0) by (destruct (Nat.eqb_spec i 0), (N.eqb_spec (N.of_nat i) 0); auto; lia). reflexivity. }
        now rewrite Ecell. }
    unfold for_range at 1. change (N.to_nat 0) with 0. rewrite Nat.sub_0_r, Nat2N.id.
    rewrite (for_up_foldi _ (fun i out r => out ++ F i r)) by (intros i r out Hi; exact (R i r out Hi)).
    f_equal. rewrite foldi_app. cbn [app]. unfold bracketed. f_equal. rewrite map_mapi. match goal with |- _ = mapi ?G 0 rows => transitivity (mapi G 0 (map (map (sub text)) rs)); [|now rewrite Hm] end.
    rewrite mapi_map. unfold F.
    assert (Ext : forall l k, mapi (fun i (r : list tok) => concat (mapi (fun j t => "["%char :: c_string (show_cell (width_of rows j) i j (sub text t)) ++ [("]")%char; " "%char]) 0 r) ++ [newline]) k l =
      mapi (fun i x => concat (map (fun c => "["%char :: c ++ [("]")%char; " "%char]) (mapi (fun j c => c_string (show_cell (width_of rows j) i j c)) 0 (map (sub text) x))) ++ [newline]) k l).
    { induction l as [|r l IH]; intros k; cbn [mapi]; [reflexivity|]. rewrite IH. f_equal. rewrite map_mapi, mapi_map. reflexivity. }
    apply Ext.
Qed.

