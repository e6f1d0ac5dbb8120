(* C119: the statistics of the examples *)
From Verif Require Import Base Parse_Spec Parse_Model IO_Model IO_Spec IO_Proofs Stl_Model Scan_Spec Grid_Spec Real_Model Real_Spec Real_Float Period_Spec.
From Verif Require Import Numstats_Model Numstats_Spec Numstats_Proofs Stl_Props.
From Coq Require Import ZArith Floats.SpecFloat.
Local Open Scope nat_scope.

(* for the examples: whole numbers are written in decimal *)
Definition show_whole (x : spec_float) : list ascii := match truncate x with Some v => write_number (Z.to_N v) | None => str "?" end.
Definition whole (n : Z) : spec_float := b64 n 0.
Definition no_files : fsys := FSys (fun _ => None) (fun _ => false) (fun _ => false).
Definition lines (l : list (list ascii)) : list ascii := concat (map (fun x => x ++ [newline]) l).
(* tabs for readability *)
Definition tabbed (s : list ascii) : list ascii := map (fun c => if Ascii.eqb c "|" then ascii_of_nat 9 else c) s.

(* The statistics of the columns and the rows of the text read. *)
Theorem C119_output : forall show fs args input text rvals cvals,
  (args = [] /\ text = input \/ exists f, args = [f] /\ text = if can_open fs f then contents fs f else []) ->
  (N.of_nat (length text) < 2 ^ 32 - 1)%N -> Forall (Forall readable) (number_rows text) ->
  Forall2 (converted number) (number_rows text) rvals -> Forall2 (converted number) (number_columns text) cvals ->
  Forall (Forall (fun v => v <> S754_nan)) rvals ->
  exists t1 t2, numstats show fs args input = Ok (t1 ++ t2, 0) /\
    report_of show (str "C") 0 cvals t1 /\ report_of show (str "R") 0 rvals t2.
Proof.
  intros show fs args input text rvals cvals Ha Hs Hr Hrv Hcv Hn.
  assert (Hn' : Forall (Forall (fun y => is_nan y = false)) rvals).
  { eapply Forall_impl; [|exact Hn]. intros l Hl. eapply Forall_impl; [|exact Hl]. now intros [] H. }
  destruct (lines_exist text) as (ls & Hl). destruct (stats_ok show ls text rvals cvals Hl Hs Hr Hrv Hcv Hn') as (t1 & t2 & E & H1 & H2).
  exists t1, t2. split; [|auto]. assert (V : values_of Some ls ls true) by (rewrite <- (map_id ls) at 1; now apply values_all).
  destruct Ha as [[-> ->]|(f & -> & Et)].
  - cbn [numstats]. destruct (load_ok Some input ls ls true [] Hl V) as (n & st & L & _). rewrite L. cbn [bind app]. rewrite E. reflexivity.
  - cbn [numstats]. destruct (can_open fs f) eqn:O.
    + subst text. rewrite (C107_load_file _ _ _ Some fs f ls ls true [] Hl V), O. cbn [bind].
      assert (F : forall (l : list (list ascii)) a, fold_left (fun l x => l ++ [x]) l a = a ++ l).
      { induction l as [|x l IH]; intros a; cbn [fold_left]; [now rewrite app_nil_r|]. rewrite IH, <- app_assoc. reflexivity. }
      rewrite F. cbn [app]. rewrite E. reflexivity.
    + unfold load_from_file, ifstream. rewrite O. cbn [good negb bind]. subst text.
      assert (ls = []) by (inversion Hl; try congruence; match goal with H : _ ++ _ = [] |- _ => destruct (app_eq_nil _ _ H); discriminate end). subst ls.
      rewrite E. reflexivity.
Qed.
Print Assumptions C119_output.

(* the beginning of the example of the file, with a line of text and a cell that is no number *)
Definition sample : list ascii := lines [str "56,    62,   819"; []; str "total"; str "240,   x,   890"; str "2"].
Example C119_output_example :
  numstats show_whole no_files [] sample = Ok (tabbed (lines [str "C[0]|2|240|298|99|56|"; str "C[1]|62|62|62|62|62|"; str "C[2]|819|890|1709|854|890|";
    str "R[0]|56|819|937|312|62|"; str "R[2]|240|890|1130|565|890|"; str "R[3]|2|2|2|2|2|"]), 0) /\
  number_rows sample = [[str "56"; str "62"; str "819"]; [str "total"]; [str "240"; str "x"; str "890"]; [str "2"]] /\
  number_columns sample = [[str "56"; str "total"; str "240"; str "2"]; [str "62"; str "x"]; [str "819"; str "890"]].
Proof. vm_compute. auto. Qed.

(* the median is determined by the numbers, up to the sign of a zero *)
Theorem C119_median_unique : forall vs m m', Forall (fun v => v <> S754_nan) vs ->
  median SFltb vs m -> median SFltb vs m' -> SFltb m m' = false.
Proof.
  intros vs m m' Hn (_ & _ & H2) (_ & H1 & _). destruct (SFltb m m') eqn:E; [|reflexivity]. exfalso.
  assert (L : length vs <= length (filter (fun y => SFltb y m') vs) + length (filter (SFltb m) vs)); [|lia].
  clear H1 H2. induction Hn as [|v vs Hv _ IH]; cbn [length filter]; [lia|].
  assert (N : is_nan v = false) by (destruct v; congruence || reflexivity).
  destruct (ltb_split m v m' N E) as [->| ->]; [destruct (SFltb v m')|destruct (SFltb m v)]; cbn [length]; lia.
Qed.
Print Assumptions C119_median_unique.

Example C119_median_unique_example : median SFltb [whole 5; whole 1; whole 3] (whole 3) /\ ~ median SFltb [whole 5; whole 1; whole 3] (whole 5) /\
  median SFltb [S754_zero true; S754_zero false] (S754_zero true).
Proof. unfold median. vm_compute. repeat split; auto; try (intros (_ & H & _)); lia. Qed.

(* the sum of whole numbers is exact as long as it does not exceed 2^53 *)
Theorem C119_total : forall ns, Forall (fun n => 0 <= n)%Z ns -> (fold_right Z.add 0 ns <= 2 ^ 53)%Z ->
  total (map whole ns) = whole (fold_right Z.add 0 ns)%Z.
Proof.
  intros ns Hn Hs. unfold total.
  enough (G : forall a, (0 <= a)%Z -> (a + fold_right Z.add 0 ns <= 2 ^ 53)%Z -> fold_left (SFadd 53 1024) (map whole ns) (whole a) = whole (a + fold_right Z.add 0 ns)%Z)
    by (exact (G 0%Z ltac:(lia) Hs)).
  clear Hs. induction Hn as [|n ns Hn Hns IH]; intros a Ha Hs; cbn [map fold_left fold_right] in *; [now rewrite Z.add_0_r|].
  assert (0 <= fold_right Z.add 0 ns)%Z by (clear - Hns; induction Hns; cbn; lia).
  assert (E : SFadd 53 1024 (whole a) (whole n) = whole (a + n)).
  { assert (Xa := small_exact a ltac:(lia)). assert (Xn := small_exact n ltac:(lia)).
    destruct (Z.eq_dec (a + n) 0) as [Z|Z]; [replace a with 0%Z by lia; replace n with 0%Z by lia; reflexivity|].
    destruct (add_exact _ _ _ _ Xa Xn ltac:(lia)) as [E|[(_ & E2 & E)|(_ & E2 & E)]].
    - exact E.
    - unfold whole, b64. replace (a + n)%Z with n by lia. exact E.
    - unfold whole, b64. replace (a + n)%Z with a by lia. exact E. }
  rewrite E, IH by lia. f_equal. lia.
Qed.
Print Assumptions C119_total.

Example C119_total_example : total [whole 9007199254740000; whole 0; whole 992] = whole 9007199254740992 /\
  total [whole 9007199254740992; whole 1; whole 1] = whole 9007199254740992.
Proof. split; reflexivity. Qed.

Theorem C119_usage : forall show fs a b args input,
  numstats show fs (a :: b :: args) input = Ok (lines [str "usage: strtk_numstats <file name>"; str "usage: cat data.txt | strtk_numstats"], 1).
Proof. reflexivity. Qed.
Print Assumptions C119_usage.

Example C119_usage_example : lines [str "a"; str "b"] = str "a" ++ newline :: str "b" ++ [newline].
Proof. reflexivity. Qed.

(* with an even number of values the median is the larger of the two in the middle, not
   their mean *)
Theorem C119_even_median_refuted : numstats show_whole no_files [] (str "1 2 4 9") =
  Ok (tabbed (lines [str "C[0]|1|1|1|1|1|"; str "C[1]|2|2|2|2|2|"; str "C[2]|4|4|4|4|4|"; str "C[3]|9|9|9|9|9|"; str "R[0]|1|9|16|4|4|"]), 0).
Proof. vm_compute. reflexivity. Qed.
Print Assumptions C119_even_median_refuted.

(* an empty cell shifts the rest of its row to the left: the 30 is counted in column 1 *)
Theorem C119_empty_cell_refuted : numstats show_whole no_files [] (lines [str "1,2,3"; str "10,,30"]) =
  Ok (tabbed (lines [str "C[0]|1|10|11|5|10|"; str "C[1]|2|30|32|16|30|"; str "C[2]|3|3|3|3|3|"; str "R[0]|1|3|6|2|2|"; str "R[1]|10|30|40|20|30|"]), 0).
Proof. vm_compute. reflexivity. Qed.
Print Assumptions C119_empty_cell_refuted.

(* the text nan is taken for a number; beside two different numbers the behaviour of
   std::nth_element is undefined *)
Theorem C119_nan_refuted : forall show, numstats show no_files [] (str "1 2 nan") = UB.
Proof. intros show. vm_compute. reflexivity. Qed.
Print Assumptions C119_nan_refuted.
