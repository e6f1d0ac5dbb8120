(* C111: column selectors as objects. *)
From Verif Require Import Base Split_Model Split_Spec Parse_Model Parse_Proofs KV_Spec KV_Props Csel_Model Csel_Spec Csel_Proofs.
Local Open Scope nat_scope.

(* for the examples: two variables, one column list (or none), room for selectors *)
Definition two_vars : list (option target) := [Some keep_text; Some keep_text].
Definition ready_world : cworld := CW two_vars [Some [0; 2]] [None; None; None].
Definition holding (x y : list ascii) : list (option target) := [Some (given keep_text x); Some (given keep_text y)].

(* C111.  One selector, made once and handed to split for every line, converts the
   chosen columns of every line; it never needs a reset.  bs: the parameters of split and
   of the functions it calls. *)
Theorem C111_lines : forall w a l bs cols is delims lines xss vars',
  nth_error (w_lists w) l = Some (Some cols) -> cols <> [] -> ascending cols -> length is = length cols ->
  bs <> [] -> NoDup (a :: bs) -> Forall (fun b => b < length (w_sels w)) (a :: bs) ->
  Forall2 (line_columns delims) lines xss -> converts (flat_map (shown cols is) xss) (w_vars w) vars' ->
  exists w1 w2, sel_make w a l is = Ok w1 /\ w_vars w1 = w_vars w /\
    split_lines w1 a bs delims lines = Ok w2 /\ w_vars w2 = vars' /\ w_lists w2 = w_lists w /\
    nth_error (w_sels w2) a = nth_error (w_sels w1) a /\
    (forall d, ~ In d (a :: bs) -> nth_error (w_sels w2) d = nth_error (w_sels w) d).
Proof.
  intros w a l bs cols is delims lines xss vars' Hl Hne Ha Hlen Hbs ND FL HL C.
  inversion FL as [|? ? La FL']; subst.
  destruct (make_ok w a l cols is Hl Hne Hlen La) as (w1 & E1 & V1 & L1 & Le1 & R1 & F1).
  destruct (lines_ok l cols is delims a bs Ha Hlen Hbs ND lines xss HL w1 vars' R1) as (w2 & E2 & V2 & L2 & Le2 & F2).
  - now rewrite Le1.
  - now rewrite V1.
  - exists w1, w2. split; [exact E1|]. split; [exact V1|]. split; [exact E2|]. split; [exact V2|]. split; [congruence|]. split.
    + apply F2. now inversion ND.
    + intros d Hd. rewrite F2, F1; auto; intros H; apply Hd; cbn [In]; auto.
Qed.
Print Assumptions C111_lines.
Example C111_ex_lines :
  (w <- sel_make ready_world 0 0 [0; 1] ;; w <- split_lines w 0 [1; 2] (str ",") [str "a,b,c,d"; str "x,y"; str "1,,2"] ;; Ok (w_vars w))
    = Ok (holding (str "1") (str "2")) /\
  flat_map (shown [0; 2] [0; 1]) [[str "a"; str "b"; str "c"; str "d"]; [str "x"; str "y"]]
    = [(0, str "a"); (1, str "c"); (0, str "x")].
Proof. split; vm_compute; reflexivity. Qed.

(* the specification is about every line: its columns exist and are unique *)
Theorem C111_columns : forall delims s, exists! xs, line_columns delims s xs.
Proof.
  intros delims s. destruct (Split_Proofs3.split_default_fields (fun c => existsb (fun d => Ascii.eqb d c) delims) s) as (toks & _ & H & _).
  exists (map (sub s) toks). split; [exists toks; auto|]. intros xs (toks' & H' & ->). now rewrite (tokens_unique _ _ _ _ _ _ H H').
Qed.
Print Assumptions C111_columns.
Example C111_ex_columns : line_columns (str ",;") (str "a;,b") [str "a"; []; str "b"].
Proof.
  exists [(0, 1); (2, 2); (3, 4)]. split; [|reflexivity].
  destruct (Split_Proofs3.split_default_fields (fun c => existsb (fun d => Ascii.eqb d c) (str ",;")) (str "a;,b")) as (toks & E & H & _).
  vm_compute in E. injection E as <-. exact H.
Qed.

(* A sequence of at least N elements gives its first N elements as variables; a shorter
   one is refused, and nothing is made. *)
Theorem C111_sequence : forall w a l cols is,
  nth_error (w_lists w) l = Some (Some cols) -> cols <> [] -> a < length (w_sels w) ->
  (length cols <= length is ->
     exists w1, sel_make_seq w a l is = Ok (Some w1) /\ sel_make w a l (firstn (length cols) is) = Ok w1) /\
  (length is < length cols -> sel_make_seq w a l is = Ok None).
Proof.
  intros w a l cols is Hl Hne La. unfold sel_make_seq. rewrite (live_some _ _ _ Hl). cbn [bind]. split; intros H.
  - rewrite (proj2 (Nat.leb_le _ _) H).
    destruct (make_ok w a l cols (firstn (length cols) is) Hl Hne (firstn_length_le _ H) La) as (w1 & E & _).
    exists w1. rewrite E. auto.
  - now rewrite (proj2 (Nat.leb_gt _ _) H).
Qed.
Print Assumptions C111_sequence.
Example C111_ex_sequence :
  sel_make_seq ready_world 0 0 [1] = Ok None /\
  (o <- sel_make_seq ready_world 0 0 [1; 0; 5] ;;
   match o with Some w => w <- split_lines w 0 [1] (str ",") [str "a,b,c"] ;; Ok (w_vars w) | None => UB end)
    = Ok (holding (str "c") (str "a")).
Proof. split; vm_compute; reflexivity. Qed.

(* Without the first line's column list - a temporary - the selector reads it after
   its end, as soon as the first of several columns has come. *)
Theorem C111_temporary_list_refuted : forall w a l c0 c1 cols i is x xs t b v,
  nth_error (w_lists w) l = Some (Some (c0 :: c1 :: cols)) -> length is = S (length cols) -> a < length (w_sels w) ->
  nth_error xs c0 = Some x -> nth_error (w_vars w) i = Some (Some t) -> t_conv t x (t_val t) = Ok (b, v) ->
  (w1 <- sel_make w a l (i :: is) ;; w2 <- list_end w1 l ;; sel_process_all w2 a xs) = UB.
Proof.
  intros w a l c0 c1 cols i is x xs t b v Hl Hlen La Hx Hv Hc.
  destruct (make_ok w a l (c0 :: c1 :: cols) (i :: is) Hl ltac:(discriminate) ltac:(cbn [length]; lia) La) as (w1 & E & V & Li & Le & R & _).
  rewrite E. cbn [bind]. unfold list_end. rewrite Li, wr_ok by (eapply nth_error_some_lt; eauto). cbn [bind].
  destruct R as (_ & s & r & Hs & Hr & Ps & Pr & Esl & Ecur & Ecol & Etgt). rewrite Hs in Hr. injection Hr as <-.
  destruct s as [sl sc st sk se sv]. cbn [so_values so_list so_current so_col so_target] in *. subst sl sc sk st. rewrite <- V in Hv. cbn [nth_error].
  assert (La1 : a < length (w_sels w1)) by (now rewrite Le).
  remember (upd (w_lists w) l None) as ls eqn:Els.
  assert (Hd : nth_error ls l = Some None) by (subst ls; apply nth_error_upd_same; eapply nth_error_some_lt; eauto).
  assert (G : forall n xs sels vars, a < length sels -> nth_error sels a = Some (Some (SelObj l n (Some c0) 0 se sv)) ->
             nth_error vars i = Some (Some t) -> n <= c0 -> nth_error xs (c0 - n) = Some x -> sel_process_all (CW vars ls sels) a xs = UB).
  2: { apply (G 0 xs (w_sels w1) (w_vars w1)); auto; [lia|]. now rewrite Nat.sub_0_r. }
  clear - Ps Hc Hd Hlen. intros n xs. revert n. induction xs as [|y xs IH]; intros n sels vars La Hs Hv Hn Hx.
  - destruct (c0 - n); discriminate.
  - cbn [sel_process_all]. unfold sel_process. cbn [w_sels]. rewrite (live_some _ _ _ Hs).
    cbn [bind so_target so_current so_col so_list so_errors so_values]. rewrite (proj2 (Nat.ltb_ge _ _) Hn).
    destruct (Nat.eqb_spec n c0) as [->|N].
    + rewrite Nat.sub_diag in Hx. cbn [nth_error] in Hx. injection Hx as ->. destruct Ps as [Ps1 Ps2]. destruct (Ps2 0 i eq_refl) as (f & Hf).
      rewrite (rd_nth _ _ _ Hf). cbn [bind]. unfold cv_call. cbn [cv_ptr w_sels w_vars w_lists]. rewrite (live_some _ _ _ Hs). cbn [bind so_values].
      rewrite (rd_nth _ _ _ Hf). cbn [bind cv_buf]. rewrite (live_some _ _ _ Hv). cbn [bind]. unfold run_target. rewrite Hc. cbn [bind].
      rewrite wr_ok by (eapply nth_error_some_lt; eauto). cbn [bind]. rewrite wr_ok by (rewrite Ps1; cbn [length]; lia). cbn [bind].
      rewrite upd_length, Ps1. cbn [length]. rewrite Hlen. cbn [Nat.ltb Nat.leb]. rewrite (live_none _ _ Hd). reflexivity.
    + rewrite set_sel_ok by exact La. cbn [bind w_vars w_lists w_sels]. apply (IH (S n)).
      * now rewrite upd_length.
      * now apply nth_error_upd_same.
      * exact Hv.
      * lia.
      * replace (c0 - n) with (S (c0 - S n)) in Hx by lia. exact Hx.
Qed.
Print Assumptions C111_temporary_list_refuted.
Example C111_ex_temporary_list :
  (w <- sel_make ready_world 0 0 [0; 1] ;; w <- list_end w 0 ;; sel_process_all w 0 [str "a"; str "b"; str "c"]) = UB.
Proof. vm_compute. reflexivity. Qed.

(* A copy that outlives the selector it was made from points to what is gone. *)
Theorem C111_surviving_copy_refuted : forall w a b l c0 cols is x xs,
  nth_error (w_lists w) l = Some (Some (c0 :: cols)) -> length is = S (length cols) ->
  a < length (w_sels w) -> b < length (w_sels w) -> a <> b -> nth_error xs c0 = Some x ->
  (w1 <- sel_make w a l is ;; w2 <- sel_copy w1 a b ;; w3 <- sel_end w2 a ;; sel_process_all w3 b xs) = UB.
Proof.
  intros w a b l c0 cols is x xs Hl Hlen La Lb Hab Hx.
  destruct (make_ok w a l (c0 :: cols) is Hl ltac:(discriminate) ltac:(cbn [length]; lia) La) as (w1 & E & V & Li & Le & R & _).
  rewrite E. cbn [bind]. destruct R as (_ & s & r & Hs & Hr & Ps & Pr & Esl & Ecur & Ecol & Etgt).
  rewrite (sel_copy_ok _ _ _ _ Hs) by (now rewrite Le). cbn [bind]. unfold sel_end. rewrite set_sel_ok by (cbn [w_sels]; rewrite upd_length; now rewrite Le).
  cbn [bind w_vars w_lists w_sels].
  destruct s as [sl sc st sk se sv]. cbn [so_values so_list so_current so_col so_target] in *. subst sl sc sk st. cbn [nth_error].
  assert (G : forall n xs sels vars lists, b < length sels -> nth_error sels a = Some None ->
             nth_error sels b = Some (Some (SelObj l n (Some c0) 0 se sv)) ->
             n <= c0 -> nth_error xs (c0 - n) = Some x -> sel_process_all (CW vars lists sels) b xs = UB).
  2: { apply (G 0 xs).
       - rewrite !upd_length, Le. exact Lb.
       - apply nth_error_upd_same. rewrite upd_length, Le. exact La.
       - rewrite nth_error_upd_other by auto. apply nth_error_upd_same. now rewrite Le.
       - lia.
       - now rewrite Nat.sub_0_r. }
  clear - Ps Hlen Hab. intros n xs. revert n. induction xs as [|y xs IH]; intros n sels vars lists Lb Ha Hs Hn Hx.
  - destruct (c0 - n); discriminate.
  - cbn [sel_process_all]. unfold sel_process. cbn [w_sels]. rewrite (live_some _ _ _ Hs).
    cbn [bind so_target so_current so_col so_list so_errors so_values]. rewrite (proj2 (Nat.ltb_ge _ _) Hn).
    destruct (Nat.eqb_spec n c0) as [->|N].
    + destruct Ps as [Ps1 Ps2]. destruct is as [|i is]; [discriminate|]. destruct (Ps2 0 i eq_refl) as (f & Hf).
      rewrite (rd_nth _ _ _ Hf). cbn [bind]. unfold cv_call. cbn [cv_ptr w_sels]. rewrite (live_none _ _ Ha). reflexivity.
    + rewrite set_sel_ok by exact Lb. cbn [bind w_vars w_lists w_sels]. apply (IH (S n)).
      * now rewrite upd_length.
      * now rewrite nth_error_upd_other by auto.
      * now apply nth_error_upd_same.
      * lia.
      * replace (c0 - n) with (S (c0 - S n)) in Hx by lia. exact Hx.
Qed.
Print Assumptions C111_surviving_copy_refuted.
Example C111_ex_surviving_copy :
  (w <- sel_make ready_world 0 0 [0; 1] ;; w <- sel_copy w 0 1 ;; w <- sel_end w 0 ;; sel_process_all w 1 [str "a"]) = UB /\
  (w <- sel_make ready_world 0 0 [0; 1] ;; w <- sel_copy w 0 1 ;; w <- sel_process_all w 1 [str "a"] ;; Ok (w_vars w)) = Ok (holding (str "a") (str "old")).
Proof. split; vm_compute; reflexivity. Qed.

(* The form *out++ = text works on a copy every time: the selector stays at its first
   column, so a first column 0 takes every text and any other none. *)
Theorem C111_post_increment_refuted : forall w a b l c0 cols i is xs vars',
  nth_error (w_lists w) l = Some (Some (c0 :: cols)) -> length is = length cols ->
  a < length (w_sels w) -> b < length (w_sels w) -> a <> b ->
  (if c0 =? 0 then converts (map (fun x => (i, x)) xs) (w_vars w) vars' else vars' = w_vars w) ->
  exists w2, (w1 <- sel_make w a l (i :: is) ;; sel_post_all w1 a b xs) = Ok w2 /\ w_vars w2 = vars'.
Proof.
  intros w a b l c0 cols i is xs vars' Hl Hlen La Lb Hab C.
  destruct (make_ok w a l (c0 :: cols) (i :: is) Hl ltac:(discriminate) ltac:(cbn [length]; lia) La) as (w1 & E & V & Li & Le & R & _).
  rewrite E. cbn [bind]. rewrite <- V in C. rewrite <- Le in La, Lb. clear E Le V. rewrite <- Li in Hl. clear Li w.
  destruct R as (_ & s & r & Hs & Hr & Ps & Pr & Esl & Ecur & Ecol & Etgt). rewrite Hs in Hr. injection Hr as <-.
  destruct s as [sl sc st sk se sv]. cbn [so_values so_list so_current so_col so_target] in *. subst sl sc sk st. cbn [nth_error] in Hs.
  destruct Ps as [Ps1 Ps2]. destruct (Ps2 0 i eq_refl) as (f & Hf). cbn [length] in Ps1.
  revert w1 C Hl Hs La Lb. induction xs as [|x xs IH]; intros w C Hl Hs La Lb.
  - exists w. split; [reflexivity|]. destruct (c0 =? 0); [now inversion C|now subst].
  - cbn [sel_post_all]. unfold sel_post_assign. rewrite (sel_copy_ok _ _ _ _ Hs Lb). cbn [bind].
    set (w1 := CW (w_vars w) (w_lists w) (upd (w_sels w) b (Some (SelObj l 0 (Some c0) 0 se sv)))).
    assert (Hb : nth_error (w_sels w1) b = Some (Some (SelObj l 0 (Some c0) 0 se sv))) by (apply nth_error_upd_same; exact Lb).
    assert (Hsa : nth_error (w_sels w1) a = Some (Some (SelObj l 0 (Some c0) 0 se sv))) by (cbn [w1 w_sels]; rewrite nth_error_upd_other by auto; exact Hs).
    assert (S1 : exists vars1 sb, sel_process w1 b x = Ok (CW vars1 (w_lists w) (upd (w_sels w1) b sb)) /\
                 if c0 =? 0 then converts (map (fun x => (i, x)) xs) vars1 vars' else vars' = vars1).
    { unfold sel_process. rewrite (live_some _ _ _ Hb). cbn [bind so_target so_current so_col so_list so_errors so_values].
      replace (c0 <? 0) with false by reflexivity. destruct c0 as [|c0].
      - cbn [Nat.eqb] in *. cbn [map] in C. inversion C as [|i0 x0 ps vars vars'0 t b' v Hv Hcv C' E1 E2 E3]; subst i0 x0 ps vars vars'0.
        rewrite (rd_nth _ _ _ Hf). cbn [bind]. unfold cv_call. cbn [cv_ptr]. rewrite (live_some _ _ _ Hsa). cbn [bind so_values].
        rewrite (rd_nth _ _ _ Hf). cbn [bind cv_buf]. change (w_vars w1) with (w_vars w). rewrite (live_some _ _ _ Hv). cbn [bind].
        unfold run_target. rewrite Hcv. cbn [bind]. rewrite wr_ok by (eapply nth_error_some_lt; eauto). cbn [bind]. rewrite wr_ok by lia. cbn [bind].
        rewrite upd_length, Ps1. change (w_lists w1) with (w_lists w).
        assert (T : exists tg, (if 1 <? S (length is) then cols0 <- live (w_lists w) l ;; c1 <- rd cols0 1 ;; Ok (Some c1) else Ok None) = Ok tg).
        { destruct cols as [|c1 cols]; destruct is as [|i1 is]; try discriminate.
          - exists None. reflexivity.
          - exists (Some c1). cbn [length Nat.ltb Nat.leb]. rewrite (live_some _ _ _ Hl). reflexivity. }
        destruct T as (tg & ->). cbn [bind]. rewrite set_sel_ok by (cbn [w_sels w1]; now rewrite upd_length).
        do 2 eexists. split; [reflexivity|]. exact C'.
      - cbn [Nat.eqb] in *. rewrite set_sel_ok by (cbn [w_sels w1]; now rewrite upd_length). do 2 eexists. split; [reflexivity|exact C]. }
    destruct S1 as (vars1 & sb & -> & C1). cbn [bind]. unfold sel_end.
    rewrite set_sel_ok by (cbn [w_sels w1]; rewrite !upd_length; exact Lb). cbn [bind w_vars w_lists w_sels w1].
    apply IH; cbn [w_vars w_lists w_sels]; auto.
    + now rewrite !nth_error_upd_other by auto.
    + now rewrite !upd_length.
    + now rewrite !upd_length.
Qed.
Print Assumptions C111_post_increment_refuted.
Example C111_ex_post_increment :
  (w <- sel_make ready_world 0 0 [0; 1] ;; w <- sel_post_all w 0 1 [str "a"; str "b"; str "c"] ;; Ok (w_vars w)) = Ok (holding (str "c") (str "old")) /\
  (w <- sel_make ready_world 0 0 [0; 1] ;; w <- sel_process_all w 0 [str "a"; str "b"; str "c"] ;; Ok (w_vars w)) = Ok (holding (str "a") (str "c")).
Proof. split; vm_compute; reflexivity. Qed.

(* A variable that has gone - an element of a sequence that has grown - is written to. *)
Theorem C111_moved_sequence_refuted : forall w a l cols i is x xs,
  nth_error (w_lists w) l = Some (Some (0 :: cols)) -> length is = length cols -> a < length (w_sels w) -> i < length (w_vars w) ->
  (w1 <- sel_make w a l (i :: is) ;; w2 <- var_end w1 i ;; sel_process_all w2 a (x :: xs)) = UB.
Proof.
  intros w a l cols i is x xs Hl Hlen La Hi.
  destruct (make_ok w a l (0 :: cols) (i :: is) Hl ltac:(discriminate) ltac:(cbn [length]; lia) La) as (w1 & E & V & Li & Le & R & _).
  rewrite E. cbn [bind]. unfold var_end. rewrite wr_ok by (now rewrite V). cbn [bind].
  destruct R as (_ & s & r & Hs & Hr & Ps & Pr & Esl & Ecur & Ecol & Etgt). rewrite Hs in Hr. injection Hr as <-.
  cbn [sel_process_all]. unfold sel_process. cbn [w_sels]. rewrite (live_some _ _ _ Hs). cbn [bind]. rewrite Etgt, Ecur, Ecol. cbn [nth_error Nat.ltb Nat.leb Nat.eqb].
  destruct Ps as [Ps1 Ps2]. destruct (Ps2 0 i eq_refl) as (f & Hf). rewrite (rd_nth _ _ _ Hf). cbn [bind]. unfold cv_call. cbn [cv_ptr w_sels w_vars].
  rewrite (live_some _ _ _ Hs). cbn [bind]. rewrite (rd_nth _ _ _ Hf). cbn [bind cv_buf]. rewrite live_none; [reflexivity|].
  apply nth_error_upd_same. now rewrite V.
Qed.
Print Assumptions C111_moved_sequence_refuted.
Example C111_ex_moved_sequence :
  (w <- sel_make ready_world 0 0 [1; 0] ;; w <- var_end w 1 ;; sel_process_all w 0 [str "a"]) = UB.
Proof. vm_compute. reflexivity. Qed.

(* Assigned to directly, a selector needs a reset between lines: with it, the chosen columns of
   every line are converted. *)
Theorem C111_reset : forall w a l cols is xss vars',
  nth_error (w_lists w) l = Some (Some cols) -> cols <> [] -> ascending cols -> length is = length cols -> a < length (w_sels w) ->
  converts (flat_map (shown cols is) xss) (w_vars w) vars' ->
  exists w1 w2, sel_make w a l is = Ok w1 /\ sel_reset_lines w1 a xss = Ok w2 /\ w_vars w2 = vars' /\ w_lists w2 = w_lists w /\
    (forall d, d <> a -> nth_error (w_sels w2) d = nth_error (w_sels w) d).
Proof.
  intros w a l cols is xss vars' Hl Hne Ha Hlen La C.
  destruct (make_ok w a l cols is Hl Hne Hlen La) as (w1 & E1 & V1 & L1 & _ & R1 & F1).
  destruct (reset_lines_ok l cols is a Ha Hne Hlen xss w1 vars' R1) as (w2 & E2 & V2 & L2 & F2); [now rewrite V1|].
  exists w1, w2. split; [exact E1|]. split; [exact E2|]. split; [exact V2|]. split; [congruence|]. intros d Hd. now rewrite F2, F1.
Qed.
Print Assumptions C111_reset.
Example C111_ex_reset :
  (w <- sel_make ready_world 0 0 [0; 1] ;; w <- sel_reset_lines w 0 [[str "a"; str "b"; str "c"]; [str "x"]; [str "1"; str "2"; str "3"; str "4"]] ;; Ok (w_vars w))
    = Ok (holding (str "1") (str "3")).
Proof. vm_compute. reflexivity. Qed.

(* not true: that it can do without.  The lines behind one that shows all the chosen columns
   change nothing *)
Theorem C111_no_reset_refuted : forall w a l cols is xs xss vars',
  nth_error (w_lists w) l = Some (Some cols) -> cols <> [] -> ascending cols -> length is = length cols -> a < length (w_sels w) ->
  Forall (fun c => c < length xs) cols -> converts (shown cols is xs) (w_vars w) vars' ->
  exists w1 w2, sel_make w a l is = Ok w1 /\ sel_process_all w1 a (concat (xs :: xss)) = Ok w2 /\ w_vars w2 = vars'.
Proof.
  intros w a l cols is xs xss vars' Hl Hne Ha Hlen La Hx C.
  destruct (make_ok w a l cols is Hl Hne Hlen La) as (w1 & E1 & V1 & L1 & _ & R1 & F1).
  destruct (process_all_ok a l cols is Ha Hlen (concat (xs :: xss)) w1 a 0 0 vars' R1) as (w2 & n & k & E2 & V2 & _); [apply Forall_forall; intros; lia| |].
  - cbn [skipn]. rewrite <- shown_zero. cbn [concat]. rewrite shown_longer by exact Hx. now rewrite V1.
  - exists w1, w2. auto.
Qed.
Print Assumptions C111_no_reset_refuted.
Example C111_ex_no_reset :
  (w <- sel_make ready_world 0 0 [0; 1] ;; w <- sel_process_all w 0 ([str "a"; str "b"; str "c"] ++ [str "1"; str "2"; str "3"]) ;; Ok (w_vars w))
    = Ok (holding (str "a") (str "c")).
Proof. vm_compute. reflexivity. Qed.

(* column_list builds the list of the given indices and touches nothing else *)
Theorem C111_list : forall w l cols, l < length (w_lists w) ->
  exists w', list_make w l cols = Ok w' /\ nth_error (w_lists w') l = Some (Some cols) /\ length (w_lists w') = length (w_lists w) /\
    (forall m, m <> l -> nth_error (w_lists w') m = nth_error (w_lists w) m) /\ w_vars w' = w_vars w /\ w_sels w' = w_sels w.
Proof.
  intros w l cols H. unfold list_make. rewrite wr_ok by exact H. cbn [bind]. eexists. split; [reflexivity|]. cbn [w_lists w_vars w_sels].
  split; [now apply nth_error_upd_same|]. split; [apply upd_length|]. split; [|auto]. intros m Hm. apply nth_error_upd_other. auto.
Qed.
Print Assumptions C111_list.
Example C111_ex_list : list_make (CW [] [None; Some [3]] []) 0 [1; 4] = Ok (CW [] [Some [1; 4]; Some [3]] []) /\
  list_make (CW [] [None; Some [3]] []) 2 [1; 4] = UB.
Proof. split; reflexivity. Qed.
