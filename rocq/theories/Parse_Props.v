(* Parsing into variables and containers, joining, constructing and the small text builders. *)
From Verif Require Import Base Split_Model Split_Spec Split_Props Num_Model Num_Spec Parse_Model Parse_Spec Parse_Proofs Parse_Proofs2 Parse_Proofs3.
Local Open Scope nat_scope.

(* what the examples work with *)
Lemma tokens_by_split d s toks n : split (is_delim d) s 1 = Ok (toks, n) -> compressed_tokens d s (map (sub s) toks).
Proof.
  intros E. destruct (C02_split_compress _ (is_delim d) s) as (toks' & E' & H & _). rewrite E in E'. injection E' as -> _.
  exists toks'. auto.
Qed.
Definition ti (v : Z) := Target Z (conv_signed t_int n_int) v.
Definition tu (v : Z) := Target Z (conv_unsigned t_uint n_uint) v.
Definition tstr (s : list ascii) := Target (list ascii) conv_string s.
(* the integer converter satisfies the hypothesis *)
Definition ushort_of (x : list ascii) : option Z :=
  match parse_unsigned t_ushort n_ushort x with Ok o => o | _ => None end.
Lemma ushort_behaves d x : behaves (conv_unsigned t_ushort n_ushort) d ushort_of x.
Proof.
  unfold behaves, ushort_of, conv_unsigned. destruct (proj1 (proj1 (Num_Props.C18_unsigned_exact x))) as (o & E).
  rewrite E. cbn [bind]. destruct o as [v|]; [reflexivity|exists d; reflexivity].
Qed.

(* ---- C06 ---- *)
(* every text has exactly one list of compressed tokens *)
Theorem C06_tokens_exist_unique : forall delims s, exists texts, compressed_tokens delims s texts /\
  forall other, compressed_tokens delims s other -> other = texts.
Proof.
  intros delims s. destruct (compressed_exists delims s) as (texts & H). exists texts. split; auto.
  intros other Ho. eapply compressed_unique; eauto.
Qed.
Print Assumptions C06_tokens_exist_unique.

Example C06_ex_tokens : compressed_tokens (str ",;") (str "12,;-7,abc") [str "12"; str "-7"; str "abc"].
Proof. exact (tokens_by_split (str ",;") (str "12,;-7,abc") [(0,2); (4,6); (7,10)] 3 eq_refl). Qed.

Theorem C06_too_few_tokens : forall delims s ts texts, compressed_tokens delims s texts ->
  length texts < length ts -> parse_values delims s ts = Ok (false, ts).
Proof.
  intros delims s ts texts Hc Hl. apply (parse_values_iff _ _ _ _ _ _ Hc).
  replace (length texts <? length ts) with true by (symmetry; apply Nat.ltb_lt; lia). auto.
Qed.
Print Assumptions C06_too_few_tokens.

Example C06_ex_too_few : parse_values (str ",") (str "12,,7") [ti 0; ti 1; ti 2] = Ok (false, [ti 0; ti 1; ti 2]).
Proof. reflexivity. Qed.

Theorem C06_success : forall delims s ts texts ts', compressed_tokens delims s texts -> length ts <= length texts ->
  (parse_values delims s ts = Ok (true, ts') <->
   length ts' = length ts /\
   forall i t x, nth_error ts i = Some t -> nth_error texts i = Some x ->
     exists v, t_conv t x (t_val t) = Ok (true, v) /\ nth_error ts' i = Some (with_value t v)).
Proof.
  intros delims s ts texts ts' Hc Hl. rewrite (parse_values_iff _ _ _ _ _ _ Hc).
  replace (length texts <? length ts) with false by (symmetry; apply Nat.ltb_ge; lia). now apply results_true_iff.
Qed.
Print Assumptions C06_success.

Example C06_ex_success : parse_values (str ",;") (str "12,;4000000000") [ti 0; tu 0] = Ok (true, [ti 12; tu 4000000000]) /\
  conv_signed t_int n_int (str "12") 0%Z = Ok (true, 12%Z) /\ conv_unsigned t_uint n_uint (str "4000000000") 0%Z = Ok (true, 4000000000%Z).
Proof. repeat split; reflexivity. Qed.

(* targets before the first failing one hold their values; those behind it are as they were *)
Theorem C06_failure : forall delims s ts texts ts', compressed_tokens delims s texts -> length ts <= length texts ->
  (parse_values delims s ts = Ok (false, ts') <->
   exists j, length ts' = length ts /\
    (exists t x v, nth_error ts j = Some t /\ nth_error texts j = Some x /\ t_conv t x (t_val t) = Ok (false, v) /\
       nth_error ts' j = Some (with_value t v)) /\
    (forall i t x, i < j -> nth_error ts i = Some t -> nth_error texts i = Some x ->
      exists v, t_conv t x (t_val t) = Ok (true, v) /\ nth_error ts' i = Some (with_value t v)) /\
    (forall i, j < i -> nth_error ts' i = nth_error ts i)).
Proof.
  intros delims s ts texts ts' Hc Hl. rewrite (parse_values_iff _ _ _ _ _ _ Hc).
  replace (length texts <? length ts) with false by (symmetry; apply Nat.ltb_ge; lia). now apply results_false_iff.
Qed.
Print Assumptions C06_failure.

Example C06_ex_failure : parse_values (str ",") (str "12,4000000000,5") [ti 0; ti 1; ti 2] = Ok (false, [ti 12; ti 1; ti 2]) /\
  conv_signed t_int n_int (str "4000000000") 1%Z = Ok (false, 1%Z).
Proof. repeat split; reflexivity. Qed.

(* parse itself adds no undefined behaviour: it returns whenever the conversions do *)
Theorem C06_total : forall delims s ts texts, compressed_tokens delims s texts ->
  (forall i t x, nth_error ts i = Some t -> nth_error texts i = Some x -> exists r, t_conv t x (t_val t) = Ok r) ->
  exists b ts', parse_values delims s ts = Ok (b, ts').
Proof.
  intros delims s ts texts Hc H.
  destruct (Nat.ltb_spec (length texts) (length ts)) as [Hl|Hl].
  - exists false, ts. eapply C06_too_few_tokens; eauto.
  - destruct (results_total ts texts Hl) as (b & ts' & Hr).
    { exact H. }
    exists b, ts'. apply (parse_values_iff _ _ _ _ _ _ Hc).
    now replace (length texts <? length ts) with false by (symmetry; apply Nat.ltb_ge; lia).
Qed.
Print Assumptions C06_total.

(* a converter that goes wrong on one text *)
Example C06_ex_total : let t := Target unit (fun x _ => if list_eq_dec ascii_dec x (str "!") then UB else Ok (true, tt)) tt in
  parse_values (str ",") (str "a,b") [t; t] = Ok (true, [t; t]) /\ parse_values (str ",") (str "a,!") [t; t] = UB.
Proof. repeat split; reflexivity. Qed.

(* the converters of the built-in types leave the target alone when they fail, so
   with them the failing target keeps its value too *)
Theorem C06_failing_target_keeps_value : forall delims s ts texts ts',
  compressed_tokens delims s texts -> length ts <= length texts ->
  (forall t, In t ts -> keeps (t_conv t)) ->
  parse_values delims s ts = Ok (false, ts') ->
  exists j, j < length ts /\ forall i, j <= i -> nth_error ts' i = nth_error ts i.
Proof.
  intros delims s ts texts ts' Hc Hl Hk H. apply (C06_failure _ _ _ _ _ Hc Hl) in H.
  destruct H as (j & Hlen & (t & x & v & E1 & E2 & E3 & E4) & _ & H4). exists j.
  split; [eapply nth_error_some_lt; eauto|]. intros i Hi.
  destruct (Nat.eq_dec i j) as [->|Hne]; [|apply H4; lia].
  rewrite E4, E1. rewrite (Hk t (nth_error_In _ _ E1) _ _ _ E3). now rewrite target_eta.
Qed.
Print Assumptions C06_failing_target_keeps_value.

Example C06_ex_keeps : parse_values (str ",") (str "12,x,5") [tstr []; ti 44; ti 2] = Ok (false, [tstr (str "12"); ti 44; ti 2]).
Proof. reflexivity. Qed.
Theorem C06_builtin_converters_keep : forall T n,
  keeps (conv_unsigned T n) /\ keeps (conv_signed T n) /\ keeps conv_byte /\ keeps conv_bool /\ keeps conv_string.
Proof. repeat split; [apply keeps_unsigned|apply keeps_signed|exact keeps_byte|exact keeps_bool|exact keeps_string]. Qed.
Print Assumptions C06_builtin_converters_keep.

(* a converter that does not *)
Example C06_ex_not_keeps : ~ keeps (fun (_ : list ascii) (t : nat) => Ok (false, S t)).
Proof. intros H. discriminate (H [] 0 1 eq_refl). Qed.
(* what the simple types convert: one character, any one character ('0' for false), any
   text, anything without looking at it *)
Theorem C06_simple_converters : forall x,
  (forall t b v, conv_byte x t = Ok (b, v) <-> (b = true /\ x = [v]) \/ (b = false /\ v = t /\ length x <> 1)) /\
  (forall t b v, conv_bool x t = Ok (b, v) <->
     (b = true /\ exists c, x = [c] /\ (v = false <-> c = "0"%char)) \/ (b = false /\ v = t /\ length x <> 1)) /\
  (forall t, conv_string x t = Ok (true, x)) /\ (forall t, conv_ignore x t = Ok (true, t)).
Proof.
  intros x. split; [|split; [|split; reflexivity]].
  - intros t b v. unfold conv_byte. destruct x as [|c [|c' x]]; cbn [length]; split.
    + intros H. injection H as <- <-. right. repeat split; discriminate.
    + intros [(_ & H)|(-> & -> & _)]; [discriminate|reflexivity].
    + intros H. injection H as <- <-. left. split; reflexivity.
    + intros [(-> & H)|(_ & _ & H)]; [now injection H as ->|now elim H].
    + intros H. injection H as <- <-. right. repeat split; discriminate.
    + intros [(_ & H)|(-> & -> & _)]; [discriminate|reflexivity].
  - intros t b v. unfold conv_bool. destruct x as [|c [|c' x]]; cbn [length]; split.
    + intros H. injection H as <- <-. right. repeat split; discriminate.
    + intros [(_ & c & H & _)|(-> & -> & _)]; [discriminate|reflexivity].
    + intros H. injection H as <- <-. left. split; [reflexivity|]. exists c. split; [reflexivity|].
      destruct (Ascii.eqb_spec c "0"%char) as [->|Hc]; cbn [negb]; split; congruence.
    + intros [(-> & c0 & H & H2)|(_ & _ & H)]; [|now elim H]. injection H as ->.
      do 2 f_equal. destruct (Ascii.eqb_spec c0 "0"%char) as [->|Hc]; cbn [negb].
      * symmetry. now apply H2.
      * destruct v; [reflexivity|]. elim Hc. now apply H2.
    + intros H. injection H as <- <-. right. repeat split; discriminate.
    + intros [(_ & c0 & H & _)|(-> & -> & _)]; [discriminate|reflexivity].
Qed.
Print Assumptions C06_simple_converters.
Example C06_simple_ex : conv_byte (str "x") "a"%char = Ok (true, "x"%char) /\ conv_byte (str "xy") "a"%char = Ok (false, "a"%char) /\
  conv_bool (str "t") false = Ok (true, true) /\ conv_bool (str "0") true = Ok (true, false) /\ conv_bool (str "true") false = Ok (false, false).
Proof. repeat split. Qed.

Example C06_ex_ok : parse_values (str ",;") (str "12,;-7,abc,rest") [ti 0; ti 0; tstr []] =
  Ok (true, [ti 12; ti (-7); tstr (str "abc")]).
Proof. reflexivity. Qed.
Example C06_ex_fail : parse_values (str ",") (str "12,x7,5") [ti 0; ti 1; ti 2] = Ok (false, [ti 12; ti 1; ti 2]).
Proof. reflexivity. Qed.
Example C06_ex_few : parse_values (str ",") (str "12,7") [ti 0; ti 1; ti 2] = Ok (false, [ti 0; ti 1; ti 2]).
Proof. reflexivity. Qed.
(* a leading delimiter makes an empty first token even though delimiters are compressed *)
Example C06_ex_leading : parse_values (str ",") (str ",12") [ti 5] = Ok (false, [ti 5]).
Proof. reflexivity. Qed.

(* ---- C07 ---- *)
(* [ok] says which token texts convert, and to what *)
Theorem C07_container : forall T C conv (d : T) (add : C -> T -> C) ok delims s opt c toks,
  tokens_of (is_delim delims) s (spec_tok_end opt) (spec_next_start opt) toks ->
  Forall (fun r => behaves conv d ok (sub s r)) toks ->
  exists vs, converted ok (map (sub s) toks) vs /\
    parse_container conv d add delims s opt c = Ok (fold_left add vs c, length toks).
Proof. intros. now apply parse_container_ok. Qed.
Print Assumptions C07_container.

(* into a set: a container that keeps one copy of each value *)
Example C07_ex_set : parse_container (conv_unsigned t_ushort n_ushort) 0%Z (fun c v => if existsb (Z.eqb v) c then c else c ++ [v])
  (str ",") (str "3,1,x,3,1,2") 0 [1%Z] = Ok ([1; 3; 2]%Z, 6).
Proof. vm_compute. reflexivity. Qed.

(* with push_back: earlier content first, then the values *)
Theorem C07_sequence : forall T conv (d : T) ok delims s opt c toks,
  tokens_of (is_delim delims) s (spec_tok_end opt) (spec_next_start opt) toks ->
  Forall (fun r => behaves conv d ok (sub s r)) toks ->
  exists vs, converted ok (map (sub s) toks) vs /\
    parse_container conv d (fun c v => c ++ [v]) delims s opt c = Ok (c ++ vs, length toks).
Proof.
  intros T conv d ok delims s opt c toks Ht Hb.
  destruct (parse_container_ok conv d (fun c v => c ++ [v]) ok delims s opt c toks Ht Hb) as (vs & H1 & H2).
  exists vs. split; [exact H1|]. rewrite H2. f_equal. f_equal.
  clear. revert c. induction vs as [|v vs IH]; intros c; cbn [fold_left]; [now rewrite app_nil_r|].
  rewrite IH, <- app_assoc. reflexivity.
Qed.
Print Assumptions C07_sequence.

Example C07_ex_sequence : (forall x, behaves (conv_unsigned t_ushort n_ushort) 0%Z ushort_of x) /\
  parse_container (conv_unsigned t_ushort n_ushort) 0%Z (fun c v => c ++ [v]) (str ",") (str "1,x,,70000,3") 1 [9%Z] = Ok ([9; 1; 3]%Z, 4).
Proof. split; [apply ushort_behaves|vm_compute; reflexivity]. Qed.

(* parse_n stops after n tokens and returns how much the container grew; under every option but
   include-all without include-first, where split_n differs (C05_include_all_refuted) *)
Theorem C07_sequence_n : forall T conv (d : T) ok delims s n opt c toks,
  (has_bit opt 2 = true -> has_bit opt 1 = true) ->
  tokens_of (is_delim delims) s (spec_tok_end opt) (spec_next_start opt) toks ->
  Forall (fun r => behaves conv d ok (sub s r)) (firstn n toks) ->
  exists vs, converted ok (map (sub s) (firstn n toks)) vs /\
    parse_n_container conv d (fun c v => c ++ [v]) (@length T) delims s n opt c = Ok (c ++ vs, length vs).
Proof.
  intros T conv d ok delims s n opt c toks Ho Ht Hb.
  destruct (parse_n_container_ok conv d (fun c v => c ++ [v]) ok (@length T) delims s n opt c toks Ho Ht Hb) as (vs & H1 & H2).
  assert (E : fold_left (fun c v => c ++ [v]) vs c = c ++ vs).
  { clear. revert c. induction vs as [|v vs IH]; intros c; cbn [fold_left]; [now rewrite app_nil_r|].
    rewrite IH, <- app_assoc. reflexivity. }
  exists vs. split; [exact H1|]. rewrite H2, E. f_equal. f_equal. rewrite app_length. lia.
Qed.
Print Assumptions C07_sequence_n.

Example C07_ex_sequence_n : parse_n_container (conv_unsigned t_ushort n_ushort) 0%Z (fun c v => c ++ [v]) (@length Z) (str ",") (str "1,x,,70000,3") 4 1 [9%Z]
  = Ok ([9; 1; 3]%Z, 2).
Proof. vm_compute. reflexivity. Qed.

Theorem C07_sequence_n_refuted : exists toks vs,
  tokens_of (is_delim (str ",")) (str "a,,b") (spec_tok_end 4) (spec_next_start 4) toks /\
  converted (fun x => Some x) (map (sub (str "a,,b")) (firstn 2 toks)) vs /\
  parse_n_container (fun x _ => Ok (true, x)) [] (fun c v => c ++ [v]) (@length (list ascii)) (str ",") (str "a,,b") 2 4 [] <> Ok (vs, length vs).
Proof.
  destruct (split_toks (str ",") (str "a,,b") 4) as (toks & E & H). vm_compute in E.
  assert (toks = [(0, 3); (3, 4)]) by congruence. subst toks. clear E.
  exists [(0, 3); (3, 4)], [str "a,,"; str "b"]. split; [exact H|]. split; [repeat constructor|]. vm_compute. discriminate.
Qed.
Print Assumptions C07_sequence_n_refuted.

Example C07_sequence_n_refuted_example :
  parse_n_container (fun x _ => Ok (true, x)) [] (fun c v => c ++ [v]) (@length (list ascii)) (str ",") (str "a,,b") 2 4 [] = Ok ([str "a,"; str ","], 2).
Proof. vm_compute. reflexivity. Qed.

(* the converted values are determined by the tokens *)
Theorem C07_converted_unique : forall T (ok : list ascii -> option T) xs vs ws,
  converted ok xs vs -> converted ok xs ws -> vs = ws.
Proof.
  intros T ok xs vs ws H. revert ws. induction H as [|x v xs vs E _ IH|x xs vs E _ IH]; intros ws Hw; inversion Hw; subst; try congruence.
  - f_equal; [congruence|auto].
  - auto.
Qed.
Print Assumptions C07_converted_unique.

Example C07_ex_converted : converted ushort_of [str "1"; str "x"; str "70000"; str "3"] [1; 3]%Z.
Proof.
  apply conv_take; [vm_compute; reflexivity|]. apply conv_skip; [vm_compute; reflexivity|]. apply conv_skip; [vm_compute; reflexivity|].
  apply conv_take; [vm_compute; reflexivity|]. apply conv_none.
Qed.

(* variables first, the remaining tokens into a container: stops at the first token that
   does not convert, which makes the result false *)
Theorem C07_values_then_rest : forall T C conv (d : T) (add : C -> T -> C) ok delims s ts c texts,
  compressed_tokens delims s texts ->
  (length texts < S (length ts) -> parse_values_rest conv d add delims s ts c = Ok (false, ts, c)) /\
  (length ts < length texts -> forall ts', parse_values delims s ts = Ok (true, ts') ->
     Forall (behaves conv d ok) (skipn (length ts) texts) ->
     exists vs, parse_values_rest conv d add delims s ts c =
                 Ok (length vs =? length texts - length ts, ts', fold_left add vs c) /\
                 map ok (firstn (length vs) (skipn (length ts) texts)) = map Some vs /\
                 (length vs < length texts - length ts ->
                    exists x, nth_error texts (length ts + length vs) = Some x /\ ok x = None)) /\
  (length ts < length texts -> forall ts', parse_values delims s ts = Ok (false, ts') ->
     Forall (behaves conv d ok) (skipn (length ts) texts) ->
     parse_values_rest conv d add delims s ts c = Ok (false, ts', c)).
Proof.
  intros T C conv d add ok delims s ts c texts Hc.
  destruct (parse_values_rest_ok conv d add ok delims s ts c texts Hc) as [H1 H2].
  split; [exact H1|]. split; intros Hl ts' Hp Hb;
    (apply (parse_values_iff _ _ _ _ _ _ Hc) in Hp;
     replace (length texts <? length ts) with false in Hp by (symmetry; apply Nat.ltb_ge; lia);
     exact (H2 Hl _ ts' Hp Hb)).
Qed.
Print Assumptions C07_values_then_rest.

Example C07_ex_rest :
  let p s := parse_values_rest (conv_unsigned t_ushort n_ushort) 0%Z (fun c v => c ++ [v]) (str ",") s [tstr []] [9%Z] in
  p (str "a,1,2") = Ok (true, [tstr (str "a")], [9; 1; 2]%Z) /\ p (str "a,1,x,2") = Ok (false, [tstr (str "a")], [9; 1]%Z) /\
  p (str "a") = Ok (false, [tstr []], [9%Z]).
Proof. repeat split; reflexivity. Qed.

(* the command-line version into a container *)
Theorem C07_argv_sequence : forall T conv (t0 : T) ok brk argv c,
  Forall (fun x => forall t, match ok x with Some v => conv x t = Ok (true, v) | None => exists v, conv x t = Ok (false, v) end) argv ->
  exists vs n, parse_args_seq conv (fun c v => c ++ [v]) brk argv 0 (length argv) t0 c = Ok (fold_left (fun c v => c ++ [v]) vs c, n) /\
    (brk = true -> n = length vs /\ map ok (firstn n argv) = map Some vs /\
       (n < length argv -> exists x, nth_error argv n = Some x /\ ok x = None)) /\
    (brk = false -> n = length argv /\ converted ok argv vs).
Proof.
  intros T conv t0 ok brk argv c H.
  destruct (parse_args_seq_ok conv (fun c v => c ++ [v]) ok brk argv H 0 (length argv) t0 c eq_refl) as (vs & n & E & H1 & H2).
  exists vs, n. split; [exact E|]. split; [|exact H2].
  intros Hb. destruct (H1 Hb) as (-> & H3 & H4). cbn [plus]. auto.
Qed.
Print Assumptions C07_argv_sequence.

Example C07_ex_argv :
  let p b := parse_args_seq (conv_unsigned t_ushort n_ushort) (fun c v => c ++ [v]) b [str "1"; str "x"; str "2"] 0 3 0%Z [9%Z] in
  p true = Ok ([9; 1]%Z, 1) /\ p false = Ok ([9; 1; 2]%Z, 3).
Proof. repeat split; reflexivity. Qed.

Example C07_ex : parse_container (conv_unsigned t_ushort n_ushort) 0%Z (fun c v => c ++ [v]) (str ",") (str "1,x,,70000,3") 0 [9%Z]
  = Ok ([9; 1; 3]%Z, 5).
Proof. reflexivity. Qed.
Example C07_ex_n : parse_n_container (conv_unsigned t_ushort n_ushort) 0%Z (fun c v => c ++ [v]) (@length Z) (str ",") (str "1,x,,70000,3") 2 1 [9%Z]
  = Ok ([9; 1]%Z, 1).
Proof. reflexivity. Qed.

(* ---- C35 ---- *)
Theorem C35_join : forall T (f : T -> list ascii) d xs, join f d xs = separated d (map f xs).
Proof. intros. exact (join_onto_ok f d xs []). Qed.
Print Assumptions C35_join.

Example C35_ex_join : join (fun b : bool => if b then str "yes" else str "no") (str ", ") [true; false; true] = str "yes, no, yes".
Proof. reflexivity. Qed.
Theorem C35_join_appends : forall T (f : T -> list ascii) output d xs, join_onto f output d xs = output ++ separated d (map f xs).
Proof. intros. apply join_onto_ok. Qed.
Print Assumptions C35_join_appends.

Example C35_ex_appends : join_onto (fun x => x) (str "old:") (str "+") [str "a"; str "b"] = str "old:a+b".
Proof. reflexivity. Qed.
Theorem C35_join_if : forall T (f : T -> list ascii) p d xs, join_if f p d xs = separated d (map f (filter p xs)).
Proof. intros. exact (proj1 (join_if_ok f p d xs [])). Qed.
Print Assumptions C35_join_if.

Example C35_ex_if : join_if (fun x => x) (fun x => negb (length x =? 0)) (str "+") [[]; str "a"; []; str "b"; []] = str "a+b".
Proof. reflexivity. Qed.
Theorem C35_join_args : forall output d argv, join_args output d argv = Ok (output ++ separated d argv).
Proof. exact join_args_ok. Qed.
Print Assumptions C35_join_args.

Example C35_ex_args : join_args (str "$ ") (str " ") [str "prog"; str "-v"] = Ok (str "$ prog -v").
Proof. reflexivity. Qed.
Theorem C35_split_of_join : forall d ts, ts <> [] -> ts <> [[]] -> Forall (fun t => ~ In d t) ts ->
  exists toks, split_str [d] (join (fun x => x) [d] ts) 0 = Ok (toks, length toks) /\
    map (sub (join (fun x => x) [d] ts)) toks = ts.
Proof. intros d ts H1 H2 H3. rewrite C35_join, map_id. now apply split_join. Qed.
Print Assumptions C35_split_of_join.

Example C35_ex_back : join (fun x => x) (str "|") [[]; str "a"; []; str "bc"] = str "|a||bc" /\
  split_str (str "|") (str "|a||bc") 0 = Ok ([(0,0); (1,2); (3,3); (4,6)], 4).
Proof. vm_compute. auto. Qed.
(* the single empty token is not recovered *)
Theorem C35_single_empty_refuted : forall d, split_str [d] (join (fun x => x) [d] [[]]) 0 = Ok ([], 0).
Proof. reflexivity. Qed.
Print Assumptions C35_single_empty_refuted.
Example C35_ex : join (fun x => x) (str "|") [str "a"; []; str "bc"] = str "a||bc" /\
  split_str (str "|") (str "a||bc") 0 = Ok ([(0,1); (2,2); (3,5)], 3).
Proof. split; reflexivity. Qed.

(* ---- C55 ---- *)
Theorem C55_construct : forall output d texts, construct output d texts = output ++ separated d texts.
Proof. intros. apply construct_ok. Qed.
Print Assumptions C55_construct.

Example C55_ex_construct : construct (str "x=") (str ", ") [str "a"; []; str "b"] = str "x=a, , b".
Proof. reflexivity. Qed.
Theorem C55_round_trip : forall delims sep ts xs ts', sep <> [] -> incl sep delims ->
  (forall c, In c delims -> ~ number_char c) -> int_fields ts xs ts' ->
  parse_values delims (construct [] sep xs) ts = Ok (true, ts').
Proof. exact int_round_trip. Qed.
Print Assumptions C55_round_trip.

Example C55_ex_round : int_fields [ti 0; tu 0] [str "-345"; str "17"] [ti (-345); tu 17] /\
  construct [] (str "; ") [str "-345"; str "17"] = str "-345; 17" /\
  parse_values (str " ;") (str "-345; 17") [ti 0; tu 0] = Ok (true, [ti (-345); tu 17]).
Proof.
  split; [|repeat split; reflexivity]. apply ifs_cons; [|apply ifs_cons; [|apply ifs_nil]].
  - apply (if_s t_int n_int (-2147483647) 2147483647); [cbn; tauto|lia|vm_compute; reflexivity].
  - apply (if_u t_uint n_uint 4294967295); [cbn; tauto|lia|vm_compute; reflexivity].
Qed.
(* for any types: texts that are not empty, contain no delimiter and convert *)
Theorem C55_round_trip_any : forall delims sep ts texts ts', sep <> [] -> incl sep delims ->
  Forall (fun t => t <> [] /\ forall c, In c t -> ~ In c delims) texts -> writes ts texts ts' ->
  parse_values delims (construct [] sep texts) ts = Ok (true, ts').
Proof. exact construct_parse. Qed.
Print Assumptions C55_round_trip_any.

Example C55_ex_any : construct [] (str " | ") [str "one"; str "2"] = str "one | 2" /\
  parse_values (str "| ") (str "one | 2") [tstr []; ti 0] = Ok (true, [tstr (str "one"); ti 2]).
Proof. repeat split; reflexivity. Qed.
(* an empty string in the middle is swallowed *)
Theorem C55_empty_text_refuted : exists sep ts texts,
  writes ts texts ts /\ parse_values sep (construct [] sep texts) ts = Ok (false, ts).
Proof.
  exists (str ","), [tstr (str "a"); tstr []; tstr (str "b")], [str "a"; []; str "b"].
  split; [repeat constructor|reflexivity].
Qed.
Print Assumptions C55_empty_text_refuted.
Example C55_ex : exists a b, format_signed t_int (-345) = Ok a /\ format_unsigned 4000000000 = Ok b /\
  construct [] (str ", ") [a; b] = str "-345, 4000000000" /\
  parse_values (str ", ") (str "-345, 4000000000") [ti 0; tu 0] = Ok (true, [ti (-345); tu 4000000000]).
Proof. exists (str "-345"), (str "4000000000"). repeat split; reflexivity. Qed.

(* ---- C56 ---- *)
Theorem C56_parse_line : forall st delims ts, good st = true -> rest st <> [] ->
  exists line r, first_line (rest st) line r /\
   (forall l' r', first_line (rest st) l' r' -> l' = line /\ r' = r) /\
   (line = [] \/ delims = [] -> parse_line st delims ts = Ok (false, ts, Stream r true)) /\
   (line <> [] -> delims <> [] -> forall b ts', parse_values delims line ts = Ok (b, ts') ->
      parse_line st delims ts = Ok (b, ts', Stream r true)).
Proof.
  intros st delims ts Hg Hr. destruct (first_line_exists (rest st)) as (line & r & Hl). exists line, r.
  split; [exact Hl|]. split; [intros; eapply first_line_unique; eauto|].
  rewrite (parse_line_ok st delims ts line r Hg Hr Hl). split.
  - intros [->| ->]; cbn [length Nat.eqb orb]; [reflexivity|]. now rewrite orb_true_r.
  - intros H1 H2 b ts' E. destruct line; [congruence|]. destruct delims; [congruence|]. cbn [length Nat.eqb orb].
    rewrite E. reflexivity.
Qed.
Print Assumptions C56_parse_line.

Example C56_ex_line : first_line (str "1,x" ++ newline :: str "3") (str "1,x") (str "3") /\
  parse_line (Stream (str "1,x" ++ newline :: str "3") true) (str ",") [ti 0; ti 5] = Ok (false, [ti 1; ti 5], Stream (str "3") true).
Proof. split; [|reflexivity]. split; [repeat constructor; discriminate|left; reflexivity]. Qed.
Theorem C56_end_of_stream : forall st delims ts, good st = false \/ rest st = [] ->
  exists st', parse_line st delims ts = Ok (false, ts, st') /\ good st' = false /\ rest st' = rest st.
Proof.
  intros st delims ts H. unfold parse_line, getline. destruct (good st) eqn:Eg; cbn [negb].
  - destruct H as [H|H]; [discriminate|]. rewrite H. exists (Stream [] false). auto.
  - exists st. auto.
Qed.
Print Assumptions C56_end_of_stream.
Example C56_ex : let st := Stream (str "1,2" ++ newline :: newline :: str "3,4") true in
  parse_line st (str ",") [ti 0; ti 0] = Ok (true, [ti 1; ti 2], Stream (newline :: str "3,4") true) /\
  parse_line (Stream (newline :: str "3,4") true) (str ",") [ti 0; ti 0] = Ok (false, [ti 0; ti 0], Stream (str "3,4") true).
Proof. split; reflexivity. Qed.

(* the command-line version into variables: parse(argc,argv,t1..tn) with argc = n reads
   argv[argc], a null pointer *)
Theorem C56_argv_values_refuted : forall argv ts, ts <> [] -> length ts = length argv ->
  (forall i t x, nth_error ts i = Some t -> nth_error argv (S i) = Some x -> exists v, t_conv t x (t_val t) = Ok (true, v)) -> parse_args argv ts = UB.
Proof.
  intros argv ts Hne Hl Hc. unfold parse_args. rewrite Hl, Nat.eqb_refl. cbn [negb].
  apply parse_args_from_ub; auto.
Qed.
Print Assumptions C56_argv_values_refuted.

Example C56_argv_values_refuted_ex : parse_args [str "program"] [Target (list ascii) conv_string []] = UB.
Proof. reflexivity. Qed.
(* it is defined when an argument in front of the last target does not convert: the number
   of values converted *)
Theorem C56_argv_values_stops : forall prog args x rest_ pre pre' t post v,
  length pre = length args -> length pre' = length pre -> length post = S (length rest_) ->
  (forall i a u, nth_error args i = Some a -> nth_error pre i = Some u ->
     exists w, t_conv u a (t_val u) = Ok (true, w) /\ nth_error pre' i = Some (Target (t_type u) (t_conv u) w)) ->
  t_conv t x (t_val t) = Ok (false, v) ->
  parse_args (prog :: args ++ x :: rest_) (pre ++ t :: post) = Ok (length pre, pre' ++ Target (t_type t) (t_conv t) v :: post).
Proof.
  intros prog args x rest_ pre pre' t post v L L' Lp H Hx. unfold parse_args.
  replace (length (pre ++ t :: post) =? length (prog :: args ++ x :: rest_)) with true
    by (symmetry; apply Nat.eqb_eq; cbn [length]; rewrite !app_length; cbn [length]; lia). cbn [negb].
  assert (G : forall (args : list (list ascii)) (pre pre' : list target) front n, length pre = length args -> length pre' = length pre ->
    (forall i a u, nth_error args i = Some a -> nth_error pre i = Some u ->
     exists w, t_conv u a (t_val u) = Ok (true, w) /\ nth_error pre' i = Some (Target (t_type u) (t_conv u) w)) ->
    parse_args_from (front ++ args ++ x :: rest_) (length front) (pre ++ t :: post) n =
      Ok (n + length pre, pre' ++ Target (t_type t) (t_conv t) v :: post)).
  { clear - Hx. induction args as [|a args IH]; intros pre pre' front n L L' H.
    - destruct pre; [|discriminate]. destruct pre'; [|discriminate]. cbn [app parse_args_from length].
      rewrite rd_app_r by lia. rewrite Nat.sub_diag. cbn [rd nth_error bind]. unfold run_target. rewrite Hx. cbn [bind negb]. f_equal. f_equal. lia.
    - destruct pre as [|u pre]; [discriminate|]. destruct pre' as [|u' pre']; [discriminate|]. cbn [app parse_args_from length].
      rewrite rd_app_r by lia. rewrite Nat.sub_diag. cbn [rd nth_error bind]. destruct (H 0 a u eq_refl eq_refl) as (w & E & E').
      unfold run_target. rewrite E. cbn [bind negb]. injection E' as ->.
      specialize (IH pre pre' (front ++ [a]) (S n)). rewrite app_length, <- app_assoc in IH. cbn [length app] in IH. rewrite Nat.add_1_r in IH.
      rewrite IH; [cbn [bind]; f_equal; f_equal; lia|cbn [length] in *; lia|cbn [length] in *; lia|].
      intros i b z Hb Hz. apply (H (S i) b z Hb Hz). }
  apply (G args pre pre' [prog] 0 L L' H).
Qed.
Print Assumptions C56_argv_values_stops.
Example C56_ex_argv3 : parse_args [str "prog"; str "1"; str "x"; str "3"] [ti 0; ti 5; ti 6; ti 7] = Ok (1, [ti 1; ti 5; ti 6; ti 7]).
Proof. reflexivity. Qed.
Example C56_ex_argv : parse_args [str "prog"; str "a"] [tstr []; tstr []] = UB.
Proof. reflexivity. Qed.
Example C56_ex_argv2 : parse_args [str "prog"; str "a"] [tstr []] = Ok (0, [tstr []]).
Proof. reflexivity. Qed.

(* ---- C57 ---- *)
Theorem C57_replicate : forall n s output,
  replicate n s = copies n s /\ replicate_onto n s output = output ++ copies n s /\ replicate_inplace n s = copies (S n) s.
Proof.
  intros n s output. split; [apply replicate_ok|]. split; [|apply replicate_inplace_ok].
  unfold replicate_onto. destruct (Nat.eqb_spec n 0) as [->|H]; [unfold copies; cbn; now rewrite app_nil_r|]. apply fold_append.
Qed.
Print Assumptions C57_replicate.

Example C57_ex_replicate : replicate 0 (str "ab") = [] /\ replicate_onto 2 (str "ab") (str "x") = str "xabab" /\ replicate_inplace 2 (str "ab") = str "ababab".
Proof. auto. Qed.
Theorem C57_bracketize : forall T (f : T -> list ascii) pre post xs o,
  bracketize f pre post xs o = o ++ concat (map (fun x => pre ++ f x ++ post) xs).
Proof. intros. apply bracketize_ok. Qed.
Print Assumptions C57_bracketize.

Example C57_ex_bracketize : bracketize (fun b : bool => if b then str "1" else str "0") (str "(") (str "),") [true; false] (str ">") = str ">(1),(0),".
Proof. reflexivity. Qed.
Theorem C57_interval_inserter : forall T k (v : T) xs, 0 < k -> (N.of_nat k < 2 ^ 64)%N ->
  exists ys, interleaved k v xs ys /\ insert_interval (N.of_nat k) v 0 xs [] 0 = (ys, length ys).
Proof. intros T k v xs Hk Hw. exact (insert_interval_ok k v Hk Hw xs 0 [] [] 0 eq_refl Hk). Qed.
Print Assumptions C57_interval_inserter.

Example C57_ex_interval : insert_interval 2 "-"%char 0 (str "abcd") [] 0 = (str "ab-cd-", 6) /\ interleaved 2 "-"%char (str "abcd") (str "ab-cd-").
Proof.
  split; [vm_compute; reflexivity|].
  apply (il_block 2 "-"%char (str "ab") (str "cd") (str "cd-")); [reflexivity|].
  apply (il_block 2 "-"%char (str "cd") [] []); [reflexivity|]. apply il_end. cbn. lia.
Qed.
Theorem C57_cut : forall r0 r1 xs, r0 <= r1 -> Forall (fun s => (N.of_nat (length s) < 2 ^ 64)%N) xs ->
  cut r0 r1 xs = map (fun s => sub s (r0, Nat.min r1 (length s))) (filter (fun s => r0 <=? length s) xs) /\
  cut_inplace r0 r1 xs = map (fun s => if r0 <=? length s then sub s (r0, Nat.min r1 (length s)) else s) xs.
Proof. intros. split; [now apply cut_ok|now apply cut_inplace_ok]. Qed.
Print Assumptions C57_cut.

Example C57_ex_cut : cut 1 3 [str "abcd"; []; str "x"] = [str "bc"; []] /\ cut_inplace 1 3 [str "abcd"; []; str "x"] = [str "bc"; []; []].
Proof. vm_compute. auto. Qed.
(* with the bounds the wrong way round the rest of the string is taken *)
Theorem C57_cut_order_refuted : cut 3 1 [str "abcdef"] = [str "def"].
Proof. reflexivity. Qed.
Print Assumptions C57_cut_order_refuted.
Theorem C57_translate : forall itable otable, length itable = length otable -> Forall low itable ->
  exists t, translation_table itable otable = Ok (Some t) /\ length t = 256 /\
    forall s, Forall low s -> translate t s = Ok (map (lookup_last (combine itable otable)) s).
Proof.
  intros itable otable Hl Hlow. destruct (table_ok itable otable Hl Hlow) as (t & E & H1 & H2).
  exists t. split; [exact E|]. split; [exact H1|]. intros s Hs. now apply translate_ok.
Qed.
Print Assumptions C57_translate.

(* the later of two entries for one character counts *)
Example C57_ex_last : (x <- translation_table (str "aba") (str "xyz") ;; match x with Some t => translate t (str "abc") | None => UB end) = Ok (str "zyc").
Proof. vm_compute. reflexivity. Qed.
Theorem C57_translate_size_mismatch : forall itable otable, length itable <> length otable ->
  translation_table itable otable = Ok None.
Proof. intros itable otable H. unfold translation_table. apply Nat.eqb_neq in H. now rewrite H. Qed.
Print Assumptions C57_translate_size_mismatch.

Example C57_ex_mismatch : translation_table (str "abc") (str "xy") = Ok None.
Proof. reflexivity. Qed.
(* characters from 128 on lead outside the table *)
Theorem C57_translate_high_refuted : forall t s, length t = 256 -> (exists c, In c s /\ 128 <= nat_of_ascii c) ->
  translate t s = UB.
Proof. intros. now apply translate_high. Qed.
Print Assumptions C57_translate_high_refuted.
Example C57_ex : replicate 3 (str "ab") = str "ababab" /\
  bracketize (fun x => x) (str "<") (str ">") [str "a"; str "b"] [] = str "<a><b>" /\
  insert_interval 2 "-"%char 0 (str "abcde") [] 0 = (str "ab-cd-e", 7) /\
  cut 1 3 [str "abcd"; []; str "xy"] = [str "bc"; str "y"].
Proof. repeat split; reflexivity. Qed.
Example C57_ex_translate : (x <- translation_table (str "abc") (str "xyz") ;; match x with Some t => translate t (str "aabd") | None => UB end) = Ok (str "xxyd").
Proof. reflexivity. Qed.
