(* Properties C141-C143: records read with fields that check, trim and convert. *)
From Verif Require Import Base Split_Model Split_Spec Codec_Spec Edit_Spec Num_Model Num_Spec
  Real_Model Real_Spec Parse_Model Parse_Spec Parse_Spec2 Parse_Proofs Parse_Proofs2 Parse_Proofs3 Parse_Props Text_Model Date_Proofs Fields_Model Fields_Spec Fields_Proofs.
From Coq Require Import Floats.SpecFloat.
Local Open Scope nat_scope.

(* ---- C141: var name : Integer = value; ---- *)
(* A declaration is read exactly when the text has the fields, whatever follows the number; the
   variables then hold the name and the number. *)
Theorem C141_declaration : forall s name0 v0 ts,
  read_declaration s name0 v0 = Ok (true, ts) <-> exists name v, declares s name v /\ ts = declaration_fields name v.
Proof.
  intros s n0 i0 ts. unfold read_declaration. rewrite parse_true_iff. unfold declaration_fields, check, field_text, field_int. split.
  - intros (texts & Hc & Hr). do 6 (apply results_cons in Hr as (? & ? & ? & ? & -> & ? & Hr & ->)). apply results_nil in Hr as ->.
    cbn [t_conv t_val t_type] in *. repeat match goal with u : unit |- _ => destruct u end.
    repeat match goal with H : expect _ _ _ = _ |- _ => apply expect_iff in H; subst end.
    match goal with H : iexpect _ _ _ = _ |- _ => apply (iexpect_iff _ (str "INTEGER")) in H; [|repeat constructor; cbn; lia|reflexivity|repeat constructor; cbn; lia] end.
    match goal with H : conv_signed _ _ _ _ = _ |- _ => apply int_conv_iff in H end.
    match goal with H : conv_string _ _ = _ |- _ => injection H as <- end.
    do 2 eexists. split; [|reflexivity]. do 3 eexists. split; [exact Hc|]. auto.
  - intros (name & v & (ty & x & more & Hc & Hty & Hx) & ->). eexists. split; [exact Hc|].
    apply results_cons. do 4 eexists. split; [reflexivity|]. cbn [t_conv t_val]. split; [apply (proj2 (expect_iff _ _)); reflexivity|]. split; [|reflexivity].
    apply results_cons. do 4 eexists. split; [reflexivity|]. cbn [t_conv t_val]. split; [reflexivity|]. split; [|reflexivity].
    apply results_cons. do 4 eexists. split; [reflexivity|]. cbn [t_conv t_val]. split; [apply (proj2 (expect_iff _ _)); reflexivity|]. split; [|reflexivity].
    apply results_cons. do 4 eexists. split; [reflexivity|]. cbn [t_conv t_val]. split; [|split; [|reflexivity]].
    { apply (proj2 (iexpect_iff (str "Integer") (str "INTEGER") ty ltac:(repeat constructor; cbn; lia) eq_refl ltac:(repeat constructor; cbn; lia))); exact Hty. }
    apply results_cons. do 4 eexists. split; [reflexivity|]. cbn [t_conv t_val]. split; [apply (proj2 (expect_iff _ _)); reflexivity|]. split; [|reflexivity].
    apply results_cons. do 4 eexists. split; [reflexivity|]. cbn [t_conv t_val]. split; [apply (proj2 (int_conv_iff _ _ _)); exact Hx|]. split; [now apply results_nil|reflexivity].
Qed.
Print Assumptions C141_declaration.

Example C141_ex_declaration : read_declaration (str "var foo : InTeGeR = 3;") (str "old") 77%Z = Ok (true, declaration_fields (str "foo") 3%Z).
Proof. reflexivity. Qed.

(* a declaration written out with spaces between the parts *)
Theorem C141_written : forall name ty x v, name <> [] -> (forall c, In c name -> c <> " "%char /\ c <> ";"%char) ->
  map upper ty = str "INTEGER" -> int_text x v ->
  declares (str "var " ++ name ++ str " : " ++ ty ++ str " = " ++ x ++ str ";") name v.
Proof.
  intros name ty x v Hn Hnd Hty Hx. exists ty, x, [[]]. split; [|auto].
  change (str "var " ++ name ++ str " : " ++ ty ++ str " = " ++ x ++ str ";")
    with (str "var" ++ " "%char :: name ++ " "%char :: str ":" ++ " "%char :: ty ++ " "%char :: str "=" ++ " "%char :: x ++ str ";").
  assert (Hfree : forall y, (forall c, In c y -> c <> " "%char /\ c <> ";"%char) -> Forall (fun c => is_delim (str " ;") c = false) y).
  { intros y Hy. apply Forall_forall. intros c Hc. destruct (Hy c Hc) as [H1 H2].
    apply is_delim_out. cbn. intuition congruence. }
  assert (Ety : ty <> []) by (intros ->; discriminate).
  assert (Fty : Forall (fun c => is_delim (str " ;") c = false) ty).
  { apply Hfree. intros c Hc.
    assert (Hu : In (upper c) (str "INTEGER")) by (rewrite <- Hty; now apply in_map).
    split; intros ->; cbn in Hu; intuition discriminate. }
  assert (Fx : x <> [] /\ Forall (fun c => is_delim (str " ;") c = false) x).
  { destruct Hx as ((sg & ds & -> & (Hds1 & Hds2) & Hs) & _). split; [destruct sg, ds; try discriminate; congruence|].
    apply Hfree. intros c Hc. apply in_app_or in Hc as [Hc|Hc].
    - destruct Hs as [([->| ->] & _)|(-> & _)]; cbn in Hc; try contradiction; destruct Hc as [<-|[]]; split; discriminate.
    - rewrite Forall_forall in Hds2. apply Hds2 in Hc. split; intros ->; vm_compute in Hc; intuition (try discriminate; try lia). }
  replace (str "var" ++ " "%char :: name ++ " "%char :: str ":" ++ " "%char :: ty ++ " "%char :: str "=" ++ " "%char :: x ++ str ";")
    with (str "var" ++ mixed [(str " ", name); (str " ", str ":"); (str " ", ty); (str " ", str "="); (str " ", x); (str ";", [])]).
  2:{ unfold mixed. cbn [map concat fst snd str app]. repeat (rewrite <- ?app_assoc; cbn [app]). rewrite ?app_nil_r. reflexivity. }
  apply (compressed_parted (str " ;") (str "var")); [discriminate|apply Hfree; cbn; intuition (subst; discriminate)|].
  cbn [parted]. pose proof (Hfree name Hnd).
  assert (F1 : Forall (fun c => is_delim (str " ;") c = true) (str " ")) by (repeat constructor).
  assert (F2 : Forall (fun c => is_delim (str " ;") c = true) (str ";")) by (repeat constructor).
  assert (F3 : Forall (fun c => is_delim (str " ;") c = false) (str ":")) by (repeat constructor).
  assert (F4 : Forall (fun c => is_delim (str " ;") c = false) (str "=")) by (repeat constructor).
  repeat (split; [first [discriminate|assumption|tauto|intros _; first [assumption|tauto|discriminate]|intros HH; now contradiction HH|constructor]|]); auto.
Qed.
Print Assumptions C141_written.

Example C141_ex_written : map upper (str "INTeger") = str "INTEGER" /\
  read_declaration (str "var a:b : INTeger = -007;") [] 0%Z = Ok (true, declaration_fields (str "a:b") (-7)%Z).
Proof. split; reflexivity. Qed.

(* a declaration that is not read leaves the number alone; the name may have been taken *)
Theorem C141_not_read : forall s name0 v0 ts, read_declaration s name0 v0 = Ok (false, ts) ->
  exists name, ts = declaration_fields name v0 /\
    (name = name0 \/ exists more, compressed_tokens (str " ;") s (str "var" :: name :: more)).
Proof.
  intros s n0 i0 ts H. destruct (compressed_exists (str " ;") s) as (texts & Hc).
  apply (parse_values_iff _ _ _ _ _ _ Hc) in H. destruct (length texts <? length (declaration_fields n0 i0)); [destruct H as [_ ->]; eauto|].
  unfold declaration_fields, check, field_text, field_int in *.
  assert (U : forall w x v, expect w x tt = Ok (true, v) -> x = w) by (intros w x [] He; now apply expect_iff).
  inversion H as [|? x1 v1 ? xs1 ? ts1 E1 R1|? x1 v1 ? xs1 E1]; subst; cbn [t_conv t_val t_type] in *.
  2:{ destruct v1. exists n0. auto. }
  apply U in E1. subst x1. destruct v1.
  inversion R1 as [|? x2 v2 ? xs2 ? ts2 E2 R2|? x2 v2 ? xs2 E2]; subst; cbn [t_conv t_val t_type] in *; [|discriminate].
  injection E2 as <-. exists x2. split; [|eauto]. f_equal. f_equal.
  inversion R2 as [|? x3 v3 ? xs3 ? ts3 E3 R3|? x3 v3 ? xs3 E3]; subst; cbn [t_conv t_val t_type] in *; destruct v3; [f_equal|reflexivity].
  inversion R3 as [|? x4 v4 ? xs4 ? ts4 E4 R4|? x4 v4 ? xs4 E4]; subst; cbn [t_conv t_val t_type] in *; destruct v4; [f_equal|reflexivity].
  inversion R4 as [|? x5 v5 ? xs5 ? ts5 E5 R5|? x5 v5 ? xs5 E5]; subst; cbn [t_conv t_val t_type] in *; destruct v5; [f_equal|reflexivity].
  inversion R5 as [|? x6 v6 ? xs6 ? ts6 E6 R6|? x6 v6 ? xs6 E6]; subst; cbn [t_conv t_val t_type] in *.
  - inversion R6.
  - f_equal. f_equal. unfold conv_signed in E6. destruct (parse_signed t_int n_int x6) as [[w|]| |]; try discriminate. cbn in E6. congruence.
Qed.
Print Assumptions C141_not_read.

Example C141_ex_not_read : read_declaration (str "var foo : real = 3;") (str "old") 77%Z = Ok (false, declaration_fields (str "foo") 77%Z).
Proof. reflexivity. Qed.

(* every text of 7-bit characters is read or not, unless its sixth field says -2147483648 *)
Theorem C141_total : forall s name0 v0, Forall (fun c => nat_of_ascii c < 128) s ->
  (forall texts x, compressed_tokens (str " ;") s texts -> nth_error texts 5 = Some x -> ~ signed_text x (-2147483648)) ->
  exists b ts, read_declaration s name0 v0 = Ok (b, ts).
Proof.
  intros s n0 i0 H7 Hm. destruct (compressed_exists (str " ;") s) as (texts & Hc).
  assert (Ht : forall x, In x texts -> Forall (fun c => nat_of_ascii c < 128) x).
  { destruct Hc as (toks & _ & ->). intros x Hx. apply in_map_iff in Hx as ([b e] & <- & _). unfold sub. cbn.
    apply Forall_forall. intros c Hi. rewrite Forall_forall in H7. apply H7.
    assert (G : forall n (l : list ascii), In c (firstn n l) -> In c l).
    { intros n l Hl. rewrite <- (firstn_skipn n l). apply in_or_app. now left. }
    apply G in Hi. rewrite <- (firstn_skipn b s). apply in_or_app. now right. }
  destruct (Nat.ltb_spec (length texts) (length (declaration_fields n0 i0))) as [Hl|Hl].
  - exists false, (declaration_fields n0 i0). apply (parse_values_iff _ _ _ _ _ _ Hc). destruct (Nat.ltb_spec (length texts) (length (declaration_fields n0 i0))); [auto|lia].
  - destruct (results_total (declaration_fields n0 i0) texts Hl) as (b & ts' & Hr).
    { intros i t x Ei Ex. unfold declaration_fields, check, field_text, field_int in Ei.
      assert (He : forall w, exists r, expect w x tt = Ok r).
      { intros w. destruct (Text_Proofs.expect_ok w x tt) as (b & E & _). eauto. }
      do 6 (destruct i as [|i]; [injection Ei as <-; cbn [t_conv t_val];
        first [apply He | eexists; reflexivity
        | solve [destruct (Text_Props.C66_iexpect (str "Integer") x tt) as (b & E & _); [repeat constructor; cbn; lia|apply Ht; eapply nth_error_In; exact Ex|exists (b, tt); exact E]]
        | destruct (Num_Props.C19_int_exact x (Hm texts x Hc Ex)) as ((o & E) & _); unfold conv_signed; rewrite E; destruct o; eexists; reflexivity]|]).
      destruct i; discriminate. }
    exists b, ts'. apply (parse_values_iff _ _ _ _ _ _ Hc). destruct (Nat.ltb_spec (length texts) (length (declaration_fields n0 i0))); [lia|exact Hr].
Qed.
Print Assumptions C141_total.

Example C141_ex_total : read_declaration (str "var foo: Integer = 3;") (str "old") 77%Z = Ok (false, declaration_fields (str "foo:") 77%Z) /\
  read_declaration (str "let foo : Integer = 3") (str "old") 77%Z = Ok (false, declaration_fields (str "old") 77%Z).
Proof. split; reflexivity. Qed.

(* the two conditions are needed: the least int and characters beyond 7 bits *)
Theorem C141_total_refuted :
  read_declaration (str "var foo : Integer = -2147483648;") (str "old") 77%Z = UB /\
  read_declaration (str "var foo : Intege" ++ [ascii_of_nat 233] ++ str " = 3;") (str "old") 77%Z = UB.
Proof. split; reflexivity. Qed.
Print Assumptions C141_total_refuted.

(* The declaration may be followed by anything, delimiters may stand for each other and be
   repeated, and a name may be any field; but nothing may come before the first word. *)
Theorem C141_strict_refuted :
  read_declaration (str "var foo : Integer = 3 + 4;") [] 0%Z = Ok (true, declaration_fields (str "foo") 3%Z) /\
  read_declaration (str "var;;: ; :;integer = +3") [] 0%Z = Ok (true, declaration_fields (str ":") 3%Z) /\
  read_declaration (str " var foo : Integer = 3;") [] 0%Z = Ok (false, declaration_fields [] 0%Z).
Proof. repeat split; reflexivity. Qed.
Print Assumptions C141_strict_refuted.

(* ---- C142: fields with a pattern or a range ---- *)
(* read exactly when the first field is to...n. up to its first n, the third token., the fifth
   token2 in any case, and the other fields convert; at least two characters follow the first field *)
Theorem C142_patterns : forall after0 after1 s i0 s0 d0 ts, 2 <= length after0 ->
  (read_named after0 after1 s i0 s0 d0 = Ok (true, ts) <->
   exists x0 x1 x2 x4 x5 more i t d,
     compressed_tokens (str "=;") s (x0 :: x1 :: x2 :: t :: x4 :: x5 :: more) /\
     to_n x0 /\ int_text x1 i /\ token_ x2 /\ map upper x4 = str "TOKEN2" /\ parse_real double x5 d0 = Ok (true, d) /\
     ts = named_fields after0 after1 i t d).
Proof.
  intros a0 a1 s i0 s0 d0 ts Ha. unfold read_named. rewrite parse_true_iff. unfold named_fields, check, field_text, field_int, field_double.
  assert (L0 : forall x, like (str "to*n?") a0 x tt = Ok (true, tt) <-> to_n x).
  { intros x. destruct (like_to_n a0 x Ha) as (b & E & Hb). rewrite E, <- Hb. split; [congruence|intros ->; reflexivity]. }
  assert (L1 : forall x, like (str "token?") a1 x tt = Ok (true, tt) <-> token_ x).
  { intros x. destruct (like_token a1 x) as (b & E & Hb). rewrite E, <- Hb. split; [congruence|intros ->; reflexivity]. }
  assert (L2 : forall x, iexpect (str "tOkEn2") x tt = Ok (true, tt) <-> map upper x = str "TOKEN2").
  { intros x. apply iexpect_iff; [repeat constructor; cbn; lia|reflexivity|repeat constructor; cbn; lia]. }
  split.
  - intros (texts & Hc & Hr). do 6 (apply results_cons in Hr as (? & ? & ? & ? & -> & ? & Hr & ->)). apply results_nil in Hr as ->.
    cbn [t_conv t_val t_type] in *. repeat match goal with u : unit |- _ => destruct u end.
    repeat match goal with
      | H : like (str "to*n?") _ _ _ = _ |- _ => apply L0 in H
      | H : like (str "token?") _ _ _ = _ |- _ => apply L1 in H
      | H : iexpect _ _ _ = _ |- _ => apply L2 in H
      | H : conv_signed _ _ _ _ = _ |- _ => apply int_conv_iff in H
      | H : conv_string _ _ = _ |- _ => injection H as <-
      end.
    do 9 eexists. split; [exact Hc|]. repeat (split; [eassumption|]). reflexivity.
  - intros (x0 & x1 & x2 & x4 & x5 & more & i & t & d & Hc & H0 & H1 & H2 & H4 & H5 & ->). eexists. split; [exact Hc|].
    apply results_cons. do 4 eexists. split; [reflexivity|]. cbn [t_conv t_val]. split; [apply (proj2 (L0 _)); exact H0|]. split; [|reflexivity].
    apply results_cons. do 4 eexists. split; [reflexivity|]. cbn [t_conv t_val]. split; [apply (proj2 (int_conv_iff _ _ _)); exact H1|]. split; [|reflexivity].
    apply results_cons. do 4 eexists. split; [reflexivity|]. cbn [t_conv t_val]. split; [apply (proj2 (L1 _)); exact H2|]. split; [|reflexivity].
    apply results_cons. do 4 eexists. split; [reflexivity|]. cbn [t_conv t_val]. split; [reflexivity|]. split; [|reflexivity].
    apply results_cons. do 4 eexists. split; [reflexivity|]. cbn [t_conv t_val]. split; [apply (proj2 (L2 _)); exact H4|]. split; [|reflexivity].
    apply results_cons. do 4 eexists. split; [reflexivity|]. cbn [t_conv t_val]. split; [exact H5|]. split; [now apply results_nil|reflexivity].
Qed.
Print Assumptions C142_patterns.

Example C142_ex_patterns : read_named (str "=+123;") (str "=abc;") (str "token0=+123;token1=abc;toKEN2=-456.5;") 0%Z [] S754_nan =
    Ok (true, named_fields (str "=+123;") (str "=abc;") 123%Z (str "abc") (S754_finite true 8030832929275904 (-44))) /\
  read_named (str "=+123;") (str "=abc;") (str "tunes=+123;token1=abc;toKEN2=-456.5;") 0%Z [] S754_nan = Ok (false, named_fields (str "=+123;") (str "=abc;") 0%Z [] S754_nan).
Proof. split; reflexivity. Qed.

(* the star stops at the first n and never tries a later one, and the last sign may be missing;
   if the field has no n the search runs past its end, and the second step after that needs memory *)
Theorem C142_star_refuted :
  like (str "to*n?") (str "=1;") (str "tonnage-nn") tt = Ok (false, tt) /\
  Match_Spec.glob Ascii.eqb "*"%char "?"%char (str "to*n?") (str "tonnage-nn") /\
  like (str "to*n?") (str "=1;") (str "ton") tt = Ok (true, tt) /\
  like (str "to*n?") [zero] (str "toke") tt = UB.
Proof.
  split; [reflexivity|]. split; [|split; reflexivity].
  do 2 (apply Match_Spec.g_char; [discriminate|discriminate|reflexivity|]).
  do 6 apply Match_Spec.g_many. apply Match_Spec.g_many0. apply Match_Spec.g_char; [discriminate|discriminate|reflexivity|].
  apply Match_Spec.g_one. constructor.
Qed.
Print Assumptions C142_star_refuted.

(* The order of texts that the ranges of names use: exactly one of before, equal, after. *)
Theorem C142_text_order : forall a b, (text_ltb a b = true <-> text_before a b) /\
  ((text_before a b /\ a <> b /\ ~ text_before b a) \/ (~ text_before a b /\ a = b /\ ~ text_before b a) \/ (~ text_before a b /\ a <> b /\ text_before b a)) /\
  (forall c, text_before a b -> text_before b c -> text_before a c).
Proof.
  intros a b. split; [apply text_ltb_iff|]. rewrite <- !text_ltb_iff. split.
  - destruct (text_tricho a b) as [(H1 & H2 & H3)|[(H1 & H2 & H3)|(H1 & H2 & H3)]]; rewrite H1, H3; intuition discriminate.
  - intros c. rewrite <- !text_ltb_iff. apply text_ltb_trans.
Qed.
Print Assumptions C142_text_order.

Example C142_ex_order : text_ltb (str "Zebra") (str "aaa") = true /\ text_ltb (str "zzz") (str "zzza") = true /\ text_ltb (str "rum") (str "aaa") = false.
Proof. repeat split. Qed.

(* read exactly when the words are there, the temperature is neither below low nor above hi, and
   the name is neither before aaa nor after zzz *)
Theorem C142_ranges : forall garbage low hi s d0 s0 ts,
  (read_ranged garbage low hi s d0 s0 = Ok (true, ts) <->
   exists x name more d, compressed_tokens (str "=;") s (str "temperature" :: x :: str "name" :: name :: more) /\
     parse_real double x garbage = Ok (true, d) /\ SFltb d low = false /\ SFltb hi d = false /\
     ~ text_before name (str "aaa") /\ ~ text_before (str "zzz") name /\ ts = ranged_fields garbage low hi d name).
Proof.
  intros g low hi s d0 s0 ts. unfold read_ranged. rewrite parse_true_iff. unfold ranged_fields, check, field_double_in, field_text_in.
  assert (LR : forall x d, inrange (parse_real double) SFltb g low hi x d0 = Ok (true, d) <->
    parse_real double x g = Ok (true, d) /\ SFltb d low = false /\ SFltb hi d = false).
  { intros x d. unfold inrange. destruct (parse_real double x g) as [[b v]| |]; cbn [bind]; [|split; [discriminate|intros (H & _); discriminate]..].
    destruct b; cbn [negb]; [|split; [discriminate|intros (H & _); discriminate]].
    destruct (SFltb v low) eqn:E1; [split; [discriminate|intros (H & H2 & _); congruence]|].
    destruct (SFltb hi v) eqn:E2; [split; [discriminate|intros (H & _ & H2); congruence]|].
    split; [intros H; injection H as <-; auto|intros (H & _); exact H]. }
  assert (LT : forall x y, inrange conv_string text_ltb [] (str "aaa") (str "zzz") x s0 = Ok (true, y) <->
    y = x /\ ~ text_before x (str "aaa") /\ ~ text_before (str "zzz") x).
  { intros x y. rewrite <- !text_ltb_false. unfold inrange, conv_string. cbn [bind negb].
    destruct (text_ltb x (str "aaa")); [split; [discriminate|intros (_ & H & _); discriminate]|].
    destruct (text_ltb (str "zzz") x); [split; [discriminate|intros (_ & _ & H); discriminate]|].
    split; [intros H; injection H as <-; auto|intros (-> & _); reflexivity]. }
  split.
  - intros (texts & Hc & Hr). do 4 (apply results_cons in Hr as (? & ? & ? & ? & -> & ? & Hr & ->)). apply results_nil in Hr as ->.
    cbn [t_conv t_val t_type] in *. repeat match goal with u : unit |- _ => destruct u end.
    repeat match goal with
      | H : expect _ _ _ = _ |- _ => apply expect_iff in H; subst
      | H : inrange (parse_real double) _ _ _ _ _ _ = _ |- _ => apply LR in H as (? & ? & ?)
      | H : inrange conv_string _ _ _ _ _ _ = _ |- _ => apply LT in H as (-> & ? & ?)
      end.
    do 4 eexists. split; [exact Hc|]. repeat (split; [eassumption|]). reflexivity.
  - intros (x & name & more & d & Hc & H1 & H2 & H3 & H4 & H5 & ->). eexists. split; [exact Hc|].
    apply results_cons. do 4 eexists. split; [reflexivity|]. cbn [t_conv t_val]. split; [apply (proj2 (expect_iff _ _)); reflexivity|]. split; [|reflexivity].
    apply results_cons. do 4 eexists. split; [reflexivity|]. cbn [t_conv t_val]. split; [apply (proj2 (LR x d)); exact (conj H1 (conj H2 H3))|]. split; [|reflexivity].
    apply results_cons. do 4 eexists. split; [reflexivity|]. cbn [t_conv t_val]. split; [apply (proj2 (expect_iff _ _)); reflexivity|]. split; [|reflexivity].
    apply results_cons. do 4 eexists. split; [reflexivity|]. cbn [t_conv t_val]. split; [apply (proj2 (LT name name)); exact (conj eq_refl (conj H4 H5))|]. split; [now apply results_nil|reflexivity].
Qed.
Print Assumptions C142_ranges.

Example C142_ex_ranges : let low := S754_finite true 7602176000000000 (-44) in let hi := S754_finite false 7602176000000000 (-44) in
  read_ranged S754_nan low hi (str "temperature=+123.5;name=rumpelstilzchen") (S754_zero false) [] =
    Ok (true, ranged_fields S754_nan low hi (S754_finite false 8690539905941504 (-46)) (str "rumpelstilzchen")) /\
  read_ranged S754_nan low hi (str "temperature=-456.5;name=x") (S754_zero false) [] = Ok (false, ranged_fields S754_nan low hi (S754_zero false) []) /\
  read_ranged S754_nan low hi (str "temperature=1;name=Bob") (S754_zero false) [] =
    Ok (false, ranged_fields S754_nan low hi (S754_finite false 4503599627370496 (-52)) []).
Proof. repeat split; reflexivity. Qed.

(* not-a-number is in every range *)
Theorem C142_nan_in_range_refuted : forall garbage low hi d0 s0,
  read_ranged garbage low hi (str "temperature=nan;name=bob") d0 s0 = Ok (true, ranged_fields garbage low hi S754_nan (str "bob")) /\
  SFleb low S754_nan = false /\ SFleb S754_nan hi = false.
Proof. intros garbage low hi d0 s0. split; [destruct low, hi; reflexivity|destruct low, hi; auto]. Qed.
Print Assumptions C142_nan_in_range_refuted.

(* ---- C143: trimmed fields ---- *)
(* three fields or more are always read; a field of nothing but stars keeps one of them in the third place *)
Theorem C143_trimmed : forall s x0 x1 x2 more s0 s1 s2, compressed_tokens (str ",") s (x0 :: x1 :: x2 :: more) ->
  exists y0 y1 y2, trimmed_both (is_delim (str "*")) x0 y0 /\ trimmed_left (is_delim (str "*")) x1 y1 /\ trimmed_end (is_delim (str "*")) x2 y2 /\
    read_trimmed s s0 s1 s2 = Ok (true, [field_trim 0 (str "*") y0; field_trim 1 (str "*") y1; field_trim 2 (str "*") y2]).
Proof.
  intros s x0 x1 x2 more s0 s1 s2 Hc.
  destruct (trim_both_ok (str "*") x0 s0) as (y0 & H0 & E0).
  destruct (trim_start_ok (conv_signed t_int n_int) (str "*") x1 s1 0%Z) as (y1 & H1 & E1 & _).
  destruct (trim_end_ok (conv_signed t_int n_int) (str "*") x2 s2 0%Z) as (y2 & H2 & E2 & _).
  exists y0, y1, y2. repeat (split; [assumption|]). apply parse_true_iff. eexists. split; [exact Hc|].
  apply results_cons. do 4 eexists. split; [reflexivity|]. cbn [t_conv t_val field_trim]. split; [exact E0|]. split; [|reflexivity].
  apply results_cons. do 4 eexists. split; [reflexivity|]. cbn [t_conv t_val field_trim]. split; [exact E1|]. split; [|reflexivity].
  apply results_cons. do 4 eexists. split; [reflexivity|]. cbn [t_conv t_val field_trim]. split; [exact E2|]. split; [now apply results_nil|reflexivity].
Qed.
Print Assumptions C143_trimmed.

Example C143_ex_trimmed : read_trimmed (str "****abc123****,****abc123****,****abc123****") [] [] [] =
    Ok (true, [field_trim 0 (str "*") (str "abc123"); field_trim 1 (str "*") (str "abc123****"); field_trim 2 (str "*") (str "****abc123")]).
Proof. reflexivity. Qed.

(* numbers: read exactly when what is left converts *)
Theorem C143_trimmed_numbers : forall s s0 i0 d0 ts,
  (read_trimmed_numbers s s0 i0 d0 = Ok (true, ts) <->
   exists x0 x1 x2 more y0 y1 y2 i d, compressed_tokens (str ",") s (x0 :: x1 :: x2 :: more) /\
     trimmed_both (is_delim (str "*?")) x0 y0 /\ trimmed_left (is_delim (str "?*")) x1 y1 /\ trimmed_end (is_delim (str "*?")) x2 y2 /\
     int_text y1 i /\ parse_real double y2 d0 = Ok (true, d) /\
     ts = [field_trim 0 (str "*?") y0; field_trim_int 1 (str "?*") i; field_trim_double 2 (str "*?") d]).
Proof.
  intros s s0 i0 d0 ts. unfold read_trimmed_numbers. rewrite parse_true_iff. unfold field_trim, field_trim_int, field_trim_double. split.
  - intros (texts & Hc & Hr).
    apply results_cons in Hr as (x0 & m0 & v0 & n0 & -> & E0 & Hr & ->).
    apply results_cons in Hr as (x1 & m1 & v1 & n1 & -> & E1 & Hr & ->).
    apply results_cons in Hr as (x2 & m2 & v2 & n2 & -> & E2 & Hr & ->). apply results_nil in Hr as ->.
    cbn [t_conv t_val t_type] in *.
    destruct (trim_both_ok (str "*?") x0 s0) as (y0 & H0 & E0').
    destruct (trim_start_ok (conv_signed t_int n_int) (str "?*") x1 [] i0) as (y1 & H1 & _ & E1').
    destruct (trim_end_ok (parse_real double) (str "*?") x2 [] d0) as (y2 & H2 & _ & E2').
    rewrite E1' in E1. apply int_conv_iff in E1. rewrite E2' in E2. rewrite E0' in E0. injection E0 as <-.
    exists x0, x1, x2, m2, y0, y1, y2, v1, v2. auto 10.
  - intros (x0 & x1 & x2 & more & y0 & y1 & y2 & i & d & Hc & H0 & H1 & H2 & Hi & Hd & ->). eexists. split; [exact Hc|].
    destruct (trim_both_ok (str "*?") x0 s0) as (y0' & H0' & E0').
    destruct (trim_start_ok (conv_signed t_int n_int) (str "?*") x1 [] i0) as (y1' & H1' & _ & E1').
    destruct (trim_end_ok (parse_real double) (str "*?") x2 [] d0) as (y2' & H2' & _ & E2').
    rewrite (trimmed_left_unique _ _ _ _ H1' H1) in E1'. rewrite (trimmed_end_unique _ _ _ _ H2' H2) in E2'. rewrite (trimmed_both_unique _ _ _ _ H0' H0) in E0'.
    apply results_cons. do 4 eexists. split; [reflexivity|]. cbn [t_conv t_val]. split; [exact E0'|]. split; [|reflexivity].
    apply results_cons. do 4 eexists. split; [reflexivity|]. cbn [t_conv t_val]. split; [rewrite E1'; apply (proj2 (int_conv_iff _ _ _)); exact Hi|]. split; [|reflexivity].
    apply results_cons. do 4 eexists. split; [reflexivity|]. cbn [t_conv t_val]. split; [rewrite E2'; exact Hd|]. split; [now apply results_nil|reflexivity].
Qed.
Print Assumptions C143_trimmed_numbers.

Example C143_ex_numbers : read_trimmed_numbers (str "*?*?a string*?*?,*?*123456,123.5?*?*?") [] 0%Z S754_nan =
    Ok (true, [field_trim 0 (str "*?") (str "a string"); field_trim_int 1 (str "?*") 123456%Z; field_trim_double 2 (str "*?") (S754_finite false 8690539905941504 (-46))]) /\
  read_trimmed_numbers (str "a,7*,1") [] 0%Z S754_nan = Ok (false, [field_trim 0 (str "*?") (str "a"); field_trim_int 1 (str "?*") 0%Z; field_trim_double 2 (str "*?") S754_nan]).
Proof. split; reflexivity. Qed.

(* a field of nothing but stars is not empty after trimming at its end only *)
Theorem C143_trimmed_end_refuted : read_trimmed (str "**,**,**") [] [] [] =
  Ok (true, [field_trim 0 (str "*") []; field_trim 1 (str "*") []; field_trim 2 (str "*") (str "*")]).
Proof. reflexivity. Qed.
Print Assumptions C143_trimmed_end_refuted.

Theorem C143_cases : forall s s0 s1 ts,
  (read_cases s s0 s1 = Ok (true, ts) <->
   exists x0 x1 more, compressed_tokens (str ",") s (x0 :: x1 :: more) /\ ts = [field_lcase (map lower x0); field_ucase (map upper x1)]).
Proof.
  intros s s0 s1 ts. unfold read_cases. rewrite parse_true_iff. unfold field_lcase, field_ucase. split.
  - intros (texts & Hc & Hr).
    apply results_cons in Hr as (x0 & m0 & v0 & n0 & -> & E0 & Hr & ->).
    apply results_cons in Hr as (x1 & m1 & v1 & n1 & -> & E1 & Hr & ->). apply results_nil in Hr as ->. cbn [t_conv t_val t_type] in *.
    rewrite (proj1 (Text_Props.C66_case x0 s0)) in E0. rewrite (proj2 (Text_Props.C66_case x1 s1)) in E1.
    injection E0 as <-. injection E1 as <-. do 3 eexists. split; [exact Hc|reflexivity].
  - intros (x0 & x1 & more & Hc & ->). eexists. split; [exact Hc|].
    apply results_cons. do 4 eexists. split; [reflexivity|]. cbn [t_conv t_val]. split; [apply Text_Props.C66_case|]. split; [|reflexivity].
    apply results_cons. do 4 eexists. split; [reflexivity|]. cbn [t_conv t_val]. split; [apply Text_Props.C66_case|]. split; [now apply results_nil|reflexivity].
  Unshelve. all: exact [].
Qed.
Print Assumptions C143_cases.

Example C143_ex_cases : read_cases (str "AbCd,EfGhI") [] [] = Ok (true, [field_lcase (str "abcd"); field_ucase (str "EFGHI")]).
Proof. reflexivity. Qed.
