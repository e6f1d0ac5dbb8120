From Verif Require Import Base Split_Model Split_Spec Split_Proofs Num_Model Num_Spec Num_Spec2 Num_Proofs Num_Props Parse_Model Parse_Spec Parse_Spec2 Parse_Proofs Parse_Proofs2 Parse_Props
  Sink_Model Sink_Props Text_Model Text_Props Serial_Proofs Date_Model Date_Spec.
Local Open Scope nat_scope.

Lemma Forall2_len {A B} (R : A -> B -> Prop) l l' : Forall2 R l l' -> length l = length l'.
Proof. induction 1; cbn; congruence. Qed.

Section Same.
Context {T : Type}.
Variable conv : converter T.
Lemma convert_same_targets s toks vs : forall i,
  convert_all s toks i (map (Target T conv) vs) = (' (b, vs') <- convert_same conv s toks i vs ;; Ok (b, map (Target T conv) vs')).
Proof.
  induction vs as [|v vs IH]; intros i; [reflexivity|]. cbn [map convert_all convert_same]. destruct (rd toks i) as [r| |]; try reflexivity. cbn [bind].
  unfold run_target. cbn [t_type t_conv t_val]. destruct (conv (sub s r) v) as [[b w]| |]; try reflexivity. cbn [bind].
  destruct b; cbn [negb]; [|reflexivity]. rewrite IH. destruct (convert_same conv s toks (S i) vs) as [[b vs']| |]; reflexivity.
Qed.
(* the same as parse_values on targets of one type *)
Lemma parse_same_targets delims s vs :
  parse_values delims s (map (Target T conv) vs) = (' (b, vs') <- parse_same conv delims s vs ;; Ok (b, map (Target T conv) vs')).
Proof.
  unfold parse_values, parse_same. rewrite map_length. destruct (split_n (delim_pred delims) s (length vs) 1) as [[toks n]| |]; try reflexivity. cbn [bind].
  destruct (n <? length vs); [reflexivity|]. apply convert_same_targets.
Qed.
Lemma convert_same_length s toks vs : forall i b vs', convert_same conv s toks i vs = Ok (b, vs') -> length vs' = length vs.
Proof.
  induction vs as [|v vs IH]; intros i b vs' H; cbn in H; [congruence|]. destruct (rd toks i) as [r| |]; try discriminate. cbn in H.
  destruct (conv (sub s r) v) as [[c w]| |]; try discriminate. cbn in H. destruct c; cbn in H; [|inversion H; reflexivity].
  destruct (convert_same conv s toks (S i) vs) as [[c' ws]| |] eqn:E; try discriminate. cbn in H. inversion H; subst. cbn. now rewrite (IH _ _ _ E).
Qed.
Lemma parse_same_length delims s vs b vs' : parse_same conv delims s vs = Ok (b, vs') -> length vs' = length vs.
Proof.
  unfold parse_same. destruct (split_n (delim_pred delims) s (length vs) 1) as [[toks n]| |]; try discriminate. cbn [bind].
  destruct (n <? length vs); [congruence|]. apply convert_same_length.
Qed.
Lemma same_total delims s vs :  (forall x t, exists r, conv x t = Ok r) -> exists b vs', parse_same conv delims s vs = Ok (b, vs').
Proof.
  intros Hc. destruct (C06_tokens_exist_unique delims s) as (texts & Ht0 & _). destruct (C06_total delims s (map (Target T conv) vs) texts Ht0) as (b & ts' & E).
  { intros i t x Ht _. apply nth_error_In, in_map_iff in Ht as (v & <- & _). apply Hc. }
  rewrite parse_same_targets in E. destruct (parse_same conv delims s vs) as [[c ws]| |]; try discriminate. eauto.
Qed.
(* success, for a converter whose verdict does not depend on the old value *)
Variable P : list ascii -> T -> Prop.
Hypothesis conv_iff : forall x old w, conv x old = Ok (true, w) <-> P x w.
Lemma convert_same_iff s toks vs : forall i vs', i + length vs <= length toks ->
  (convert_same conv s toks i vs = Ok (true, vs') <-> Forall2 P (firstn (length vs) (map (sub s) (skipn i toks))) vs').
Proof.
  induction vs as [|v vs IH]; intros i vs' Hl; cbn [convert_same length firstn].
  - split; [intros H; injection H as <-; constructor|]. intros H. inversion H. reflexivity.
  - cbn [length] in Hl. destruct (nth_error toks i) as [r|] eqn:Er; [|apply nth_error_None in Er; lia].
    rewrite (rd_nth _ _ _ Er). cbn [bind]. rewrite (skipn_nth_cons _ _ _ Er). cbn [map].
    specialize (IH (S i)). destruct (conv (sub s r) v) as [[c w]| |] eqn:Ec; cbn [bind].
    2,3: split; [discriminate|intros H; inversion H as [|? w ? ? Hp]; subst; apply (conv_iff _ v) in Hp; congruence].
    destruct c; cbn [negb].
    + assert (Hp : P (sub s r) w) by (apply (conv_iff _ v); exact Ec). split.
      * intros H. destruct (convert_same conv s toks (S i) vs) as [[b ws]| |] eqn:Ew; try discriminate. cbn [bind] in H. injection H as -> <-.
        constructor; [exact Hp|]. apply IH; [lia|reflexivity].
      * intros H. inversion H as [|? w' ? vs2 Hp' H2]; subst. apply (conv_iff _ v) in Hp'. assert (w' = w) by congruence. subst w'.
        apply IH in H2; [|lia]. now rewrite H2.
    + split; [discriminate|]. intros H. inversion H as [|? w' ? vs2 Hp' H2]; subst. apply (conv_iff _ v) in Hp'. congruence.
Qed.
Lemma parse_same_iff delims s vs texts vs' : compressed_tokens delims s texts ->
  (parse_same conv delims s vs = Ok (true, vs') <-> length vs <= length texts /\ Forall2 P (firstn (length vs) texts) vs').
Proof.
  intros (toks & Ht & ->). rewrite map_length.
  destruct (split_n_1 delims s (length vs)) as (toks' & Ht' & E).
  rewrite <- (tokens_unique _ _ _ _ _ _ Ht Ht') in E. clear toks' Ht'.
  unfold parse_same. rewrite E. cbn [bind].
  destruct (Nat.ltb_spec (Nat.min (length vs) (length toks)) (length vs)) as [H|H].
  - split; [discriminate|]. intros [H2 _]. lia.
  - rewrite convert_same_iff by (rewrite firstn_length; lia). cbn [skipn].
    rewrite <- firstn_map, firstn_firstn, Nat.min_id. split; [intros F; split; [lia|exact F]|intros [_ F]; exact F].
Qed.
End Same.

Definition is_uint (x : list ascii) (v : Z) : Prop := unsigned_text x v /\ (v <= 4294967295)%Z.
Lemma uint_iff x old w : conv_unsigned t_uint n_uint x old = Ok (true, w) <-> is_uint x w.
Proof.
  destruct (proj1 (proj2 (C18_unsigned_exact x))) as [(o & E) H]. unfold conv_unsigned. rewrite E. cbn [bind]. unfold is_uint. rewrite <- H, E.
  destruct o; split; congruence.
Qed.
Lemma uint_total x old : exists r, conv_unsigned t_uint n_uint x old = Ok r.
Proof. destruct (proj1 (proj2 (C18_unsigned_exact x))) as [(o & E) _]. unfold conv_unsigned. rewrite E. cbn [bind]. eauto. Qed.

Lemma datetime_iff x t dt : conv_datetime x t = Ok (true, dt) <-> accepted x dt.
Proof.
  destruct (C06_tokens_exist_unique (str "-:. ") x) as (texts & Hc & Hu).
  pose proof (fun vs' => parse_same_iff _ is_uint uint_iff (str "-:. ") x [year t; month t; day t; hour t; minute t; second t; msecond t] texts vs' Hc) as H.
  cbn [length] in H. unfold conv_datetime. split.
  - intros E. destruct (parse_same _ _ _ _) as [[b vs]| |] eqn:Ep; try discriminate. cbn [bind] in E.
    destruct vs as [|y [|mo [|d [|h [|mi [|s [|ms [|? ?]]]]]]]]; try discriminate. injection E as -> <-.
    destruct (proj1 (H _) eq_refl) as [Hl Hf]. exists (firstn 7 texts), (skipn 7 texts). split; [now rewrite firstn_skipn|]. exact Hf.
  - intros (ts & more & Hc' & Hf). assert (El : length ts = 7) by (clear - Hf; apply Forall2_len in Hf; exact Hf).
    apply Hu in Hc'. rewrite (proj2 (H (parts dt))).
    + destruct dt; reflexivity.
    + rewrite <- Hc'. split; [rewrite app_length; lia|]. rewrite firstn_app, El, Nat.sub_diag, firstn_O, app_nil_r, firstn_all2 by lia. exact Hf.
Qed.
Lemma datetime_total x t : exists b dt, conv_datetime x t = Ok (b, dt).
Proof.
  unfold conv_datetime. set (vs := [year t; month t; day t; hour t; minute t; second t; msecond t]).
  destruct (same_total (conv_unsigned t_uint n_uint) (str "-:. ") x vs uint_total) as (b & ws & E). rewrite E. cbn [bind].
  apply parse_same_length in E. cbn in E. destruct ws as [|y [|mo [|d [|h [|mi [|s [|ms [|? ?]]]]]]]]; try discriminate. eauto.
Qed.

(* texts with delimiters of any kind between them *)
Definition mixed (rest : list (list ascii * list ascii)) : list ascii := concat (map (fun q => fst q ++ snd q) rest).
Lemma cuts_mixed (p : ascii -> bool) : forall rest t pre, t <> [] -> Forall (fun c => p c = false) t ->
  Forall (fun q => fst q <> [] /\ Forall (fun c => p c = true) (fst q) /\ snd q <> [] /\ Forall (fun c => p c = false) (snd q)) rest ->
  exists toks, cuts p (pre ++ t ++ mixed rest) (fun f e => f) (fun f e => e) (length pre) toks /\
    map (sub (pre ++ t ++ mixed rest)) toks = t :: map snd rest.
Proof.
  induction rest as [|[sep u] rest IH]; intros t pre Ht1 Ht2 Hf.
  - exists [(length pre, length (pre ++ t ++ mixed []))]. unfold mixed. cbn [map concat]. rewrite app_nil_r. split.
    + apply cut_last; [rewrite app_length; lia|]. rewrite app_length.
      rewrite <- (app_nil_r t) at 1. now apply all_in_free.
    + cbn [map]. f_equal. rewrite app_length. rewrite <- (app_nil_r t) at 1. apply sub_here.
  - inversion Hf as [|? ? (Hs1 & Hs2 & Hu1 & Hu2) Hf']; subst. cbn [fst snd] in *.
    change (mixed ((sep, u) :: rest)) with ((sep ++ u) ++ mixed rest). rewrite <- app_assoc.
    destruct (IH u (pre ++ t ++ sep) Hu1 Hu2 Hf') as (toks & Hc & Hm).
    rewrite <- !app_assoc in Hc, Hm.
    exists ((length pre, length pre + length t) :: toks). split.
    + assert (Hlen : length (pre ++ t ++ sep) = length pre + length t + length sep) by (rewrite !app_length; lia).
      apply (cut_more p _ (fun f e => f) (fun f e => e) (length pre) (length pre + length t) (length pre + length t + length sep)).
      * lia.
      * destruct sep; [congruence|simpl; lia].
      * rewrite !app_length. lia.
      * now apply all_in_free.
      * pose proof (all_in_all p (pre ++ t) sep (u ++ mixed rest) Hs2) as H.
        rewrite <- app_assoc, app_length in H. exact H.
      * right. destruct u as [|c u]; [congruence|].
        exists c. split; [|now inversion Hu2].
        replace (pre ++ t ++ sep ++ (c :: u) ++ mixed rest) with ((pre ++ t ++ sep) ++ (c :: u) ++ mixed rest) by now rewrite <- !app_assoc.
        rewrite nth_error_app2 by lia. rewrite Hlen, Nat.sub_diag. reflexivity.
      * cbv beta. rewrite Hlen in Hc. exact Hc.
    + cbn [map]. rewrite sub_here, Hm. reflexivity.
Qed.
Lemma compressed_mixed delims t rest : t <> [] -> (forall c, In c t -> ~ In c delims) ->
  Forall (fun q => fst q <> [] /\ incl (fst q) delims /\ snd q <> [] /\ forall c, In c (snd q) -> ~ In c delims) rest ->
  compressed_tokens delims (t ++ mixed rest) (t :: map snd rest).
Proof.
  intros Ht1 Ht2 Hf. destruct (cuts_mixed (is_delim delims) rest t [] Ht1) as (toks & Hc & Hm).
  - apply Forall_forall. intros c Hc. apply is_delim_out. auto.
  - eapply Forall_impl; [|exact Hf]. cbn. intros q (H1 & H2 & H3 & H4). split; [exact H1|]. split; [apply Forall_forall; intros c Hc; apply is_delim_in; auto|].
    split; [exact H3|]. apply Forall_forall. intros c Hc. apply is_delim_out. auto.
  - exists toks. cbn [app length] in *. split; [|now rewrite Hm]. right. split; [destruct t; [congruence|discriminate]|exact Hc].
Qed.

Lemma padded_uint w x v : padded w x v -> (0 <= v <= 4294967295)%Z -> is_uint x v /\ Num_Spec.digits x.
Proof.
  intros (c & Hc & ->) Hv. destruct (padded_value (w - length c) c v Hc ltac:(lia)) as [D E]. split; [|exact D]. split; [|lia].
  exists [], (repeat "0"%char (w - length c) ++ c). auto.
Qed.
Lemma digits_off x c : Num_Spec.digits x -> In c x -> ~ In c (str "-:. ").
Proof. intros [_ D] Hc. rewrite Forall_forall in D. specialize (D c Hc). unfold Num_Spec.is_digit in D. clear Hc. intros [H|[H|[H|[H|[]]]]]; subst c; destruct D as [D1 D2]; first [now apply D1|now apply D2]. Qed.
Lemma timestamp_accepted x dt : timestamp x dt -> representable dt -> accepted x dt.
Proof.
  intros (y & mo & d & h & mi & s & ms & Py & Pmo & Pd & Ph & Pmi & Ps & Pms & ->) Hr.
  unfold representable, parts in Hr. repeat match goal with H : Forall _ (_ :: _) |- _ => apply Forall_cons_iff in H as [? H] end.
  apply padded_uint in Py as [Uy Dy]; [|assumption]. apply padded_uint in Pmo as [Umo Dmo]; [|assumption]. apply padded_uint in Pd as [Ud Dd]; [|assumption].
  apply padded_uint in Ph as [Uh Dh]; [|assumption]. apply padded_uint in Pmi as [Umi Dmi]; [|assumption]. apply padded_uint in Ps as [Us Ds]; [|assumption].
  apply padded_uint in Pms as [Ums Dms]; [|assumption].
  exists [y; mo; d; h; mi; s; ms], []. split.
  - pose proof (compressed_mixed (str "-:. ") y [(str "-", mo); (str "-", d); (str " ", h); (str ":", mi); (str ":", s); (str ".", ms)]) as C.
    unfold mixed in C. cbn [map concat fst snd] in C. rewrite <- !app_assoc, app_nil_r in C. rewrite app_nil_r. apply C.
    + apply Dy.
    + intros c. now apply digits_off.
    + repeat (apply Forall_cons; [cbn [fst snd]; split; [discriminate|]; split; [intros c [<-|[]]; cbn; tauto|]; split; [match goal with D : Num_Spec.digits ?a |- ?a <> [] => apply D end|intros c; now apply digits_off]|]).
      apply Forall_nil.
  - unfold parts. repeat (constructor; [assumption|]). constructor.
Qed.
Lemma timestamp_chars x dt c : timestamp x dt -> representable dt -> In c x -> Num_Spec.is_digit c \/ In c (str "-:. ").
Proof.
  intros (y & mo & d & h & mi & s & ms & Py & Pmo & Pd & Ph & Pmi & Ps & Pms & ->) Hr.
  unfold representable, parts in Hr. repeat match goal with H : Forall _ (_ :: _) |- _ => apply Forall_cons_iff in H as [? H] end.
  apply padded_uint in Py as [_ Dy]; [|assumption]. apply padded_uint in Pmo as [_ Dmo]; [|assumption]. apply padded_uint in Pd as [_ Dd]; [|assumption].
  apply padded_uint in Ph as [_ Dh]; [|assumption]. apply padded_uint in Pmi as [_ Dmi]; [|assumption]. apply padded_uint in Ps as [_ Ds]; [|assumption].
  apply padded_uint in Pms as [_ Dms]; [|assumption].
  assert (G : forall a, Num_Spec.digits a -> In c a -> Num_Spec.is_digit c) by (intros a [_ D] Hc; rewrite Forall_forall in D; auto).
  rewrite !in_app_iff. intros K. destruct K as [K|[K|[K|[K|[K|[K|[K|[K|[K|[K|[K|[K|K]]]]]]]]]]]]; try (left; eapply G; [|exact K]; assumption); right; destruct K as [<-|[]]; cbn; tauto.
Qed.
Lemma timestamp_nonempty x dt : timestamp x dt -> x <> [].
Proof. intros (y & mo & d & h & mi & s & ms & _ & _ & _ & _ & _ & _ & _ & ->). destruct y; discriminate. Qed.

Lemma format_padded w v : (0 <= v <= 4294967295)%Z -> exists c, format_unsigned v = Ok c /\ padded w (right_align w "0" c) v.
Proof.
  intros Hv. destruct (proj1 (proj2 C20_unsigned_round_trip) v ltac:(cbn; lia)) as (c & E & Hc & _). exists c. split; [exact E|].
  exists c. split; [exact Hc|]. unfold right_align. destruct (Nat.leb_spec w (length c)); [|reflexivity]. now replace (w - length c) with 0 by lia.
Qed.
Lemma print_timestamp dt : representable dt -> exists x, print_datetime dt = Ok x /\ timestamp x dt.
Proof.
  intros Hr. unfold representable, parts in Hr. repeat match goal with H : Forall _ (_ :: _) |- _ => apply Forall_cons_iff in H as [? H] end.
  destruct (format_padded 0 (year dt)) as (y & Ey & Py); [assumption|]. destruct (format_padded 2 (month dt)) as (mo & Emo & Pmo); [assumption|].
  destruct (format_padded 2 (day dt)) as (d & Ed & Pd); [assumption|]. destruct (format_padded 2 (hour dt)) as (h & Eh & Ph); [assumption|].
  destruct (format_padded 2 (minute dt)) as (mi & Emi & Pmi); [assumption|]. destruct (format_padded 2 (second dt)) as (s & Es & Ps); [assumption|].
  destruct (format_padded 3 (msecond dt)) as (ms & Ems & Pms); [assumption|].
  unfold print_datetime. rewrite Ey, Emo, Ed, Eh, Emi, Es, Ems. cbn [bind]. eexists. split; [reflexivity|].
  exists y, (right_align 2 "0" mo), (right_align 2 "0" d), (right_align 2 "0" h), (right_align 2 "0" mi), (right_align 2 "0" s), (right_align 3 "0" ms).
  repeat (split; [assumption|]). reflexivity.
Qed.
Lemma padded_unique w x x' v : padded w x v -> padded w x' v -> x = x'.
Proof. intros (c & Hc & ->) (c' & Hc' & ->). now rewrite (C20_canonical_unique c c' v Hc Hc'). Qed.
Lemma timestamp_unique x x' dt : timestamp x dt -> timestamp x' dt -> x = x'.
Proof.
  intros (y & mo & d & h & mi & s & ms & Py & Pmo & Pd & Ph & Pmi & Ps & Pms & ->) (y' & mo' & d' & h' & mi' & s' & ms' & Py' & Pmo' & Pd' & Ph' & Pmi' & Ps' & Pms' & ->).
  rewrite (padded_unique _ _ _ _ Py Py'), (padded_unique _ _ _ _ Pmo Pmo'), (padded_unique _ _ _ _ Pd Pd'), (padded_unique _ _ _ _ Ph Ph'),
    (padded_unique _ _ _ _ Pmi Pmi'), (padded_unique _ _ _ _ Ps Ps'), (padded_unique _ _ _ _ Pms Pms'). reflexivity.
Qed.
Lemma accepted_representable x dt : accepted x dt -> representable dt.
Proof.
  intros (texts & more & _ & Hf). unfold representable. clear more. induction Hf as [|t v ts vs [(sg & ds & _ & _ & D & ->) Hv] _ IH]; constructor; [|exact IH].
  destruct D as [_ D]. apply dec_bounds in D. lia.
Qed.
Lemma print_all_ok dts : Forall representable dts -> exists texts, print_all dts = Ok texts /\ Forall2 timestamp texts dts.
Proof.
  induction 1 as [|dt dts H _ (texts & E & F)]; [exists []; split; [reflexivity|constructor]|].
  destruct (print_timestamp dt H) as (x & Ex & Hx). exists (x :: texts). cbn [print_all]. rewrite Ex, E. split; [reflexivity|now constructor].
Qed.

(* the converter as a function of the text alone *)
Definition reading (garbage : datetime) (x : list ascii) : option datetime := match conv_datetime x garbage with Ok (true, dt) => Some dt | _ => None end.
Lemma reading_iff g x dt : reading g x = Some dt <-> accepted x dt.
Proof.
  rewrite <- (datetime_iff x g). unfold reading. destruct (datetime_total x g) as (b & v & ->). destruct b; split; congruence.
Qed.
Lemma reading_behaves g x : behaves conv_datetime g (reading g) x.
Proof. unfold behaves, reading. destruct (datetime_total x g) as (b & v & ->). destruct b; eauto. Qed.
Lemma converted_all {V} (ok : list ascii -> option V) texts vs vs' : Forall2 (fun t v => ok t = Some v) texts vs -> converted ok texts vs' -> vs' = vs.
Proof.
  intros Hk. revert vs'. induction Hk as [|t v ts vs H _ IH]; intros vs' Hc; inversion Hc; subst; [reflexivity|f_equal; [congruence|auto]|congruence].
Qed.
Lemma converted_from {V} (ok : list ascii -> option V) texts vs : converted ok texts vs -> Forall (fun v => exists t, ok t = Some v) vs.
Proof.
  induction 1 as [|x v xs vs H _ IH|x xs vs H _ IH]; [constructor| |exact IH]. constructor; [eauto|exact IH].
Qed.
