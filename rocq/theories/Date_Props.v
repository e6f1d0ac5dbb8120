(* C137, C138: lists of points in time with the converter of the examples. *)
From Verif Require Import Base Split_Model Split_Spec Num_Model Num_Spec Num_Props Parse_Model Parse_Spec Parse_Spec2 Parse_Proofs Parse_Proofs2 Parse_Props
  Sink_Model Sink_Props Record_Spec Record_Proofs Date_Model Date_Spec Date_Proofs.
Local Open Scope nat_scope.

(* ---- C137 ---- *)
(* seven variables of one type: the same as any seven variables *)
Theorem C137_same_type : forall T (conv : converter T) delims s vs,
  parse_values delims s (map (Target T conv) vs) = (' (b, vs') <- parse_same conv delims s vs ;; Ok (b, map (Target T conv) vs')).
Proof. intros T conv delims s vs. apply parse_same_targets. Qed.
Print Assumptions C137_same_type.

Example C137_same_type_example : parse_same (conv_unsigned t_uint n_uint) (str "-") (str "1--2") [8; 9]%Z = Ok (true, [1; 2]%Z) /\
  parse_same (conv_unsigned t_uint n_uint) (str "-") (str "1-x") [8; 9]%Z = Ok (false, [1; 9]%Z).
Proof. split; vm_compute; reflexivity. Qed.

Theorem C137_convert : forall x t, (exists b dt, conv_datetime x t = Ok (b, dt)) /\ forall dt, conv_datetime x t = Ok (true, dt) <-> accepted x dt.
Proof. intros x t. split; [apply datetime_total|]. intros dt. apply datetime_iff. Qed.
Print Assumptions C137_convert.

Definition nothing : datetime := DT 7 7 7 7 7 7 7.
Example C137_convert_example :
  conv_datetime (str "2000-01-10 03:01:16.123") nothing = Ok (true, DT 2000 1 10 3 1 16 123) /\
  conv_datetime (str "2000-01-10 03:01:16") nothing = Ok (false, nothing) /\
  conv_datetime (str "2000-01-10 03:0x:16.123") nothing = Ok (false, DT 2000 1 10 3 7 7 7).
Proof. repeat split; vm_compute; reflexivity. Qed.

Theorem C137_list : forall garbage s c, exists texts dts, compressed_tokens (str "|") s texts /\
  converted (reading garbage) texts dts /\ (forall x dt, reading garbage x = Some dt <-> accepted x dt) /\
  parse_container conv_datetime garbage (fun c v => c ++ [v]) (str "|") s 1 c = Ok (c ++ dts, length texts).
Proof.
  intros g s c. destruct (C06_tokens_exist_unique (str "|") s) as (texts & (toks & Ht & ->) & _).
  assert (Hb : Forall (fun r => behaves conv_datetime g (reading g) (sub s r)) toks) by (apply Forall_forall; intros r _; apply reading_behaves).
  destruct (C07_sequence datetime conv_datetime g (reading g) (str "|") s 1 c toks Ht Hb) as (vs & Hv & E).
  exists (map (sub s) toks), vs. split; [now exists toks|]. split; [exact Hv|]. split; [apply reading_iff|]. now rewrite map_length.
Qed.
Print Assumptions C137_list.

Example C137_list_example : parse_container conv_datetime nothing (fun c v => c ++ [v]) (str "|") (str "2000-01-10 03:01:16.123|later|1999-12-31 23:59:59.999") 1 [] =
  Ok ([DT 2000 1 10 3 1 16 123; DT 1999 12 31 23 59 59 999], 3).
Proof. vm_compute. reflexivity. Qed.

(* nothing checks the ranges of the parts, the order of the delimiters or the end of the text *)
Theorem C137_calendar_refuted : forall g, conv_datetime (str "0-99-99 99:99:99.9999") g = Ok (true, DT 0 99 99 99 99 99 9999).
Proof. intros g. apply C137_convert. exists [str "0"; str "99"; str "99"; str "99"; str "99"; str "99"; str "9999"], []. split.
  - exact (tokens_by_split (str "-:. ") (str "0-99-99 99:99:99.9999") [(0,1); (2,4); (5,7); (8,10); (11,13); (14,16); (17,21)] 7 eq_refl).
  - repeat (apply Forall2_cons; [split; [|cbn; lia]; eexists [], _; split; [now left|]; split; [reflexivity|]; split; [split; [discriminate|apply Num_Proofs.digb_all; reflexivity]|reflexivity]|]).
    constructor.
Qed.
Print Assumptions C137_calendar_refuted.
Theorem C137_format_refuted : conv_datetime (str "2000.01:10--03 01 16:123 and the rest") nothing = Ok (true, DT 2000 1 10 3 1 16 123).
Proof. vm_compute. reflexivity. Qed.
Print Assumptions C137_format_refuted.

(* ---- C138 ---- *)
Theorem C138_print : forall dt, representable dt -> exists x, print_datetime dt = Ok x /\ timestamp x dt /\ forall y, timestamp y dt -> y = x.
Proof.
  intros dt H. destruct (print_timestamp dt H) as (x & E & Hx). exists x. split; [exact E|]. split; [exact Hx|]. intros y Hy. eapply timestamp_unique; eassumption.
Qed.
Print Assumptions C138_print.

Example C138_print_example : print_datetime (DT 2000 1 10 3 1 16 7) = Ok (str "2000-01-10 03:01:16.007") /\
  print_datetime (DT 12345 100 0 0 0 0 1000) = Ok (str "12345-100-00 00:00:00.1000").
Proof. split; vm_compute; reflexivity. Qed.

Lemma stamps_parsed garbage texts dts c : Forall2 timestamp texts dts -> Forall representable dts ->
  parse_container conv_datetime garbage (fun c v => c ++ [v]) (str "|") (separated (str "|") texts) 1 c = Ok (c ++ dts, length dts).
Proof.
  intros H Hr. assert (Hk : Forall2 (fun t dt => reading garbage t = Some dt) texts dts /\ Forall (fun t => t <> [] /\ forall c, In c t -> ~ In c (str "|")) texts).
  { induction H as [|t dt texts dts Ht _ IH]; [split; constructor|]. inversion Hr; subst. destruct (IH ltac:(assumption)) as [I1 I2]. split; constructor; auto.
    - apply reading_iff. now apply timestamp_accepted.
    - split; [now apply timestamp_nonempty in Ht|]. intros c' Hc [<-|[]]. destruct (timestamp_chars t dt _ Ht ltac:(assumption) Hc) as [D|D].
      + unfold Num_Spec.is_digit in D. destruct D as [_ D]. now apply D.
      + destruct D as [D|[D|[D|[D|[]]]]]; discriminate. }
  destruct Hk as [Hk Hf]. pose proof (compressed_separated (str "|") (str "|") texts ltac:(discriminate) (incl_refl _) Hf) as Hc.
  destruct (C137_list garbage (separated (str "|") texts) c) as (ts & vs & Ht & Hv & _ & E).
  rewrite (compressed_unique _ _ _ _ Ht Hc) in *. rewrite (converted_all _ _ _ _ Hk Hv) in E. now rewrite (Forall2_len _ _ _ Hk) in E.
Qed.
Theorem C138_round_trip : forall garbage dts c, Forall representable dts ->
  exists texts, print_all dts = Ok texts /\ Forall2 timestamp texts dts /\
    parse_container conv_datetime garbage (fun c v => c ++ [v]) (str "|") (separated (str "|") texts) 1 c = Ok (c ++ dts, length dts).
Proof.
  intros g dts c H. destruct (print_all_ok dts H) as (texts & E & F). exists texts. split; [exact E|]. split; [exact F|]. now apply stamps_parsed.
Qed.
Print Assumptions C138_round_trip.

Example C138_round_trip_example : parse_container conv_datetime nothing (fun c v => c ++ [v]) (str "|") (str "4294967295-00-00 00:00:00.000|1-02-03 04:05:06.007") 1 [] =
  Ok ([DT 4294967295 0 0 0 0 0 0; DT 1 2 3 4 5 6 7], 2) /\
  print_all [DT 4294967295 0 0 0 0 0 0; DT 1 2 3 4 5 6 7] = Ok [str "4294967295-00-00 00:00:00.000"; str "1-02-03 04:05:06.007"].
Proof. split; vm_compute; reflexivity. Qed.

(* the example prints the items it was given *)
Theorem C138_program : forall garbage texts dts, Forall2 timestamp texts dts -> Forall representable dts ->
  parse_example05 garbage (separated (str "|") texts) = Ok texts.
Proof.
  intros g texts dts H Hr. unfold parse_example05. rewrite (stamps_parsed g texts dts [] H Hr). cbn [bind app].
  destruct (print_all_ok dts Hr) as (texts' & -> & F). f_equal. clear - H F. revert texts' F.
  induction H as [|t dt texts dts Ht _ IH]; intros texts' F; inversion F; subst; [reflexivity|]. f_equal; [eapply timestamp_unique; eassumption|auto].
Qed.
Print Assumptions C138_program.

Example C138_program_example : parse_example05 nothing (str "2000-01-10 03:01:16.123|2001-02-22 05:12:24.234") =
  Ok [str "2000-01-10 03:01:16.123"; str "2001-02-22 05:12:24.234"] /\
  parse_example05 nothing (str "2000-1-10 3:1:16.5|2001-02-22") = Ok [str "2000-01-10 03:01:16.005"].
Proof. split; vm_compute; reflexivity. Qed.

(* whatever it is given, it prints time stamps, no more than there are items *)
Theorem C138_any_text : forall garbage s, exists out dts, parse_example05 garbage s = Ok out /\ Forall2 timestamp out dts.
Proof.
  intros g s. unfold parse_example05. destruct (C137_list g s []) as (texts & dts & _ & Hv & Hi & E). rewrite E. cbn [bind app].
  assert (Hr : Forall representable dts).
  { eapply Forall_impl; [|exact (converted_from _ _ _ Hv)]. cbn. intros dt (t & Ht). apply Hi in Ht. now apply accepted_representable in Ht. }
  destruct (print_all_ok dts Hr) as (out & -> & F). eauto.
Qed.
Print Assumptions C138_any_text.

Example C138_any_text_example : parse_example05 nothing (str "|x|2000-01-10||03:01:16.123|") = Ok [].
Proof. vm_compute. reflexivity. Qed.

(* parse_example06: a record that ends in a list of points in time *)
Theorem C138_event : forall garbage id0 name0 location0 dts0 idx id name location texts dts,
  unsigned_text idx id -> (id <= 4294967295)%Z -> name <> [] -> location <> [] -> ~ In "|"%char name -> ~ In "|"%char location ->
  texts <> [] -> Forall2 timestamp texts dts -> Forall representable dts ->
  parse_event garbage (separated (str "|") [idx; name; location; separated (str ",") texts]) id0 name0 location0 dts0 =
    Ok (true, [Target Z (conv_unsigned t_ulong n_ulong) id; Target _ conv_string name; Target _ conv_string location;
      Target _ (conv_sink conv_datetime garbage (fun c v => c ++ [v]) (@length datetime)) (attach (dts0 ++ dts) [] 1 (sink_of_delims (str ",") 1))]).
Proof.
  intros g id0 name0 location0 dts0 idx id name location texts dts Hid Hle Hn Hl Hnb Hlb Hne H Hr.
  assert (Hchars : Forall (fun t => t <> [] /\ forall c, In c t -> Num_Spec.is_digit c \/ In c (str "-:. ")) texts).
  { clear Hne. induction H as [|t dt texts dts Ht _ IH]; [constructor|]. inversion Hr; subst. constructor; [|now apply IH].
    split; [now apply timestamp_nonempty in Ht|]. intros c. eapply timestamp_chars; eassumption. }
  assert (Hno : forall c, c = "|"%char \/ c = ","%char -> ~ (Num_Spec.is_digit c \/ In c (str "-:. "))).
  { intros c Hc [[D1 D2]|D]; [destruct Hc as [-> | ->]; [now apply D2|now apply D1]|]. destruct Hc as [-> | ->]; destruct D as [D|[D|[D|[D|[]]]]]; discriminate. }
  unfold parse_event. rewrite <- (map_id [idx; name; location; separated (str ",") texts]), <- C35_join. 
  replace (join (fun x => x) (str "|") [idx; name; location; separated (str ",") texts]) with (construct [] (str "|") [idx; name; location; separated (str ",") texts])
    by (rewrite construct_ok, C35_join, map_id; reflexivity).
  apply C55_round_trip_any; [discriminate|apply incl_refl| |].
  - apply Forall_cons; [|apply Forall_cons; [|apply Forall_cons; [|apply Forall_cons; [|apply Forall_nil]]]].
    + destruct Hid as (sg & ds & Hs & -> & [Hd0 Hd] & _). split; [intros E; apply app_eq_nil in E as [_ E]; auto|].
      intros c Hc [<-|[]]. apply in_app_or in Hc as [Hc|Hc].
      * destruct Hs as [-> | ->]; [destruct Hc|destruct Hc as [Hc|[]]; discriminate].
      * rewrite Forall_forall in Hd. specialize (Hd _ Hc). destruct Hd as [_ D]. now apply D.
    + split; [exact Hn|]. intros c Hc [<-|[]]. auto.
    + split; [exact Hl|]. intros c Hc [<-|[]]. auto.
    + split.
      * destruct texts as [|t [|u r]]; [congruence| |]; inversion Hchars as [|? ? [Ht _] _]; subst; cbn; [exact Ht|]. destruct t; [congruence|discriminate].
      * intros c Hc [<-|[]]. clear - Hc Hchars Hno. induction texts as [|t texts IH]; [destruct Hc|]. inversion Hchars as [|? ? [_ Ht] Hc']; subst.
        destruct texts as [|u r]; [exact (Hno _ (or_introl eq_refl) (Ht _ Hc))|].
        change (separated (str ",") (t :: u :: r)) with (t ++ str "," ++ separated (str ",") (u :: r)) in Hc.
        apply in_app_or in Hc as [Hc|Hc]; [exact (Hno _ (or_introl eq_refl) (Ht _ Hc))|]. apply in_app_or in Hc as [Hc|Hc]; [destruct Hc as [Hc|[]]; discriminate|]. now apply IH.
  - eapply writes_cons with (v := id : Z).
    { cbn [t_conv t_val]. unfold conv_unsigned. rewrite (proj2 (proj2 (C18_unsigned_long idx) id)) by auto. reflexivity. }
    eapply (writes_cons (Target _ conv_string name0)); [reflexivity|]. eapply (writes_cons (Target _ conv_string location0)); [reflexivity|].
    eapply writes_cons; [|constructor]. cbn [t_conv t_val].
    apply (listed_sink conv_datetime g (fun t dt => timestamp t dt /\ representable dt)).
    + intros y v [Hy Hv]. apply datetime_iff. now apply timestamp_accepted.
    + exists texts. split; [exact Hne|]. split.
      * eapply Forall_impl; [|exact Hchars]. cbn. intros t [H1 H2]. split; [exact H1|]. intros Hc. exact (Hno _ (or_intror eq_refl) (H2 _ Hc)).
      * split; [reflexivity|]. clear - H Hr. induction H; constructor; inversion Hr; subst; auto.
Qed.
Print Assumptions C138_event.

Example C138_event_example :
  parse_event nothing (str "172493|Lunar Impact|Mare|2010-01-19 00:28:45.357,2010-02-18 00:57:07.109") 0 [] [] [nothing] =
    Ok (true, [Target Z (conv_unsigned t_ulong n_ulong) 172493%Z; Target _ conv_string (str "Lunar Impact"); Target _ conv_string (str "Mare");
      Target _ (conv_sink conv_datetime nothing (fun c v => c ++ [v]) (@length datetime))
        (attach [nothing; DT 2010 1 19 0 28 45 357; DT 2010 2 18 0 57 7 109] [] 1 (sink_of_delims (str ",") 1))]).
Proof. reflexivity. Qed.
