(* C116: the period parser of the examples *)
From Verif Require Import Base Num_Spec Split_Model Real_Model Real_Spec Real_Float Real_Proofs4 Real_Props Period_Model Period_Spec Period_Proofs.
From Coq Require Import SpecFloat Permutation.
Local Open Scope nat_scope.

(* it accepts exactly the texts that begin with four amounts of different units, in any order,
   and yields their sum in milliseconds; the old value of the period does not matter *)
Theorem C116_success : forall O D s p q, parse_period O D s p = Ok (true, q) <-> period_text O D s q.
Proof. exact parse_period_ok. Qed.
Print Assumptions C116_success.

Definition sample : list ascii := str "2D3.5Hr 15Min30.25Sec".
Example C116_success_example : parse_period double doubles sample 7 = Ok (true, 186330250%Z) /\
  (2 * 86400000 + 12600000 + 15 * 60000 + 30250 = 186330250)%Z.
Proof. vm_compute. auto. Qed.

(* the same for a range of characters, whatever lies behind it *)
Theorem C116_range : forall O D s rest p q, parse_period_range O D s rest p = Ok (true, q) <-> period_text O D s q.
Proof. exact parse_period_range_ok. Qed.
Print Assumptions C116_range.
Example C116_range_example : parse_period_range double doubles (str "1s2m3h-4d") (str "5") 0 = Ok (true, (1000 + 120000 + 10800000 - 345600000)%Z).
Proof. vm_compute. reflexivity. Qed.

(* a text with fewer than four numbers followed by a separator is never accepted *)
Theorem C116_four : forall O D s p q, (forall l r, parts s l r -> length l < 4) -> parse_period O D s p <> Ok (true, q).
Proof.
  intros O D s p q H E. apply parse_period_ok in E. destruct E as (l & r & ks & H1 & H2 & _). specialize (H _ _ H1). lia.
Qed.
Print Assumptions C116_four.
Example C116_four_example : parse_period double doubles (str "1D2H3M") 0 = Ok (false, (86400000 + 7200000 + 180000)%Z) /\
  (forall l r, parts (str "12 5") l r -> length l < 4).
Proof.
  split; [vm_compute; reflexivity|]. intros l r H.
  assert (forall s l r, parts s l r -> length l <= length (filter period_delimiter s)) as G.
  { clear. induction 1 as [s|v u g s l r Hv Hu Hg Hs H IH]; cbn [length]; [lia|]. rewrite filter_app. cbn [filter].
    apply separator_pred in Hu. rewrite Hu, app_length. cbn [length]. rewrite filter_app, app_length. lia. }
  specialize (G _ _ _ H). replace (length (filter period_delimiter (str "12 5"))) with 1 in G by reflexivity. lia.
Qed.

(* the order of the four parts does not matter *)
Theorem C116_order : forall O D s s' l l' r r' p p' q q', parts s l r -> parts s' l' r' -> length l = 4 -> Permutation l l' ->
  parse_period O D s p = Ok (true, q) -> parse_period O D s' p' = Ok (true, q') -> q = q'.
Proof.
  intros O D s s' l l' r r' p p' q q' H H' Hl P E E'. apply parse_period_ok in E, E'.
  exact (period_order O D s s' l l' r r' q q' H H' Hl P E E').
Qed.
Print Assumptions C116_order.
Example C116_order_example : parse_period double doubles (str "1D2H3M4S") 0 = Ok (true, 93784000%Z) /\
  parse_period double doubles (str "4S 3M 2H 1D") 5 = Ok (true, 93784000%Z).
Proof. vm_compute. auto. Qed.

(* whole numbers of double precision are summed exactly; only the days may carry a sign; further
   separators may follow each unit, anything may follow the fourth *)
Lemma truncate_exact x V : exactly x V -> (V <= 2 ^ 53)%Z -> truncate x = Some V /\ truncate (SFopp x) = Some (- V)%Z /\ SFltb x (S754_zero false) = false.
Proof.
  intros [[-> ->]|(m & e & -> & Dn & _)] Hb; [vm_compute; auto|].
  pose proof (denotes_pos m e V Dn) as Hp. cbn [truncate SFopp negb].
  assert (E : (if (0 <=? e)%Z then (Z.pos m * 2 ^ e)%Z else (Z.pos m / 2 ^ (- e))%Z) = V).
  { destruct Dn as [[H ->]|[H E]].
    - destruct (Z.leb_spec 0 e); [reflexivity|lia].
    - destruct (Z.leb_spec 0 e) as [H0|H0].
      + assert (e = 0)%Z by lia. subst e. rewrite E. cbn. lia.
      + rewrite E. apply Z.div_mul. apply Z.pow_nonzero; lia. }
  rewrite E. split; [|split; [|reflexivity]].
  - destruct (Z.leb_spec (- 2 ^ 63) V), (Z.ltb_spec V (2 ^ 63)); cbn [andb]; auto; lia.
  - destruct (Z.leb_spec (- 2 ^ 63) (- V)), (Z.ltb_spec (- V) (2 ^ 63)); cbn [andb]; auto; lia.
Qed.
Lemma mul_opp x y V W : exactly x V -> exactly y W -> SFmul 53 1024 x (SFopp y) = SFopp (SFmul 53 1024 x y).
Proof.
  intros [[-> ->]|(m1 & e1 & -> & D1 & L1)] [[-> ->]|(m2 & e2 & -> & D2 & L2)]; try reflexivity.
  cbn [SFopp SFmul xorb negb]. unfold binary_round_aux. cbv zeta.
  repeat match goal with |- context [let (_, _) := ?x in _] => destruct x end.
  match goal with |- context [match ?x with Z0 => _ | Zpos _ => _ | Zneg _ => _ end] => destruct x end; try reflexivity.
  destruct (_ <=? _)%Z; reflexivity.
Qed.
Lemma whole_amount (neg : bool) I u k f : unit_letter u k f -> Forall is_digit I -> I <> [] -> (f * dec_value I <= 2 ^ 53)%Z -> (k <> 0 -> neg = false) ->
  amount double doubles ((if neg then "-"%char :: I else I), u) k (if neg then - (f * dec_value I) else f * dec_value I)%Z.
Proof.
  intros Hu HI Hne Hb Hn. assert (Hf : (1 <= f <= 2 ^ 53)%Z) by (destruct Hu; lia). assert (H0 := dec_pos I HI).
  assert (Hx : exactly (b64 (dec_value I) 0) (dec_value I)) by (apply small_exact; nia).
  assert (Hy : exactly (b64 f 0) f) by (apply small_exact; lia).
  assert (Hz : exactly (b64 (f * dec_value I) 0) (f * dec_value I)) by (apply small_exact; nia).
  assert (Hm : SFmul 53 1024 (b64 f 0) (b64 (dec_value I) 0) = b64 (f * dec_value I) 0) by (apply mul_exact; auto).
  destruct (truncate_exact _ _ Hz Hb) as (T1 & T2 & T3).
  exists f, (if neg then SFopp (b64 (dec_value I) 0) else b64 (dec_value I) 0). cbn [fst snd doubles below_0 Period_Model.scale to_ll].
  split; [exact Hu|]. split.
  - intros t0. rewrite (C74_integers neg I 0); [|..|nia|lia].
    + rewrite Z.pow_0_r, Z.mul_1_r. reflexivity.
    + exists (if neg then ["-"%char] else []), I, []. split; [destruct neg; cbn [app]; now rewrite app_nil_r|].
      split; [destruct neg; cbn; auto|]. split.
      * split; [auto|]. split; [constructor|]. split; [left; auto|]. rewrite app_nil_r. auto.
      * left. left. auto.
  - split.
    + intros Hk. rewrite (Hn Hk), Hm. exact T3.
    + destruct neg; [|now rewrite Hm]. rewrite (mul_opp _ _ _ _ Hy Hx), Hm. exact T2.
Qed.
Theorem C116_integers : forall (neg : bool) (d h m s g1 g2 g3 g4 rest : list ascii) p,
  Forall (Forall is_digit) [d; h; m; s] -> d <> [] -> h <> [] -> m <> [] -> s <> [] ->
  Forall (Forall separator) [g1; g2; g3; g4] -> (forall c r, rest = c :: r -> ~ separator c) ->
  (86400000 * dec_value d <= 2 ^ 53)%Z -> (3600000 * dec_value h <= 2 ^ 53)%Z -> (60000 * dec_value m <= 2 ^ 53)%Z -> (1000 * dec_value s <= 2 ^ 53)%Z ->
  parse_period double doubles
    ((if neg then "-"%char :: d else d) ++ "D"%char :: g1 ++ h ++ "H"%char :: g2 ++ m ++ "M"%char :: g3 ++ s ++ "S"%char :: g4 ++ rest) p =
  Ok (true, ((if neg then - (86400000 * dec_value d) else 86400000 * dec_value d) +
             (3600000 * dec_value h + (60000 * dec_value m + 1000 * dec_value s)))%Z).
Proof.
  intros neg d h m s g1 g2 g3 g4 rest p HI Nd Nh Nm Ns HG Hr Bd Bh Bm Bs.
  inversion HI as [|? ? Hd HI1]; subst. inversion HI1 as [|? ? Hh HI2]; subst. inversion HI2 as [|? ? Hm HI3]; subst. inversion HI3 as [|? ? Hs _]; subst.
  inversion HG as [|? ? G1 HG1]; subst. inversion HG1 as [|? ? G2 HG2]; subst. inversion HG2 as [|? ? G3 HG3]; subst. inversion HG3 as [|? ? G4 _]; subst.
  clear HI HI1 HI2 HI3 HG HG1 HG2 HG3.
  assert (Hsep : forall c, is_digit c -> ~ separator c).
  { intros c Hc. apply separator_pred_false. destruct (period_delimiter c) eqn:E; auto. exfalso. apply separator_pred in E.
    unfold separator in E. cbn in E. unfold is_digit in Hc. repeat (destruct E as [<-|E]; [vm_compute in Hc; intuition congruence|]). exact E. }
  assert (Hnum : forall I, Forall is_digit I -> Forall (fun c => ~ separator c) I) by (intros I H; eapply Forall_impl; [|exact H]; auto).
  assert (Hfirst : forall I y, Forall is_digit I -> I <> [] -> forall c q, I ++ y = c :: q -> ~ separator c).
  { intros I y HI Hne c q E. destruct HI; [congruence|]. cbn [app] in E. assert (x = c) by congruence. subst. auto. }
  assert (Hu : forall c, In c (str "DHMS") -> separator c).
  { intros c Hc. cbn in Hc. unfold separator. cbn. intuition. }
  apply parse_period_ok. unfold period_text.
  exists [((if neg then "-"%char :: d else d), "D"%char); (h, "H"%char); (m, "M"%char); (s, "S"%char)], rest,
    [(0, (if neg then - (86400000 * dec_value d) else 86400000 * dec_value d)%Z); (1, (3600000 * dec_value h)%Z); (2, (60000 * dec_value m)%Z); (3, (1000 * dec_value s)%Z)].
  split; [|split; [reflexivity|split; [|split]]].
  - constructor; [|apply Hu; cbn; auto|auto|apply Hfirst; auto|].
    + destruct neg; [constructor|]; auto. unfold separator. cbn. intuition discriminate.
    + constructor; [auto|apply Hu; cbn; auto|auto|apply Hfirst; auto|].
      constructor; [auto|apply Hu; cbn; auto|auto|apply Hfirst; auto|].
      constructor; [auto|apply Hu; cbn; auto|auto|auto|constructor].
  - constructor; [|constructor; [|constructor; [|constructor; [|constructor]]]]; cbn [fst snd].
    + apply (whole_amount neg d); auto; [constructor; cbn; auto|congruence].
    + apply (whole_amount false h); auto. constructor; cbn; auto.
    + apply (whole_amount false m); auto. constructor; cbn; auto.
    + apply (whole_amount false s); auto. constructor; cbn; auto.
  - cbn [map fst]. repeat constructor; cbn; intuition lia.
  - cbn [map snd]. assert (A1 := dec_pos d Hd). assert (A2 := dec_pos h Hh). assert (A3 := dec_pos m Hm). assert (A4 := dec_pos s Hs).
    replace ((if neg then - (86400000 * dec_value d) else 86400000 * dec_value d) + (3600000 * dec_value h + (60000 * dec_value m + 1000 * dec_value s)))%Z
      with (0 + (if neg then - (86400000 * dec_value d) else 86400000 * dec_value d) + 3600000 * dec_value h + 60000 * dec_value m + 1000 * dec_value s)%Z by lia.
    repeat constructor; destruct neg; lia.
Qed.
Print Assumptions C116_integers.
Example C116_integers_example : parse_period double doubles (str "-104249991D2Hr3Min4Sec!") 0 = Ok (true, (- (86400000 * 104249991) + 7200000 + 180000 + 4000)%Z) /\
  (86400000 * 104249991 <= 2 ^ 53)%Z.
Proof. split; [vm_compute; reflexivity|]. vm_compute. discriminate. Qed.

(* not true: a period may be given by some of the units only, and a refused text leaves the
   period unchanged *)
Theorem C116_single_refuted : ~ (forall p, exists q, parse_period double doubles (str "5D") p = Ok (true, q)).
Proof. intros H. destruct (H 0%Z) as (q & E). vm_compute in E. discriminate. Qed.
Print Assumptions C116_single_refuted.
Theorem C116_unchanged_refuted : ~ (forall s p q, parse_period double doubles s p = Ok (false, q) -> q = p).
Proof. intros H. specialize (H (str "5D") 7%Z 432000000%Z eq_refl). discriminate. Qed.
Print Assumptions C116_unchanged_refuted.
Example C116_refused_example : parse_period double doubles (str "5D") 7 = Ok (false, 432000000%Z) /\ parse_period double doubles [] 7 = Ok (false, 7%Z) /\
  parse_period double doubles (str "1D2D3H4M") 7 = Ok (false, 86400000%Z) /\ parse_period double doubles (str "1D-2H3M4S") 7 = Ok (false, 86400000%Z).
Proof. vm_compute. auto. Qed.

(* not true: every text has a defined result.  The unit is given to toupper as a char, periods
   may overflow, and a range that ends with a separator is read one character too far *)
Theorem C116_defined_refuted :
  parse_period double doubles (str "5" ++ [ascii_of_N 200]) 0 = UB /\
  parse_period double doubles (str "9000000000000000000S") 0 = UB /\
  parse_period double doubles (str "90000000000D900000000000H") 0 = UB /\
  (forall rest, hd_error rest <> Some zero -> parse_period_range double doubles (str "5D") rest 0 = UB).
Proof.
  do 3 (split; [vm_compute; reflexivity|]). intros [|c rest] H; [vm_compute; reflexivity|]. cbn [hd_error] in H.
  destruct c as [[] [] [] [] [] [] [] []]; try (vm_compute; reflexivity). now destruct H.
Qed.
Print Assumptions C116_defined_refuted.

(* not true: the numbers may be written with exponents, although the converter reads them; e is a separator *)
Theorem C116_exponent_refuted : parse_real double (str "1e2") (S754_zero false) = Ok (true, b64 100 0) /\
  parse_period double doubles (str "1e2D2H3M4S") 7 = Ok (false, 0%Z).
Proof. split; vm_compute; reflexivity. Qed.
Print Assumptions C116_exponent_refuted.
