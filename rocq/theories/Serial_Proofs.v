From Verif Require Import Base Num_Model Num_Spec Num_Spec2 Num_Proofs Num_Proofs2 Num_Proofs3 Num_Props Binary_Model Binary_Spec Binary_Proofs Binary_Proofs2 Binary_Proofs3 Binary_Props2 IO_Model Serial_Model Serial_Spec.
Local Open Scope nat_scope.

Lemma person_has_ty p : shaped p -> has_ty true person_ty (person_val p).
Proof. intros []. cbn [has_ty person_ty person_val]. repeat split; auto. Qed.
Lemma person_enc le p : enc le person_ty (person_val p) = image le p.
Proof. reflexivity. Qed.
Lemma person_back p : person_of (person_val p) = p.
Proof. now destruct p. Qed.

Lemma write_person le p st : shaped p -> steady st ->
  if length (image le p) <=? free st
  then write le true no_class person_ty (person_val p) st = Ok (true, after st (image le p))
  else exists st', write le true no_class person_ty (person_val p) st = Ok (false, st').
Proof.
  intros Hs St. pose proof (person_has_ty p Hs) as Ht. rewrite <- person_enc.
  destruct (Nat.leb_spec (length (enc le person_ty (person_val p))) (free st)) as [H|H].
  - apply write_ok; auto. rewrite (room_flat le no_class person_ty true) by auto. lia.
  - pose proof (write_good le true no_class person_ty (person_val p) st Ht St) as G. unfold good_write in G.
    apply holds_ex in G. destruct G as ([r st'] & E & a & b & Ea & La & Es & Hr & _). exists st'. rewrite E.
    destruct r; [|reflexivity]. cbn [fst] in Hr. specialize (Hr eq_refl). subst b. rewrite app_nil_r in Ea. rewrite Ea in H. lia.
Qed.

Lemma write_people_ok le ps : forall i st, Forall shaped ps -> steady st ->
  if length (images le ps) <=? free st
  then write_people le ps i st = Ok (None, after st (images le ps))
  else exists k st', first_not_fitting le ps (free st) k /\ write_people le ps i st = Ok (Some (i + k), st').
Proof.
  induction ps as [|p ps IH]; intros i st Hs St; [cbn; now rewrite after_nil|].
  inversion Hs as [|? ? Hp Hps]; subst. cbn [write_people]. change (images le (p :: ps)) with (image le p ++ images le ps).
  pose proof (write_person le p st Hp St) as W. rewrite app_length.
  destruct (Nat.leb_spec (length (image le p)) (free st)) as [H|H].
  - rewrite W. cbn [bind]. pose proof (after_steady st _ St H) as St1.
    specialize (IH (S i) (after st (image le p)) Hps St1). rewrite after_free in IH by auto.
    destruct (Nat.leb_spec (length (images le ps)) (free st - length (image le p))) as [H2|H2].
    + destruct (Nat.leb_spec (length (image le p) + length (images le ps)) (free st)); [|lia].
      rewrite IH, after_app by (auto; rewrite app_length; lia). reflexivity.
    + destruct (Nat.leb_spec (length (image le p) + length (images le ps)) (free st)); [lia|].
      destruct IH as (k & st' & (Hk & Hf1 & Hf2) & E). exists (S k), st'. split; [|rewrite E; do 3 f_equal; lia].
      split; [cbn; lia|]. change (images le (firstn (S k) (p :: ps))) with (image le p ++ images le (firstn k ps)).
      change (images le (firstn (S (S k)) (p :: ps))) with (image le p ++ images le (firstn (S k) ps)). rewrite !app_length. lia.
  - destruct (Nat.leb_spec (length (image le p) + length (images le ps)) (free st)); [lia|].
    destruct W as (st' & E). rewrite E. cbn [bind]. exists 0, st'. rewrite Nat.add_0_r. split; [|reflexivity].
    split; [cbn; lia|]. cbn [firstn]. split; [cbn; lia|]. unfold images. cbn [map concat]. rewrite app_nil_r. exact H.
Qed.

Lemma same_bytes_refl a : same_bytes a a = true.
Proof. unfold same_bytes. now destruct (list_eq_dec ascii_dec a a). Qed.
Lemma person_eqb_refl same p : numbers same p -> person_eqb same p p = true.
Proof. intros [A B]. unfold person_eqb. now rewrite !same_bytes_refl, A, B. Qed.

Lemma read_person le q p st rest : shaped p -> steady st -> ahead st = image le p ++ rest ->
  read le true no_class person_ty q st = Ok (true, person_val p, advance st (length (image le p))).
Proof.
  intros Hs St A. rewrite <- person_enc in *. apply (read_ok le true no_class person_ty _ _ _ rest); auto.
  - now apply person_has_ty.
  - rewrite (room_flat le no_class person_ty true) by (auto; now apply person_has_ty).
    pose proof (ahead_length st). rewrite A, app_length in *. lia.
Qed.

Lemma read_people_ok le same c ps : forall q i st rest, Forall shaped ps -> Forall (numbers same) ps -> steady st ->
  ahead st = images le ps ++ rest -> read_people le same c q ps i st = Ok Done.
Proof.
  induction ps as [|p ps IH]; intros q i st rest Hs Hn St A; [reflexivity|].
  inversion Hs; inversion Hn; subst. change (images le (p :: ps)) with (image le p ++ images le ps) in A. rewrite <- app_assoc in A.
  cbn [read_people]. rewrite (read_person le _ p st _ ltac:(auto) St A). cbn [bind negb].
  rewrite person_back, person_eqb_refl by auto. cbn [negb]. apply (IH _ _ _ rest); auto.
  - apply advance_steady; auto. pose proof (ahead_length st). rewrite A, app_length in *. lia.
  - now rewrite (ahead_step st _ _ A).
Qed.

Lemma cleared_start b : Binary_Model.clear (start b) = start (repeat "000"%char (length b)).
Proof. reflexivity. Qed.
Lemma start_steady' b : steady (start b).
Proof. split; cbn; lia. Qed.

Lemma skip_repeat {A} (x : A) n : forall k, skipn k (repeat x n) = repeat x (n - k).
Proof. induction n as [|n IH]; intros [|k]; cbn [repeat skipn Nat.sub]; auto. Qed.

Lemma filled (b : list ascii) x : length x <= length b -> let w := after (start (repeat "000"%char (length b))) x in
  buf w = x ++ repeat "000"%char (length b - length x) /\ amt w = length x.
Proof.
  intros H w. unfold w, after. cbn [buf cur amt start marks firstn app Nat.add]. rewrite skip_repeat. auto.
Qed.

(* numbers *)
Lemma unsigned_is_signed s v : unsigned_text s v -> signed_text s v.
Proof. intros (sign & ds & Hs & -> & D & ->). exists sign, ds. auto. Qed.

Lemma signed_of_digits s v : digits s -> signed_text s v -> v = dec_value s.
Proof.
  intros [_ D] (sign & ds & -> & D2 & H). destruct H as [[[->| ->] ->]|[-> _]]; cbn [app] in *; auto;
    inversion D as [|? ? D3 _]; unfold is_digit in D3; cbn in D3; lia.
Qed.

Lemma integers_ok format parse bottom top : integers format parse bottom top ->
  (forall z, (bottom <= z <= top)%Z -> exists s, format z = Ok s /\ canonical s z) /\
  (forall s z, digits s -> z = dec_value s -> (z <= top)%Z -> parse s = Ok (Some z)) /\
  (forall s, (forall v, ~ signed_text s v) -> parse s = Ok None).
Proof.
  assert (U : forall s z, digits s -> z = dec_value s -> unsigned_text s z)
    by (intros s z D ->; exists [], s; auto).
  assert (D0 : forall s, digits s -> (0 <= dec_value s)%Z).
  { intros s [_ D]. now apply dec_bounds in D. }
  assert (K : forall T n top, (forall s, (exists o, parse_unsigned T n s = Ok o) /\
      forall v, parse_unsigned T n s = Ok (Some v) <-> unsigned_text s v /\ (v <= top)%Z) ->
    unsigned_round_trip T n top -> (top <= hi T)%Z ->
    (forall z, (0 <= z <= top)%Z -> exists s, format_unsigned z = Ok s /\ canonical s z) /\
    (forall s z, digits s -> z = dec_value s -> (z <= top)%Z -> parse_unsigned T n s = Ok (Some z)) /\
    (forall s, (forall v, ~ signed_text s v) -> parse_unsigned T n s = Ok None)).
  { intros T n top0 P R Ht. split; [|split].
    - intros z Hz. destruct (R z ltac:(lia)) as (s & E & C & _). eauto.
    - intros s z D E Hz. apply P. auto.
    - intros s N. destruct (P s) as [(o & E) P1]. destruct o as [v|]; [|exact E]. apply P1 in E. destruct E as [E _]. now apply unsigned_is_signed, N in E. }
  assert (S : forall T n lower bottom top, (forall s, (forall v, signed_text s v -> (bottom <= v)%Z) -> (exists o, parse_signed T n s = Ok o) /\
      forall v, parse_signed T n s = Ok (Some v) <-> signed_text s v /\ (lower <= v <= top)%Z) ->
    signed_round_trip T n bottom top -> (lower <= 0)%Z -> (lo T <= bottom <= 0)%Z -> (top <= hi T)%Z ->
    (forall z, (bottom <= z <= top)%Z -> exists s, format_signed T z = Ok s /\ canonical s z) /\
    (forall s z, digits s -> z = dec_value s -> (z <= top)%Z -> parse_signed T n s = Ok (Some z)) /\
    (forall s, (forall v, ~ signed_text s v) -> parse_signed T n s = Ok None)).
  { intros T n lw bt tp P R Hl Hb Ht. split; [|split].
    - intros z Hz. destruct (R z ltac:(lia)) as (s & E & C & _). eauto.
    - intros s z D E Hz. assert (X : forall v, signed_text s v -> (bt <= v)%Z).
      { intros v Hv. apply (signed_of_digits s v D) in Hv. subst v. specialize (D0 s D). lia. }
      apply (proj2 (P s X)). specialize (D0 s D). split; [apply unsigned_is_signed; auto|]. lia.
    - intros s N. assert (X : forall v, signed_text s v -> (bt <= v)%Z) by (intros v Hv; now apply N in Hv).
      destruct (P s X) as [(o & E) P1]. destruct o as [v|]; [|exact E]. apply P1 in E. destruct E as [E _]. now apply N in E. }
  destruct C20_signed_round_trip as (R1 & R2 & R3 & R4). destruct C20_unsigned_round_trip as (Q1 & Q2 & Q3 & Q4).
  intros [T n bt tp []| | | |].
  - apply (S _ _ (-32768)%Z); auto; try (cbn; lia). intros s _. apply C19_short_exact.
  - apply (S _ _ (-2147483648)%Z); auto; try (cbn; lia). intros s X. apply C19_int_exact. intros Y. apply X in Y. lia.
  - apply (S _ _ (-2147483648)%Z); auto; try (cbn; lia). intros s _. apply C19_long_exact.
  - apply (S _ _ (-9223372036854775808)%Z); auto; try (cbn; lia). intros s X. apply C19_long_long_exact. intros Y. apply X in Y. lia.
  - apply K; auto; try (cbn; lia). intros s. apply C18_unsigned_exact.
  - apply K; auto; try (cbn; lia). intros s. apply C18_unsigned_exact.
  - apply K; auto; try (cbn; lia). apply C18_unsigned_long.
  - apply K; auto; try (cbn; lia). intros s. apply C18_unsigned_exact.
Qed.

(* a padded text is no number if the padding is neither digit nor sign, or if a sign follows it *)
Lemma padded_no_number pad k text z v : 0 < k -> canonical text z ->
  pad <> "+"%char -> pad <> "-"%char -> (~ is_digit pad \/ (z < 0)%Z) -> ~ signed_text (repeat pad k ++ text) v.
Proof.
  intros Hk (cs & _ & _ & C) Hp Hm Hd (sign & ds & E & [_ D] & Hs).
  destruct k as [|k]; [lia|]. cbn [repeat app] in E.
  assert (sign = []).
  { destruct Hs as [[[->| ->] _]|[-> _]]; auto; cbn [app] in E; injection E as ? _; congruence. }
  subst sign. cbn [app] in E. subst ds. inversion D as [|? ? D1 D2]; subst.
  destruct Hd as [Hd|Hd]; [contradiction|]. destruct C as [[? _]|(_ & -> & _)]; [lia|].
  apply Forall_app in D2. destruct D2 as [_ D2]. inversion D2 as [|? ? D3 _]. unfold is_digit in D3. cbn in D3. lia.
Qed.

Lemma padded_value k text z : canonical text z -> (0 <= z)%Z ->
  digits (repeat "0"%char k ++ text) /\ z = dec_value (repeat "0"%char k ++ text).
Proof.
  intros (cs & [Hne D] & _ & C) Hz. destruct C as [(_ & -> & ->)|[? _]]; [|lia]. split; [split|].
  - intros E. apply app_eq_nil in E. now destruct E.
  - apply Forall_app. split; [|exact D]. apply Forall_forall. intros c Hc. apply repeat_spec in Hc. subst c. unfold is_digit. cbn. lia.
  - rewrite dec_value_app, dec_zeros. lia.
Qed.

Lemma text_field (parse : list ascii -> outcome (option Z)) st x w : wf st -> length x = N.to_nat w -> length x <= free st ->
  read_number parse w (St (buf (after st x)) (cur st) (amt st) (marks st)) =
  (v <- parse x ;; Ok (v, after st x)).
Proof.
  intros W L F. pose proof (wf_steady _ W) as St. destruct W as (Wc & Wl & Wm). unfold read_number.
  rewrite C70_read_text.
  - cbn [buf cur amt marks]. rewrite after_buf_length by auto. unfold free in F.
    destruct (N.leb_spec (N.of_nat (cur st) + w) (N.of_nat (length (buf st)))); [|lia]. cbv zeta. cbn [bind].
    replace (sub (buf (after st x)) (cur st, cur st + N.to_nat w)) with x.
    + unfold after. cbn [buf]. rewrite <- L. rewrite <- Wc. reflexivity.
    + unfold after. cbn [buf]. unfold sub. cbn [fst snd]. rewrite <- L.
      replace (cur st + length x - cur st) with (length x) by lia.
      rewrite skipn_app, skipn_firstn_comm, Nat.sub_diag, firstn_length. cbn [firstn app].
      replace (cur st - Nat.min (cur st) (length (buf st))) with 0 by lia. cbn [skipn]. now rewrite firstn_app_len.
  - split; [exact Wc|]. cbn [cur buf marks]. rewrite after_buf_length by auto. split; [lia|exact Wm].
Qed.
