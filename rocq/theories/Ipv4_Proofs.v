From Verif Require Import Base Split_Model Split_Spec Split_Proofs Split_Proofs2 Split_Proofs3 Num_Model Num_Spec Num_Proofs Num_Props Ipv4_Model Ipv4_Spec.
Local Open Scope nat_scope.

Lemma process_token_ok x :
  (exists c, process_token x = Ok (Some c) /\ octet_text x c) \/ (process_token x = Ok None /\ forall c, ~ octet_text x c).
Proof.
  destruct (C21_checked t_uint 32 x) as [(o & E) H].
  { repeat split; try reflexivity. lia. }
  change (Z.of_nat 32) with 32%Z in H.
  unfold process_token. rewrite E. cbn [bind]. destruct o as [v|].
  - destruct (proj1 (H v) E) as (Hd & Hl & ->). set (v := (dec_value x mod 2 ^ 32)%Z) in *.
    assert (Hv : (0 <= v)%Z) by (apply Z.mod_pos_bound; lia).
    destruct (Z.ltb_spec 255 v) as [L|L].
    + right. split; [reflexivity|]. intros c (_ & _ & Hc). fold v in Hc. pose proof (N_ascii_bounded c). lia.
    + left. eexists. split; [reflexivity|]. split; [exact Hd|]. split; [exact Hl|]. fold v. rewrite N_ascii_embedding by lia. lia.
  - right. split; [reflexivity|]. intros c (Hd & Hl & Hc). specialize (H (dec_value x mod 2 ^ 32)%Z). 
    rewrite (proj2 H) in E by auto. discriminate.
Qed.

Lemma process_tokens_ok data token : forall n i pre octs, length pre = i -> length octs = n -> i + n = length token ->
  exists b os', process_tokens data token i n (pre ++ octs) = Ok (b, pre ++ os') /\
    octets_taken (map (sub data) (skipn i token)) octs b os'.
Proof.
  induction n as [|n IH]; intros i pre octs Hp Ho Ht; cbn [process_tokens].
  - destruct octs; [|discriminate]. exists true, []. rewrite skipn_all2 by lia. split; [reflexivity|constructor].
  - destruct octs as [|o octs]; [discriminate|]. cbn [length] in Ho.
    destruct (nth_error token i) as [r|] eqn:Er; [|apply nth_error_None in Er; lia].
    rewrite (rd_nth _ _ _ Er). cbn [bind]. rewrite (skipn_nth_cons _ _ _ Er). cbn [map].
    destruct (process_token_ok (sub data r)) as [(c & E & Hc)|(E & Hc)]; rewrite E; cbn [bind].
    + subst i. rewrite wr_here. cbn [bind]. rewrite (app_assoc pre [c] octs : pre ++ c :: octs = (pre ++ [c]) ++ octs).
      destruct (IH (S (length pre)) (pre ++ [c]) octs) as (b & os' & E' & H'); [rewrite app_length; cbn [length]; lia|lia|lia|].
      exists b, (c :: os'). rewrite E'. split; [now rewrite <- app_assoc|]. now constructor.
    + exists false, (o :: octs). split; [reflexivity|]. now constructor.
Qed.

(* the fields of the default split are the parts between the dots *)
Lemma dotted_cuts data : forall toks a, cuts (single_delimiter_predicate ".") data (fun f e => f) (fun f e => S f) a toks ->
  dotted (skipn a data) (map (sub data) toks).
Proof.
  assert (P : forall c, single_delimiter_predicate "." c = true <-> c = "."%char).
  { intros c. unfold single_delimiter_predicate. rewrite Ascii.eqb_eq. split; congruence. }
  assert (NI : forall a b, all_in data (fun x => negb (single_delimiter_predicate "." x)) a b -> ~ In "."%char (sub data (a, b))).
  { intros a b H Hi. apply In_nth_error in Hi. destruct Hi as (k & Hk). 
    assert (Hlt : k < length (sub data (a, b))) by (eapply nth_error_some_lt; eauto).
    assert (k < b - a). { unfold sub in Hlt. cbn [fst snd] in Hlt. rewrite firstn_length in Hlt. lia. }
    rewrite nth_error_sub in Hk by lia. specialize (H (a + k) "."%char). cbn beta in H.
    rewrite (proj2 (P "."%char) eq_refl) in H. cbn [negb] in H. discriminate H; [lia|exact Hk]. }
  intros toks a H. induction H as [a Ha Hn|a f e toks Haf Hfe He Hn Hp _ H IH]; cbn [map].
  - assert (E : sub data (a, length data) = skipn a data) by (unfold sub; cbn [fst snd]; rewrite firstn_all2; [reflexivity|rewrite skipn_length; lia]).
    rewrite E. constructor. rewrite <- E. now apply NI.
  - assert (Ef : nth_error data f = Some "."%char).
    { destruct (nth_error data f) as [c|] eqn:Ec; [|apply nth_error_None in Ec; lia]. f_equal. apply P. eapply Hp; [|exact Ec]. lia. }
    assert (E : skipn a data = sub data (a, f) ++ "."%char :: skipn (S f) data).
    { rewrite <- (skipn_nth_cons _ _ _ Ef). unfold sub. cbn [fst snd].
      rewrite <- (firstn_skipn (f - a) (skipn a data)) at 1. rewrite skipn_skipn. do 2 f_equal. lia. }
    rewrite E. constructor; [now apply NI|exact IH].
Qed.

Lemma dotted_fun s xs : dotted s xs -> forall ys, dotted s ys -> xs = ys.
Proof.
  intros H. induction H as [x Hx|x s xs Hx H IH]; intros ys H'.
  - inversion H' as [y Hy|y s' ys' Hy H1 E1]; subst; [reflexivity|]. exfalso. apply Hx. apply in_app_iff. right. now left.
  - inversion H' as [y Hy|y s' ys' Hy H1 E1]; subst.
    + exfalso. apply Hy. apply in_app_iff. right. now left.
    + assert (E : y = x /\ s' = s).
      { clear - E1 Hx Hy. revert y E1 Hy. induction x as [|c x IH]; intros [|d y] E1 Hy; cbn [app] in E1.
        - injection E1 as E3. now subst.
        - injection E1 as E2 E3. subst d. exfalso. apply Hy. now left.
        - injection E1 as E2 E3. subst c. exfalso. apply Hx. now left.
        - injection E1 as E2 E3. subst d. destruct (IH (fun h => Hx (or_intror h)) y E3 (fun h => Hy (or_intror h))) as (-> & ->). now split. }
      destruct E as (-> & ->). f_equal. now apply IH.
Qed.

Lemma dotted_nil xs : dotted [] xs -> xs = [[]].
Proof. intros H. inversion H as [y Hy|y s' ys' Hy H1 E1]; [reflexivity|]. destruct y; discriminate. Qed.

Lemma parse_octets_ok data octet parts : length octet = 4 -> dotted data parts ->
  (length parts < 4 -> parse_octets data octet = Ok (false, octet)) /\
  (4 <= length parts -> exists b octet', parse_octets data octet = Ok (b, octet') /\ octets_taken (firstn 4 parts) octet b octet').
Proof.
  intros Ho Hd. destruct (split_n_firstn (single_delimiter_predicate ".") data 0 (fun h => h) 4) as (toks & Es & En).
  destruct (split_default_fields (single_delimiter_predicate ".") data) as (toks' & Es' & Ht & _).
  rewrite Es in Es'. assert (toks' = toks) by congruence. subst toks'. clear Es'.
  unfold parse_octets. rewrite En. cbn [bind].
  assert (D : (data = [] /\ toks = [] /\ parts = [[]]) \/ map (sub data) toks = parts).
  { destruct Ht as [(E1 & E2)|(_ & H)].
    - left. subst. split; [reflexivity|]. split; [reflexivity|]. now apply dotted_nil.
    - right. apply dotted_cuts in H. cbn [skipn] in H. exact (dotted_fun _ _ H _ Hd). }
  destruct D as [(-> & -> & ->)|<-].
  - cbn [length Nat.min Nat.eqb negb]. split; [reflexivity|]. intros H. exfalso. cbn [length] in H. lia.
  - rewrite map_length. split; intros Hl.
    + replace (Nat.min 4 (length toks)) with (length toks) by lia. destruct (Nat.eqb_spec (length toks) 4); [lia|reflexivity].
    + replace (Nat.min 4 (length toks)) with 4 by lia. cbn [Nat.eqb negb].
      destruct (process_tokens_ok data (firstn 4 toks) 4 0 [] octet eq_refl Ho) as (b & os' & E & H'); [rewrite firstn_length; lia|].
      exists b, os'. split; [exact E|]. now rewrite firstn_map.
Qed.

Lemma octets_taken_all xs cs : Forall2 octet_text xs cs -> forall os, length os = length xs -> octets_taken xs os true cs.
Proof.
  intros H. induction H as [|x c xs cs Hx H IH]; intros os E.
  - destruct os; [constructor|discriminate].
  - destruct os as [|o os]; [discriminate|]. constructor; [exact Hx|]. apply IH. now injection E.
Qed.

Lemma octet_text_fun x c d : octet_text x c -> octet_text x d -> c = d.
Proof.
  intros (_ & _ & A) (_ & _ & B). rewrite <- (ascii_N_embedding c), <- (ascii_N_embedding d). f_equal. lia.
Qed.
Lemma octets_taken_fun xs os b os' : octets_taken xs os b os' -> forall c os2, octets_taken xs os c os2 -> b = c /\ os' = os2.
Proof.
  intros H. induction H as [os|x xs c o os b os' Hc H IH|x xs os Hn]; intros d os2 H2.
  - inversion H2; subst; auto.
  - inversion H2 as [|x1 xs1 c1 o1 os1 b1 os1' Hc1 H1|x1 xs1 os1 Hn1]; subst.
    + destruct (IH _ _ H1) as (-> & ->). split; [reflexivity|]. f_equal. now apply (octet_text_fun x).
    + exfalso. now apply (Hn1 c).
  - inversion H2 as [|x1 xs1 c1 o1 os1 b1 os1' Hc1 H1|x1 xs1 os1 Hn1]; subst; [|auto]. exfalso. now apply (Hn c1).
Qed.
Lemma octets_taken_true xs os os' : octets_taken xs os true os' -> length xs = length os -> Forall2 octet_text xs os'.
Proof.
  intros H. remember true as b eqn:Eb. revert Eb. induction H as [os|x xs c o os b os' Hc H IH|x xs os Hn]; intros Eb E.
  - destruct os; [constructor|discriminate].
  - constructor; [exact Hc|]. apply IH; [exact Eb|]. now injection E.
  - discriminate.
Qed.
Lemma octets_taken_length xs os b os' : octets_taken xs os b os' -> length os' = length os.
Proof. intros H. induction H; cbn [length]; auto. Qed.
