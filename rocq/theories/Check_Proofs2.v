(* Proofs about test_construct_and_parse and test_replace_pattern. *)
From Verif Require Import Base Split_Model Split_Spec Edit_Model Edit_Spec Edit_Proofs2 Num_Model Num_Spec Num_Proofs Num_Props
  Parse_Model Parse_Spec Parse_Spec2 Parse_Proofs Parse_Proofs2 Parse_Proofs3 Ext_Model Check_Model Check_Spec Check_Proofs.
Local Open Scope nat_scope.

(* the first text may be empty *)
Lemma compressed_first delims sep t texts : sep <> [] -> incl sep delims ->
  texts <> [] -> (forall c, In c t -> ~ In c delims) ->
  Forall (fun t => t <> [] /\ forall c, In c t -> ~ In c delims) texts ->
  compressed_tokens delims (separated sep (t :: texts)) (t :: texts).
Proof.
  intros Hs Hi Hne Ht Hf. destruct t as [|c t].
  2:{ apply compressed_separated; auto. constructor; auto. split; [discriminate|auto]. }
  destruct texts as [|u texts]; [congruence|].
  change (separated sep ([] :: u :: texts)) with (sep ++ separated sep (u :: texts)).
  assert (Hp : Forall (fun c => is_delim delims c = true) sep).
  { apply Forall_forall. intros c Hc. apply is_delim_in. now apply Hi. }
  assert (Hq : Forall (fun t => t <> [] /\ Forall (fun c => is_delim delims c = false) t) (u :: texts)).
  { eapply Forall_impl; [|exact Hf]. cbn. intros x [H1 H2]. split; [auto|]. apply Forall_forall. intros c Hc. apply is_delim_out. now apply H2. }
  destruct (cuts_separated (is_delim delims) sep Hs Hp (u :: texts) sep ltac:(discriminate) Hq) as (toks & Hc & Hm).
  exists ((0, 0) :: toks). split; [|cbn [map]; now rewrite Hm].
  right. split; [destruct sep; [congruence|discriminate]|].
  apply (cut_more (is_delim delims) _ (fun f e => f) (fun f e => e) 0 0 (length sep)).
  - lia.
  - destruct sep; [congruence|cbn; lia].
  - rewrite app_length. lia.
  - intros i x Hx. lia.
  - exact (all_in_all _ [] sep (separated sep (u :: texts)) Hp).
  - right. inversion Hq as [|? ? [Hu1 Hu2] _]; subst. destruct u as [|c u]; [congruence|].
    exists c. split; [|now inversion Hu2]. rewrite nth_error_app2, Nat.sub_diag by lia. destruct texts; reflexivity.
  - exact Hc.
Qed.

Lemma writes_firstn ts xs ts' : writes ts xs ts' -> forall k, results (firstn k ts) xs true (firstn k ts').
Proof.
  induction 1 as [|t x v ts xs ts' H H' IH]; intros [|k]; cbn [firstn]; try constructor; auto.
Qed.

Section Blocks.
Context {T F : Type}.
Variables (text_t : T -> list ascii) (conv_t : converter T) (zero_t : T).
Variables (text_f : F -> list ascii) (conv_f : converter F) (zero_f : F).
Variables (i : data_block T F) (rt : T) (rf : F).
Hypotheses (H1 : ~ In "|"%char (d1 i)) (H2 : d2 i <> "|"%char) (H3 : (-2147483647 <= d3 i <= 2147483647)%Z)
  (H4 : (0 <= d4 i <= 4294967295)%Z) (H7 : (-32768 <= d7 i <= 32767)%Z) (H8 : (0 <= d8 i <= 65535)%Z) (H10 : d10 i <> "|"%char)
  (H5 : text_t (d5 i) <> []) (H5' : ~ In "|"%char (text_t (d5 i))) (C5 : conv_t (text_t (d5 i)) zero_t = Ok (true, rt))
  (H6 : text_f (d6 i) <> []) (H6' : ~ In "|"%char (text_f (d6 i))) (C6 : conv_f (text_f (d6 i)) zero_f = Ok (true, rf)).

Let r := DB (d1 i) (d2 i) (d3 i) (d4 i) rt rf (d7 i) (d8 i) (d9 i) (d10 i).

Lemma no_bar x v : canonical x v -> x <> [] /\ forall c, In c x -> ~ In c (str "|").
Proof.
  intros H. destruct (canonical_chars _ _ H) as [Hn Hc]. split; [exact Hn|]. intros c Hi [<-|[]].
  rewrite Forall_forall in Hc. specialize (Hc _ Hi). destruct Hc as [E|E]; [discriminate|]. revert E. 
  unfold Num_Spec.is_digit. cbn. lia.
Qed.

Lemma one_char c : c <> "|"%char -> [c] <> [] /\ forall x, In x [c] -> ~ In x (str "|").
Proof. intros Hc. split; [discriminate|]. intros x [<-|[]] [E|[]]. congruence. Qed.

Lemma block_written : exists texts, block_text text_t text_f i = Ok (separated (str "|") texts) /\
  compressed_tokens (str "|") (separated (str "|") texts) texts /\ length texts = 10 /\
  writes (block conv_t conv_f (cleared zero_t zero_f)) texts (block conv_t conv_f r).
Proof.
  destruct C20_unsigned_round_trip as (U1 & U2 & _). destruct C20_signed_round_trip as (S1 & S2 & _).
  destruct (S2 (d3 i)) as (x3 & F3 & K3 & P3); [change (lo t_int) with (-2147483648)%Z; change (hi t_int) with 2147483647%Z; lia|].
  destruct (U2 (d4 i)) as (x4 & F4 & K4 & P4); [change (hi t_uint) with 4294967295%Z; lia|].
  destruct (S1 (d7 i)) as (x7 & F7 & K7 & P7); [change (lo t_short) with (-32768)%Z; change (hi t_short) with 32767%Z; lia|].
  destruct (U1 (d8 i)) as (x8 & F8 & K8 & P8); [change (hi t_ushort) with 65535%Z; lia|].
  exists [d1 i; [d2 i]; x3; x4; text_t (d5 i); text_f (d6 i); x7; x8; [if d9 i then "1" else "0"]%char; [d10 i]].
  unfold block_text. rewrite F3, F4, F7, F8. cbn [bind]. rewrite construct_ok.
  split; [reflexivity|]. split; [|split; [reflexivity|]].
  - apply compressed_first; [discriminate|apply incl_refl|discriminate| |].
    + intros c Hc [<-|[]]. auto.
    + repeat apply Forall_cons; try apply Forall_nil;
        [now apply one_char|now apply (no_bar _ _ K3)|now apply (no_bar _ _ K4)
        |split; [exact H5|intros c Hc [<-|[]]; auto]|split; [exact H6|intros c Hc [<-|[]]; auto]
        |now apply (no_bar _ _ K7)|now apply (no_bar _ _ K8)|apply one_char; destruct (d9 i); discriminate|now apply one_char].
  - unfold block, cleared, r. cbn [d1 d2 d3 d4 d5 d6 d7 d8 d9 d10].
    repeat first [apply writes_nil|apply (writes_cons (Target _ _ _))]; cbn [t_conv t_val]; try reflexivity; auto.
    + unfold conv_signed. now rewrite (P3 H3).
    + unfold conv_unsigned. now rewrite (P4 (proj2 H4)).
    + unfold conv_signed. now rewrite (P7 H7).
    + unfold conv_unsigned. now rewrite (P8 (proj2 H8)).
    + unfold conv_bool. destruct (d9 i); reflexivity.
Qed.

Lemma construct_and_parse_ok : construct_and_parse text_t conv_t zero_t text_f conv_f zero_f i =
  Ok (map (fun k => (true, firstn k (block conv_t conv_f r) ++ skipn k (block conv_t conv_f i))) (seq 1 10)).
Proof.
  destruct block_written as (texts & Ht & Hc & Hl & Hw). unfold construct_and_parse. rewrite Ht. cbn [bind].
  set (output := separated (str "|") texts) in *.
  assert (St : forall k ks o, k <= 10 -> skipn k o = skipn k (block conv_t conv_f i) ->
    parse_prefixes conv_t zero_t conv_f zero_f output (k :: ks) o =
    (rest <- parse_prefixes conv_t zero_t conv_f zero_f output ks (firstn k (block conv_t conv_f r) ++ skipn k (block conv_t conv_f i)) ;;
     Ok ((true, firstn k (block conv_t conv_f r) ++ skipn k (block conv_t conv_f i)) :: rest))).
  { intros k ks o Hk Ho. cbn [parse_prefixes]. unfold clear_block.
    set (bc := block conv_t conv_f (cleared zero_t zero_f)) in *. assert (Lb : length bc = 10) by reflexivity.
    assert (Lk : length (firstn k bc) = k) by (rewrite firstn_length; lia).
    assert (E1 : firstn k (firstn k bc ++ skipn k o) = firstn k bc).
    { rewrite firstn_app, Lk, Nat.sub_diag. cbn [firstn]. rewrite app_nil_r. apply firstn_all2. lia. }
    assert (E2 : skipn k (firstn k bc ++ skipn k o) = skipn k (block conv_t conv_f i)).
    { rewrite skipn_app, Lk, Nat.sub_diag, skipn_all2 by lia. cbn [skipn app]. exact Ho. }
    rewrite E1, E2.
    assert (P : parse_values (str "|") output (firstn k bc) = Ok (true, firstn k (block conv_t conv_f r))).
    { apply (parse_values_iff _ _ _ _ _ _ Hc). rewrite Lk, Hl. destruct (Nat.ltb_spec 10 k); [lia|]. now apply writes_firstn. }
    rewrite P. reflexivity. }
  clearbody output. rewrite !St by (first [lia|reflexivity]). reflexivity.
Qed.
End Blocks.

(* ------------------------------------------------------------------ *)
Lemma gap (p x r y : list ascii) : p <> [] -> (r <> [] \/ length p = 1) -> (forall c, In c p -> ~ In c r) ->
  contains p (x ++ r ++ y) -> contains p x \/ contains p y.
Proof.
  intros Hp Hr Hd (u & v & E).
  destruct r as [|c0 r].
  - destruct Hr as [Hr|Hr]; [congruence|]. destruct p as [|c [|]]; try discriminate. cbn [app] in E.
    assert (Hc : In c (x ++ y)) by (rewrite E; apply in_or_app; right; now left).
    apply in_app_or in Hc. destruct Hc as [Hc|Hc]; [left|right]; apply in_split in Hc; destruct Hc as (a & b & ->); exists a, b; reflexivity.
  - destruct (app_eq_app _ _ _ _ E) as (l & [[-> E2]|[-> E2]]).
    + destruct (app_eq_app _ _ _ _ E2) as (l' & [[-> E3]|[-> E3]]).
      * destruct l' as [|a l']; [left; exists u, []; now rewrite !app_nil_r|]. exfalso. injection E3 as -> _.
        apply (Hd a); [apply in_or_app; right; now left|now left].
      * left. exists u, l'. reflexivity.
    + destruct (app_eq_app _ _ _ _ E2) as (l' & [[E3 E4]|[-> E3]]).
      * destruct l' as [|a l']; [right; exists [], v; symmetry; exact E4|]. exfalso. destruct p as [|b p]; [congruence|]. injection E4 as -> _.
        apply (Hd a); [now left|]. rewrite E3. apply in_or_app. right. now left.
      * right. exists l', v. exact E3.
Qed.

Lemma occurs_contains p s k : occurs_at Ascii.eqb p s k <-> exists a b, s = a ++ p ++ b /\ length a = k.
Proof.
  split; [intros H; now apply (occurs_at_eq Ascii.eqb Ascii.eqb_eq) in H|]. intros H; now apply (occurs_at_eq Ascii.eqb Ascii.eqb_eq).
Qed.

Lemma splice_gone (p r s : list ascii) : p <> [] -> (r <> [] \/ length p = 1) -> (forall c, In c p -> ~ In c r) ->
  forall a ks, leftmost_occs Ascii.eqb p s a ks -> a <= length s -> ~ contains p (splice s (length p) r a ks).
Proof.
  intros Hp Hr Hd a ks H. induction H as [a H|a k ks Ha Ho Hn H IH]; intros Hle Hc.
  - cbn [splice] in Hc. destruct Hc as (u & v & E). apply (H (a + length u)); [lia|]. apply occurs_contains.
    exists (firstn a s ++ u), v. split; [|rewrite app_length, firstn_length; lia]. rewrite <- app_assoc, <- E. symmetry. apply firstn_skipn.
  - cbn [splice] in Hc. pose proof Ho as [Hk _]. apply gap in Hc; auto. destruct Hc as [(u & v & E)|Hc].
    + assert (Hlen : length u + length p <= k - a).
      { apply (f_equal (@length ascii)) in E. unfold sub in E. rewrite !app_length, firstn_length, skipn_length in E. cbn [fst snd] in E. lia. }
      assert (Hpl : 0 < length p) by (destruct p; [congruence|cbn; lia]).
      apply (Hn (a + length u)); [lia|]. apply occurs_contains.
      exists (firstn a s ++ u), (v ++ skipn k s). split; [|rewrite app_length, firstn_length; lia].
      rewrite <- app_assoc, (app_assoc p), (app_assoc u), <- E. unfold sub. cbn [fst snd].
      rewrite <- (firstn_skipn a s) at 1. f_equal. rewrite <- (firstn_skipn (k - a) (skipn a s)) at 1. f_equal. rewrite skipn_skipn. f_equal. lia.
    + apply IH in Hc; [exact Hc|lia].
Qed.

Lemma found_iff (p s : list ascii) : existsb (fun k => same_text (firstn (length p) (skipn k s)) p) (seq 0 (S (length s))) = true <-> contains p s.
Proof.
  rewrite existsb_exists. split.
  - intros (k & _ & E). apply same_text_eq in E. exists (firstn k s), (skipn (length p) (skipn k s)).
    rewrite <- (firstn_skipn k s) at 1. f_equal. rewrite <- (firstn_skipn (length p) (skipn k s)) at 1. now rewrite E.
  - intros (a & b & ->). exists (length a). split; [apply in_seq; rewrite app_length; lia|]. apply same_text_eq.
    rewrite skipn_app, skipn_all, Nat.sub_diag. cbn [skipn app]. rewrite firstn_app, firstn_all, Nat.sub_diag. cbn [firstn]. apply app_nil_r.
Qed.

Lemma pattern_gone_iff s p r : exists out, replace_pattern Ascii.eqb zero s p r = Ok out /\
  (pattern_gone s p r = Ok true <-> p = r \/ ~ contains p out) /\ (pattern_gone s p r = Ok true \/ pattern_gone s p r = Ok false).
Proof.
  assert (Hex : exists out, replace_pattern Ascii.eqb zero s p r = Ok out).
  { destruct p as [|c p]; [exists s; reflexivity|]. destruct (replace_pattern_ok Ascii.eqb Ascii.eqb_eq zero s (c :: p) r ltac:(discriminate)) as (ks & _ & ->). eauto. }
  destruct Hex as (out & E). exists out. split; [exact E|]. unfold pattern_gone. rewrite E. cbn [bind].
  pose proof (found_iff p out) as Hf. destruct (same_text p r) eqn:Es.
  - apply same_text_eq in Es. tauto.
  - assert (Hne : p <> r) by (intros Hx; apply same_text_eq in Hx; congruence).
    destruct (existsb _ _); cbn [negb]; (split; [|auto]); split; intros H; try discriminate.
    + destruct H as [H|H]; [congruence|]. exfalso. apply H, Hf. reflexivity.
    + right. intros Hc. apply Hf in Hc. discriminate.
    + reflexivity.
Qed.

Lemma pattern_gone_ok s p r : p <> [] -> (r <> [] \/ length p = 1) -> (forall c, In c p -> ~ In c r) ->
  exists out, replace_pattern Ascii.eqb zero s p r = Ok out /\ ~ contains p out /\ pattern_gone s p r = Ok true.
Proof.
  intros Hp Hr Hd. destruct (pattern_gone_iff s p r) as (out & E & Hi & _). exists out. split; [exact E|].
  destruct (replace_pattern_ok Ascii.eqb Ascii.eqb_eq zero s p r Hp) as (ks & Hk & E'). rewrite E in E'. injection E' as ->.
  assert (Hn := splice_gone p r s Hp Hr Hd 0 ks Hk ltac:(lia)). split; [exact Hn|]. apply Hi. now right.
Qed.

Lemma pattern_gone_char s c r : pattern_gone s [c] r = Ok true <-> r = [c] \/ ~ In c r \/ ~ In c s.
Proof.
  destruct (pattern_gone_iff s [c] r) as (out & E & Hi & _). rewrite Hi. clear Hi.
  destruct (replace_pattern_ok Ascii.eqb Ascii.eqb_eq zero s [c] r ltac:(discriminate)) as (ks & Hk & E'). rewrite E in E'. injection E' as ->.
  split.
  - intros [<-|Hn]; [now left|]. destruct (in_dec ascii_dec c r) as [Hr|Hr]; [|tauto]. right. right. intros Hs. apply Hn.
    inversion Hk as [a Hno Ea|a k ks' Ha Ho Hj Hl Ea]; subst.
    + exfalso. apply in_split in Hs. destruct Hs as (a & b & ->). apply (Hno (length a)); [lia|]. apply occurs_contains. exists a, b. auto.
    + apply in_split in Hr. destruct Hr as (a & b & ->). cbn [splice]. 
      eexists (sub s (0, k) ++ a), _. rewrite <- !app_assoc. reflexivity.
  - intros [->|[Hr|Hs]]; [now left|right|right].
    + apply (splice_gone [c] r s ltac:(discriminate) (or_intror eq_refl)); [intros x [<-|[]]; exact Hr|exact Hk|lia].
    + inversion Hk as [a Hno Ea|a k ks' Ha Ho Hj Hl Ea]; subst.
      * cbn [splice skipn]. intros (a & b & ->). apply Hs, in_or_app. right. now left.
      * exfalso. apply occurs_contains in Ho. destruct Ho as (a & b & -> & _). apply Hs, in_or_app. right. now left.
Qed.
