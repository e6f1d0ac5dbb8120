(* Proofs about the programs of Sweep_Model.v. *)
From Verif Require Import Base Split_Model Split_Spec Num_Model Num_Spec Num_Proofs Num_Proofs2 Parse_Model Parse_Spec Parse_Spec2 Parse_Proofs Parse_Proofs2
  Parse_Props Sink_Model Sink_Props Trie_Model Trie_Spec Trie_Props Tour_Model Tour_Proofs Fields_Proofs Record_Spec Record_Proofs Sweep_Model Sweep_Spec.
Local Open Scope nat_scope.

Lemma forall2_firstn {A B} (R : A -> B -> Prop) l l' : Forall2 R l l' -> forall n, Forall2 R (firstn n l) (firstn n l').
Proof. induction 1; intros [|n]; cbn [firstn]; constructor; auto. Qed.
Lemma forall2_left {A B} (R : A -> B -> Prop) l l' : Forall2 R l l' -> Forall (fun a => exists b, R a b) l.
Proof. induction 1; constructor; eauto. Qed.

Section Sinks.
Context {V : Type}.
Variables (conv : converter V) (dflt : V) (says : list ascii -> V -> Prop).
Hypothesis sound : forall y v, says y v -> conv y dflt = Ok (true, v).
Let ok y := match conv y dflt with Ok (true, v) => Some v | _ => None end.
Lemma ok_behaves x v : says x v -> behaves conv dflt ok x.
Proof. intros H. unfold behaves, ok. now rewrite (sound _ _ H). Qed.
Lemma ok_converted texts vs : Forall2 says texts vs -> forall vs', converted ok texts vs' -> vs' = vs.
Proof.
  intros H. induction H as [|t v ts vs H _ IH]; intros vs' Hc; inversion Hc as [|? ? ? ? Eo Ho|? ? ? Eo Ho]; subst; [reflexivity| |];
    unfold ok in Eo; rewrite (sound _ _ H) in Eo; [f_equal; [congruence|auto]|discriminate].
Qed.
(* what a sink takes from a list of values *)
Lemma counted_sink n x vs c : listed says x vs ->
  conv_sink conv dflt (fun c v => c ++ [v]) (@length V) x (count (match n with None => All | Some n => Count n end) (attach c [] 1 (sink_of_delims (str ",") 1))) =
    Ok (enough n vs, count (match n with None => All | Some n => Count n end) (attach (c ++ taken n vs) [] 1 (sink_of_delims (str ",") 1))).
Proof.
  intros Hx. destruct n as [n|]; cbn [enough taken].
  - destruct Hx as (texts & Hne & Hf & -> & H2).
    destruct (compressed_separated (str ",") (str ",") texts) as (toks & Ht & Hm); [discriminate|apply incl_refl| |].
    { eapply Forall_impl; [|exact Hf]. cbn. intros t [H1 H3]. split; [exact H1|]. intros a Ha [<-|[]]. auto. }
    rewrite !C72_attach. unfold count. cbn [s_delims s_opt s_container].
    destruct (C72_count V conv dflt ok (str ",") (separated (str ",") texts) n 1 c toks) as (vs' & Hc & E).
    + discriminate.
    + exact Ht.
    + assert (Hb : Forall (behaves conv dflt ok) (firstn n texts)).
      { eapply Forall_impl; [|exact (forall2_left _ _ _ (forall2_firstn _ _ _ H2 n))]. cbn. intros t (v & Hv). exact (ok_behaves t v Hv). }
      rewrite Hm, firstn_map in Hb. now rewrite Forall_map in Hb.
    + rewrite <- firstn_map, <- Hm in Hc. apply (ok_converted _ (firstn n vs)) in Hc; [|now apply forall2_firstn]. subst vs'.
      rewrite E. do 2 f_equal. rewrite firstn_length. destruct (n <=? length vs) eqn:En; [apply Nat.leb_le in En; apply Nat.eqb_eq|apply Nat.leb_gt in En; apply Nat.eqb_neq]; lia.
  - exact (listed_sink conv dflt says x vs sound Hx c).
Qed.
End Sinks.

Lemma listed_nonempty {V} (says : list ascii -> V -> Prop) x vs : listed says x vs -> x <> [].
Proof.
  intros (texts & Hne & Hf & -> & _). destruct texts as [|t [|u texts]]; [congruence|inversion Hf as [|? ? [H _] _]; exact H|].
  inversion Hf as [|? ? [H _] _]; subst. cbn. destruct t; [congruence|discriminate].
Qed.

Section Three.
Context {T : Type}.
Variables (conv_t : converter T) (zero_t : T) (says_real : list ascii -> T -> Prop).
Hypothesis sound : forall y v, says_real y v -> conv_t y zero_t = Ok (true, v).
Let number (n : option nat) : elements := match n with None => All | Some n => Count n end.

Lemma three_ok n1 n2 n3 x1 x2 x3 vs1 vs2 vs3 : Forall (fun x => ~ In "|"%char x) [x1; x2; x3] ->
  listed says_int x1 vs1 -> listed eq x2 vs2 -> listed says_real x3 vs3 ->
  sinks_block conv_t zero_t (number n1) (number n2) (number n3) (separated (str "|") [x1; x2; x3]) =
    Ok (enough n1 vs1 && enough n2 vs2 && enough n3 vs3,
        three_sinks conv_t zero_t (number n1) (number n2) (number n3) (taken n1 vs1) (if enough n1 vs1 then taken n2 vs2 else [])
          (if enough n1 vs1 && enough n2 vs2 then taken n3 vs3 else [])).
Proof.
  intros Hb H1 H2 H3. unfold sinks_block, three_sinks.
  assert (Hc : compressed_tokens (str "|") (separated (str "|") [x1; x2; x3]) [x1; x2; x3]).
  { apply compressed_separated; [discriminate|apply incl_refl|]. rewrite !Forall_cons_iff in *. destruct Hb as (B1 & B2 & B3 & _).
    repeat split; try (eapply listed_nonempty; eassumption); try constructor; intros a Ha [<-|[]]; auto. }
  apply (parse_values_iff _ _ _ _ _ _ Hc). cbn [length Nat.ltb Nat.leb].
  pose proof (counted_sink _ _ says_int (fun y v => proj2 (int_conv_iff y 0%Z v)) n1 x1 vs1 [] H1) as E1.
  pose proof (counted_sink conv_string [] eq ltac:(intros y v ->; reflexivity) n2 x2 vs2 [] H2) as E2.
  pose proof (counted_sink conv_t zero_t says_real sound n3 x3 vs3 [] H3) as E3.
  destruct (enough n1 vs1); [|cbn [andb]; now apply res_fail].
  apply res_ok; [exact E1|]. destruct (enough n2 vs2); [|cbn [andb]; now apply res_fail].
  apply res_ok; [exact E2|]. destruct (enough n3 vs3); cbn [andb]; [|now apply res_fail].
  apply res_ok; [exact E3|]. constructor.
Qed.
End Three.

Section Rest.
Context {T C : Type}.
Variables (conv_t : converter T) (zero_t : T) (says_real : list ascii -> T -> Prop) (add : C -> T -> C).
Hypothesis sound : forall y v, says_real y v -> conv_t y zero_t = Ok (true, v).
Let tstr (x : list ascii) := Target (list ascii) conv_string x.
Let tint (v : Z) := Target Z (conv_signed t_int n_int) v.
Let ok y := match conv_t y zero_t with Ok (true, v) => Some v | _ => None end.

Lemma head_ok s1 s2 x3 i texts : Forall (fun t => t <> [] /\ ~ In ","%char t) (s1 :: s2 :: x3 :: texts) -> says_int x3 i ->
  compressed_tokens (str ",") (separated (str ",") (s1 :: s2 :: x3 :: texts)) (s1 :: s2 :: x3 :: texts) /\
  parse_values (str ",") (separated (str ",") (s1 :: s2 :: x3 :: texts)) [tstr []; tstr []; tint 0%Z] = Ok (true, [tstr s1; tstr s2; tint i]).
Proof.
  intros Hf Hi.
  assert (Hc : compressed_tokens (str ",") (separated (str ",") (s1 :: s2 :: x3 :: texts)) (s1 :: s2 :: x3 :: texts)).
  { apply compressed_separated; [discriminate|apply incl_refl|]. eapply Forall_impl; [|exact Hf]. intros t [H1 H2]. split; [exact H1|].
    intros a Ha [<-|[]]. auto. }
  split; [exact Hc|]. apply (parse_values_iff _ _ _ _ _ _ Hc). cbn [length Nat.ltb Nat.leb].
  apply res_ok; [reflexivity|]. apply res_ok; [reflexivity|]. apply res_ok; [exact (proj2 (int_conv_iff x3 0%Z i) Hi)|]. constructor.
Qed.
Lemma rest_ok s1 s2 x3 i texts vs bad more c : Forall (fun t => t <> [] /\ ~ In ","%char t) (s1 :: s2 :: x3 :: texts ++ bad ++ more) ->
  says_int x3 i -> Forall2 says_real texts vs -> length bad <= 1 -> Forall (fun x => exists v, conv_t x zero_t = Ok (false, v)) bad ->
  (bad = [] -> more = [] /\ texts <> []) -> Forall (fun x => exists b v, conv_t x zero_t = Ok (b, v)) more ->
  rest_block conv_t zero_t add c (separated (str ",") (s1 :: s2 :: x3 :: texts ++ bad ++ more)) =
    Ok (length bad =? 0, [tstr s1; tstr s2; tint i], fold_left add vs c).
Proof.
  intros Hf Hi Hv Hb1 Hbad Hm Hmore. destruct (head_ok s1 s2 x3 i (texts ++ bad ++ more) Hf Hi) as [Hc Hp].
  destruct (C07_values_then_rest T C conv_t zero_t add ok _ _ [tstr []; tstr []; tint 0%Z] c _ Hc) as (_ & H & _).
  destruct (H ltac:(cbn [length]; destruct texts, bad; cbn [app length]; try lia; destruct Hm; congruence) _ Hp) as (vs' & E & Em & Hn).
  - cbn [length skipn]. apply Forall_app. split; [|apply Forall_app; split].
    + eapply Forall_impl; [|exact (forall2_left _ _ _ Hv)]. cbn. intros t (v & Ht). unfold behaves, ok. now rewrite (sound _ _ Ht).
    + eapply Forall_impl; [|exact Hbad]. cbn. intros t (v & Ht). unfold behaves, ok. rewrite Ht. eauto.
    + eapply Forall_impl; [|exact Hmore]. cbn. intros t (b & v & Ht). unfold behaves, ok. rewrite Ht. destruct b; eauto.
  - unfold rest_block, tstr, tint in *. rewrite E. cbn [length skipn] in Em, Hn |- *.
    assert (Ho : map ok texts = map Some vs). { clear - Hv sound. induction Hv; cbn [map]; [reflexivity|]. unfold ok at 1. rewrite (sound _ _ H). now f_equal. }
    pose proof (f_equal (@length _) Ho) as Hl. rewrite !map_length in Hl.
    assert (Hlen : length vs' <= length (texts ++ bad ++ more)).
    { apply (f_equal (@length _)) in Em. rewrite !map_length, firstn_length in Em. lia. }
    assert (Hlt : length vs' = length texts).
    { destruct (Nat.lt_trichotomy (length vs') (length texts)) as [G|[G|G]]; [|exact G|]; exfalso.
      - destruct Hn as (x & Hx & Hx0); [rewrite app_length; lia|]. cbn [nth_error Nat.add] in Hx. rewrite nth_error_app1 in Hx by lia.
        assert (Hy : nth_error (map ok texts) (length vs') = Some None) by (rewrite nth_error_map, Hx; cbn; now rewrite Hx0).
        rewrite Ho, nth_error_map in Hy. destruct (nth_error vs (length vs')); discriminate.
      - destruct bad as [|y bad]; [destruct Hm as [-> _]; [reflexivity|]; rewrite !app_length in Hlen; cbn in Hlen; lia|].
        inversion Hbad as [|? ? (v & Hy) _]; subst.
        assert (Hz : nth_error (map ok (firstn (length vs') (texts ++ (y :: bad) ++ more))) (length texts) = Some None).
        { rewrite nth_error_map. rewrite firstn_app. rewrite nth_error_app2 by (rewrite firstn_length; lia).
          rewrite firstn_length. replace (length texts - Nat.min (length vs') (length texts)) with 0 by lia.
          destruct (length vs' - length texts) as [|k] eqn:Ek; [lia|]. cbn [firstn app nth_error option_map]. unfold ok. now rewrite Hy. }
        rewrite Em, nth_error_map in Hz. destruct (nth_error vs' (length texts)); discriminate. }
    rewrite Hlt in Em. rewrite firstn_app, Nat.sub_diag, firstn_all, app_nil_r, Ho in Em.
    assert (vs' = vs). { clear - Em. revert vs Em. induction vs' as [|v vs' IH]; intros [|w vs] Em; cbn in Em; try discriminate; [reflexivity|]. injection Em as -> Em. f_equal. auto. }
    subst vs'. do 3 f_equal. rewrite !app_length, Hl. destruct bad as [|y bad]; cbn [length].
    + destruct Hm as [-> _]; [reflexivity|]. apply Nat.eqb_eq. cbn [length]. lia.
    + apply Nat.eqb_neq. lia.
Qed.
End Rest.

Section Trie.
Context {K V : Type}.
Variable keq : K -> K -> bool.
Hypothesis keq_ok : forall a b, keq a b = true <-> a = b.
Variable show : list K -> list ascii.
Lemma prefix_lines_ok pairs t : insert_all keq (@empty_trie K V) pairs = Ok t -> forall keys, Forall (fun k => k <> [] /\ In k (map fst pairs)) keys ->
  prefix_lines keq show t keys = Ok (concat (map (fun k => str "Found Prefix: " ++ show k ++ [newline]) keys)).
Proof.
  intros Ht keys Hk. destruct (C28_find_prefix K V keq keq_ok pairs) as (t' & Ht' & Hp). rewrite Ht in Ht'. injection Ht' as <-.
  induction Hk as [|k keys [H1 H2] _ IH]; [reflexivity|]. cbn [prefix_lines map concat]. destruct (Hp k) as (b & E & Hb). rewrite E. cbn [bind].
  rewrite IH. cbn [bind]. destruct b; [reflexivity|]. exfalso. assert (false = true); [|discriminate]. apply Hb. split; [exact H1|].
  apply in_map_iff in H2 as ((k', v) & <- & Hi). exists k', v. split; [exact Hi|]. exists []. cbn. now rewrite app_nil_r.
Qed.
Variable line : list K -> V -> outcome (list ascii).
Lemma value_lines_ok t p1 : forall p2, insert_all keq (@empty_trie K V) (p1 ++ p2) = Ok t ->
  Forall (fun p => fst p <> []) p2 -> unlike (map fst p2) -> 
  forall outs, Forall2 (fun p o => line (fst p) (snd p) = Ok o) p2 outs -> value_lines keq line t (map fst p2) = Ok (concat outs).
Proof.
  intros p2. revert p1. induction p2 as [|[k v] p2 IH]; intros p1 Ht Hne Hu outs Ho; inversion Ho as [|? o ? outs' E Ho']; subst; [reflexivity|].
  cbn [map fst value_lines concat]. inversion Hne as [|? ? Hk Hne']; subst. cbn [map fst unlike] in Hu. destruct Hu as [Hu1 Hu2].
  destruct (C28_find_inserted K V keq keq_ok p1 p2 k v t Hk Ht) as (v' & Ef & Hv). rewrite Ef. cbn [bind].
  rewrite (Hv ltac:(intros k' v'' Hi Hs; apply (Hu1 k'); [apply in_map_iff; exists (k', v''); auto|exact Hs])). cbn [fst snd] in E. rewrite E. cbn [bind].
  rewrite (IH (p1 ++ [(k, v)])) with (outs := outs'); auto. now rewrite <- app_assoc.
Qed.
Lemma trie_lines_ok pairs outs : Forall (fun p => fst p <> []) pairs -> unlike (map fst pairs) ->
  Forall2 (fun p o => line (fst p) (snd p) = Ok o) pairs outs ->
  trie_lines keq show line pairs = Ok (concat (map (fun k => str "Found Prefix: " ++ show k ++ [newline]) (map fst pairs)) ++ concat outs).
Proof.
  intros Hne Hu Ho. unfold trie_lines. destruct (C28_find_prefix K V keq keq_ok pairs) as (t & Ht & _). rewrite Ht. cbn [bind].
  rewrite (prefix_lines_ok pairs t Ht).
  - cbn [bind]. rewrite (value_lines_ok t [] pairs Ht Hne Hu outs Ho). reflexivity.
  - clear - Hne. rewrite Forall_forall in *. intros k Hk. split; [|exact Hk]. apply in_map_iff in Hk as (p & <- & Hp). auto.
Qed.
End Trie.

Lemma combine_fst {A B} (l : list A) : forall l' : list B, length l = length l' -> map fst (combine l l') = l.
Proof. induction l as [|a l IH]; intros [|b l'] H; cbn in *; try discriminate; [reflexivity|]. f_equal. auto. Qed.
Lemma numbered_ok keys : forall i, (Z.of_nat (i + length keys) < 10 ^ 20)%Z -> exists outs, numbered i keys (concat outs) /\
  Forall2 (fun p o => (n <- size_text (snd p) ;; Ok (str "Found: (" ++ fst p ++ str "," ++ n ++ str ")" ++ [newline])) = Ok o) (combine keys (seq i (length keys))) outs.
Proof.
  induction keys as [|k keys IH]; intros i Hi; [exists []; split; constructor|]. cbn [length] in Hi.
  destruct (IH (S i)) as (outs & Hn & Ho); [rewrite Nat.add_succ_comm; exact Hi|].
  destruct (size_text_ok i) as (x & Ex & Hx); [eapply Z.le_lt_trans; [|exact Hi]; lia|].
  eexists (_ :: outs). split; [|cbn [length seq combine]; constructor; [cbn [fst snd]; rewrite Ex; reflexivity|exact Ho]].
  cbn [concat]. rewrite <- !app_assoc. cbn [app]. exact (one_more i k keys x _ Hx Hn).
Qed.
Lemma rest_none T C (conv_t : converter T) zero_t (add : C -> T -> C) s1 s2 x3 c : Forall (fun t => t <> [] /\ ~ In ","%char t) [s1; s2; x3] ->
  rest_block conv_t zero_t add c (separated (str ",") [s1; s2; x3]) =
    Ok (false, [Target (list ascii) conv_string []; Target (list ascii) conv_string []; Target Z (conv_signed t_int n_int) 0%Z], c).
Proof.
  intros Hf. assert (Hc : compressed_tokens (str ",") (separated (str ",") [s1; s2; x3]) [s1; s2; x3]).
  { apply compressed_separated; [discriminate|apply incl_refl|]. eapply Forall_impl; [|exact Hf]. intros t [H1 H2]. split; [exact H1|].
    intros a Ha [<-|[]]. auto. }
  unfold rest_block.
  match goal with |- parse_values_rest _ _ _ _ _ ?ts _ = _ => destruct (C07_values_then_rest T C conv_t zero_t add (fun _ => None) _ _ ts c _ Hc) as (H & _) end.
  apply H. cbn [length]. lia.
Qed.
Lemma alike_keys : NoDup [str "ab"; str "ac"] /\ Forall (fun k : list ascii => k <> []) [str "ab"; str "ac"] /\
  forall out, numbered 0 [str "ab"; str "ac"] out ->
    trie_example00 [str "ab"; str "ac"] <> Ok (concat (map (fun k => str "Found Prefix: " ++ k ++ [ascii_of_nat 10]) [str "ab"; str "ac"]) ++ out).
Proof.
  split; [repeat constructor; cbn; intuition discriminate|]. split; [repeat constructor; discriminate|].
  intros out Hn E. inversion Hn as [|? ? ? x out1 Hx _]; subst.
  assert (Ev : trie_example00 [str "ab"; str "ac"] =
    Ok (concat (map (fun k => str "Found Prefix: " ++ k ++ [ascii_of_nat 10]) [str "ab"; str "ac"]) ++
        str "Found: (ab,1)" ++ [newline] ++ str "Found: (ac,1)" ++ [newline])) by (vm_compute; reflexivity).
  assert (x = str "0").
  { destruct (size_text_ok 0) as (z & Ez & Hz); [reflexivity|]. rewrite (canonical_unique _ _ _ Hx Hz).
    assert (E0 : size_text 0 = Ok (str "0")) by (vm_compute; reflexivity). congruence. }
  subst x. rewrite Ev in E. apply (f_equal (fun o => match o with Ok l => nth_error l 45 | _ => None end)) in E. cbn in E. discriminate.
Qed.
