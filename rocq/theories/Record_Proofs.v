From Coq Require Import Sorting.Permutation.
From Verif Require Import Base Split_Model Split_Spec Split_Proofs Split_Proofs3 Split_Props Num_Model Num_Spec Num_Proofs Num_Props Parse_Model Parse_Spec Parse_Spec2 Parse_Proofs Parse_Proofs2
  Sink_Model Sink_Props KV_Model KV_Spec KV_Proofs KV_Props Record_Model Record_Spec.
Local Open Scope nat_scope.

Lemma upd_comm {A} (l : list A) i j a b : i <> j -> upd (upd l i a) j b = upd (upd l j b) i a.
Proof. revert i j. induction l as [|x l IH]; intros [|i] [|j] H; cbn; auto; try congruence. f_equal. apply IH. congruence. Qed.

Section Order.
Variable lookup : list ascii -> option nat.
Variables bd d : ascii.

Definition position (p : list ascii * list ascii) : list nat := match lookup (fst p) with Some i => [i] | None => [] end.
Definition pair_text (p : list ascii * list ascii) : list ascii := fst p ++ d :: snd p.
Definition pair_ok (p : list ascii * list ascii) : Prop := ~ In bd (fst p) /\ ~ In d (fst p) /\ snd p <> [] /\ ~ In bd (snd p).
Lemma pair_field p : pair_ok p -> kv_field d (pair_text p) (fst p) (snd p).
Proof. intros (_ & H1 & H2 & _). split; [reflexivity|]. split; assumption. Qed.
Lemma pair_nonempty p : pair_text p <> [].
Proof. unfold pair_text. destruct (fst p); discriminate. Qed.

(* one pair's effect *)
Lemma pair_result p vars b vars' : pair_ok p ->
  (field_result d lookup (pair_text p) vars b vars' <->
   match lookup (fst p) with
   | None => b = false /\ vars' = vars
   | Some i => exists t x, nth_error vars i = Some t /\ t_conv t (snd p) (t_val t) = Ok (b, x) /\ vars' = upd vars i (given t x)
   end).
Proof.
  intros Hp. pose proof (pair_field p Hp) as Hf. split.
  - intros H. inversion H as [Hm|k v Hk Hl|k v i t b' x Hk Hl Ht Hc]; subst.
    + exfalso. eapply Hm; exact Hf.
    + destruct (kv_field_unique _ _ _ _ _ _ Hf Hk) as [-> _]. rewrite Hl. auto.
    + destruct (kv_field_unique _ _ _ _ _ _ Hf Hk) as [-> ->]. rewrite Hl. exists t, x. auto.
  - destruct (lookup (fst p)) as [i|] eqn:E.
    + intros (t & x & H1 & H2 & ->). eapply fr_convert; eassumption.
    + intros [-> ->]. eapply fr_unknown; eassumption.
Qed.
Lemma pairs_swap p q vars b1 b2 mid vars' : pair_ok p -> pair_ok q -> NoDup (position p ++ position q) ->
  field_result d lookup (pair_text p) vars b1 mid -> field_result d lookup (pair_text q) mid b2 vars' ->
  exists mid', field_result d lookup (pair_text q) vars b2 mid' /\ field_result d lookup (pair_text p) mid' b1 vars'.
Proof.
  intros Hp Hq Hn H1 H2. apply pair_result in H1; [|exact Hp]. apply pair_result in H2; [|exact Hq]. unfold position in Hn.
  destruct (lookup (fst p)) as [i|] eqn:Ei, (lookup (fst q)) as [j|] eqn:Ej.
  - destruct H1 as (t & x & Ht & Hc & ->). destruct H2 as (u & y & Hu & Hd & ->).
    assert (Hij : i <> j). { intros ->. cbn in Hn. inversion Hn as [|? ? Hx _]. apply Hx. now left. }
    rewrite nth_error_upd_other in Hu by exact Hij. exists (upd vars j (given u y)). split.
    + apply pair_result; [exact Hq|]. rewrite Ej. exists u, y. auto.
    + apply pair_result; [exact Hp|]. rewrite Ei. exists t, x. split; [rewrite nth_error_upd_other by congruence; exact Ht|]. split; [exact Hc|].
      now apply upd_comm.
  - destruct H2 as [-> ->]. exists vars. split; [apply pair_result; [exact Hq|]; now rewrite Ej|]. apply pair_result; [exact Hp|]. now rewrite Ei.
  - destruct H1 as [-> ->]. exists vars'. split; [apply pair_result; [exact Hq|]; now rewrite Ej|]. apply pair_result; [exact Hp|]. now rewrite Ei.
  - destruct H1 as [-> ->]. destruct H2 as [-> ->]. exists vars. split; apply pair_result; try assumption; rewrite ?Ei, ?Ej; auto.
Qed.
Lemma lenient_cons p pairs vars n vars' : lenient_result d lookup (map pair_text (p :: pairs)) vars n vars' <->
  exists b mid m, field_result d lookup (pair_text p) vars b mid /\ lenient_result d lookup (map pair_text pairs) mid m vars' /\ n = (if b then m else S m).
Proof.
  cbn [map]. split.
  - intros H. inversion H; subst.
    + exfalso. eapply pair_nonempty; eauto.
    + eauto 8.
  - intros (b & mid & m & H1 & H2 & ->). eapply lr_field; [apply pair_nonempty|exact H1|exact H2].
Qed.
Lemma nodup_perm pairs pairs' : Permutation pairs pairs' -> NoDup (concat (map position pairs)) -> NoDup (concat (map position pairs')).
Proof.
  intros H. apply Permutation_NoDup. rewrite <- !flat_map_concat_map.
  induction H; cbn [flat_map]; [constructor| | |].
  - now apply Permutation_app_head.
  - rewrite !app_assoc. apply Permutation_app_tail. apply Permutation_app_comm.
  - etransitivity; eassumption.
Qed.
Lemma nodup_app_left {A} (l l' : list A) : NoDup (l ++ l') -> NoDup l.
Proof.
  induction l as [|x l IH]; intros H; [constructor|]. inversion H; subst. constructor; [|now apply IH]. intros Hi. apply H2. apply in_or_app. now left.
Qed.
Lemma nodup_app_right {A} (l l' : list A) : NoDup (l ++ l') -> NoDup l'.
Proof. induction l as [|x l IH]; intros H; [exact H|]. inversion H; subst. now apply IH. Qed.
Lemma lenient_perm pairs pairs' : Permutation pairs pairs' -> Forall pair_ok pairs -> NoDup (concat (map position pairs)) ->
  forall vars n vars', lenient_result d lookup (map pair_text pairs) vars n vars' -> lenient_result d lookup (map pair_text pairs') vars n vars'.
Proof.
  induction 1 as [|p l l' Hl IH|p q l|l l' l'' H1 IH1 H2 IH2]; intros Hf Hn vars n vars' H.
  - exact H.
  - apply lenient_cons in H as (b & mid & m & Ha & Hb & ->). apply lenient_cons. inversion Hf; subst. exists b, mid, m. split; [exact Ha|]. split; [|reflexivity].
    apply IH; [assumption| |exact Hb]. cbn [map concat] in Hn. now apply nodup_app_right in Hn.
  - apply lenient_cons in H as (b1 & m1 & n1 & Ha & Hb & ->). apply lenient_cons in Hb as (b2 & m2 & n2 & Hb & Hc & ->).
    inversion Hf as [|? ? Hq Hf']; subst. inversion Hf' as [|? ? Hp _]; subst. cbn [map concat] in Hn. rewrite app_assoc in Hn. apply nodup_app_left in Hn.
    destruct (pairs_swap q p vars b1 b2 m1 m2 Hq Hp Hn Ha Hb) as (mid' & Hx & Hy).
    apply lenient_cons. exists b2, mid'. eexists. split; [exact Hx|]. split; [apply lenient_cons; exists b1, m2, n2; split; [exact Hy|split; [exact Hc|reflexivity]]|].
    destruct b1, b2; reflexivity.
  - apply IH2; [|eapply nodup_perm; eassumption|now apply IH1]. rewrite Forall_forall in *. intros x Hx. apply Hf. eapply Permutation_in; [symmetry; exact H1|exact Hx].
Qed.
Lemma lenient_strict fs vars vars' : lenient_result d lookup fs vars 0 vars' -> strict_result d lookup fs vars true vars'.
Proof.
  intros H. remember 0 as n eqn:En. induction H as [|fs vars n vars' _ IH|f fs vars vars1 b n vars' Hne Hf _ IH].
  - constructor.
  - apply sr_empty. auto.
  - destruct b; [|discriminate]. eapply sr_ok; eauto.
Qed.
Lemma record_fields_of pairs : pairs <> [] -> Forall pair_ok pairs -> bd <> d -> fields_of bd (record_text bd d pairs) (map pair_text pairs).
Proof.
  intros Hne Hf Hbd. unfold record_text. change (pair_texts d pairs) with (map pair_text pairs).
  destruct (split_join bd (map pair_text pairs)) as (toks & E & Hm).
  - destruct pairs; [congruence|discriminate].
  - destruct pairs as [|p [|q r]]; try discriminate. cbn. intros H. injection H as H. now apply (pair_nonempty p).
  - apply Forall_forall. intros x Hx. apply in_map_iff in Hx as (p & <- & Hp). rewrite Forall_forall in Hf. destruct (Hf p Hp) as (H1 & _ & _ & H2).
    unfold pair_text. intros Hi. apply in_app_or in Hi as [Hi|[Hi|Hi]]; [auto|congruence|auto].
  - set (s := separated [bd] (map pair_text pairs)) in *. rewrite split_str_delims in E.
    rewrite (split_pred_ext _ (fun c => Ascii.eqb bd c)) in E by (intros c; cbn; now rewrite orb_false_r).
    destruct (split_default_fields (fun c => Ascii.eqb bd c) s) as (toks' & E' & Ht & _). assert (toks' = toks) by congruence. subst toks'.
    exists toks. split; [exact Ht|now symmetry].
Qed.
Lemma record_nonempty pairs : pairs <> [] -> record_text bd d pairs <> [].
Proof. destruct pairs as [|[k v] [|q r]]; [congruence| |]; intros _; unfold record_text; cbn; destruct k; discriminate. Qed.
End Order.

Section Restore.
Context {T : Type}.
Variables (conv_real : converter T) (nought : T).
Let says_real (x : list ascii) (v : T) : Prop := forall old, conv_real x old = Ok (true, v).

Lemma says_int_conv x v old : says_int x v -> conv_signed t_int n_int x old = Ok (true, v).
Proof.
  intros [Ht Hb]. unfold conv_signed. rewrite (proj2 (proj2 (C19_int_exact x ltac:(intros H; pose proof (signed_text_fun _ _ _ H Ht); lia)) v)).
  - reflexivity.
  - split; [exact Ht|lia].
Qed.
Lemma listed_sink {V} (conv : converter V) (dflt : V) (says : list ascii -> V -> Prop) x vs :
  (forall y v, says y v -> conv y dflt = Ok (true, v)) -> listed says x vs ->
  forall c, conv_sink conv dflt (fun c v => c ++ [v]) (@length V) x (attach c [] 1 (sink_of_delims (str ",") 1)) =
    Ok (true, attach (c ++ vs) [] 1 (sink_of_delims (str ",") 1)).
Proof.
  intros Hs (texts & Hne & Hf & -> & H2) c. rewrite !C72_attach.
  destruct (compressed_separated (str ",") (str ",") texts) as (toks & Ht & Hm); [discriminate|apply incl_refl| |].
  - eapply Forall_impl; [|exact Hf]. cbn. intros t [H1 H3]. split; [exact H1|]. intros a Ha [<-|[]]. auto.
  - set (ok := fun y => match conv y dflt with Ok (true, v) => Some v | _ => None end).
    assert (Hk : Forall2 (fun t v => ok t = Some v) texts vs).
    { clear Hm Ht Hf Hne. induction H2 as [|t v texts vs H _ IH]; constructor; [|exact IH]. unfold ok. now rewrite (Hs _ _ H). }
    destruct (C72_all V (list V) conv dflt (fun c v => c ++ [v]) (@length V) ok (str ",") (separated (str ",") texts) 1 c toks) as (vs' & Hc & E).
    + exact Ht.
    + assert (Hb : Forall (behaves conv dflt ok) texts).
      { apply Forall_forall. intros t Hi. unfold behaves. destruct (ok t) as [v|] eqn:Eo.
        - unfold ok in Eo. destruct (conv t dflt) as [[[] w]| |]; try discriminate. congruence.
        - exfalso. clear - Hk Hi Eo. induction Hk; [destruct Hi|]. destruct Hi as [<-|Hi]; [congruence|auto]. }
      rewrite Hm in Hb. clear - Hb. induction toks; constructor; inversion Hb; subst; auto.
    + rewrite <- Hm in Hc. assert (vs' = vs).
      { clear - Hc Hk. revert vs' Hc. induction Hk as [|t v ts vs H _ IH]; intros vs' Hc; inversion Hc; subst; [reflexivity|f_equal; [congruence|auto]|congruence]. }
      subst vs'. rewrite E. f_equal. f_equal.
      * destruct toks; [cbn in Hm; congruence|reflexivity].
      * f_equal. f_equal. clear. revert c. induction vs as [|v vs IH]; intros c; cbn [fold_left]; [now rewrite app_nil_r|]. rewrite IH, <- app_assoc. reflexivity.
Qed.

Definition named (k : list ascii) : option nat := match uintkey_lookup key_table k with Ok o => o | _ => None end.
Lemma named_ok k : uintkey_lookup key_table k = Ok (named k).
Proof.
  destruct (proj1 (C38_uint_keys 6 [(0,0); (1,1); (2,2); (3,3); (4,4); (5,5)] k)) as (o & E). change (uintkey_lookup key_table k = Ok o) in E.
  unfold named. now rewrite E.
Qed.
Lemma named_iff k i : uint_key_text k i -> i < 6 -> named k = Some i.
Proof.
  intros Hk Hi. pose proof (proj2 (C38_uint_keys 6 [(0,0); (1,1); (2,2); (3,3); (4,4); (5,5)] k) i) as H.
  change (uintkey_lookup key_table k = Ok (Some i) <-> exists n, uint_key_text k n /\ n < 6 /\ last_registered Nat.eqb [(0,0); (1,1); (2,2); (3,3); (4,4); (5,5)] n = Some i) in H.
  assert (E : uintkey_lookup key_table k = Ok (Some i)).
  { apply H. exists i. split; [exact Hk|]. split; [exact Hi|]. destruct i as [|[|[|[|[|[|i]]]]]]; try reflexivity. lia. }
  unfold named. now rewrite E.
Qed.
Lemma digits_free k c : Forall is_digit k -> ~ is_digit c -> ~ In c k.
Proof. intros H Hc Hi. rewrite Forall_forall in H. auto. Qed.
Lemma one_field p i vars t x : named (fst p) = Some i -> pair_ok "|" "=" p -> nth_error vars i = Some t -> t_conv t (snd p) (t_val t) = Ok (true, x) ->
  field_result "=" named (pair_text "=" p) vars true (upd vars i (given t x)).
Proof. intros Hn Hp Ht Hc. apply (pair_result named "|" "=" p _ _ _ Hp). rewrite Hn. eauto. Qed.
Lemma fields_ok cd pairs : record_fields says_real cd pairs -> Forall (pair_ok "|" "=") pairs /\ pairs <> [] /\ NoDup (concat (map (position named) pairs)) /\
  forall old, lenient_result "=" named (map (pair_text "=") pairs) (members conv_real nought old) 0
    (members conv_real nought (CD (v0 cd) (v1 cd) (v2 cd) (v3 old ++ v3 cd) (v4 old ++ v4 cd) (v5 old ++ v5 cd))).
Proof.
  intros (k0 & k1 & k2 & k3 & k4 & k5 & x0 & x1 & x3 & x4 & x5 & -> & K0 & K1 & K2 & K3 & K4 & K5 & H0 & H1 & H3 & H4 & H5 & Hf).
  assert (G : forall k i x, uint_key_text k i -> x <> [] /\ ~ In "|"%char x -> pair_ok "|" "=" (k, x)).
  { intros k i x (Hk & _) [Ha Hb]. split; [|split; [|split]]; cbn [fst snd]; auto; apply digits_free with (1 := Hk); unfold is_digit; cbn; lia. }
  repeat match goal with H : Forall _ (_ :: _) |- _ => apply Forall_cons_iff in H as [? H] end. cbn [snd] in *.
  assert (P0 : pair_ok "|" "=" (k0, x0)) by (eapply G; eassumption).
  assert (P1 : pair_ok "|" "=" (k1, x1)) by (eapply G; eassumption).
  assert (P2 : pair_ok "|" "=" (k2, v2 cd)) by (eapply G; eassumption).
  assert (P3 : pair_ok "|" "=" (k3, x3)) by (eapply G; eassumption).
  assert (P4 : pair_ok "|" "=" (k4, x4)) by (eapply G; eassumption).
  assert (P5 : pair_ok "|" "=" (k5, x5)) by (eapply G; eassumption).
  apply named_iff in K0; [|lia]. apply named_iff in K1; [|lia]. apply named_iff in K2; [|lia]. apply named_iff in K3; [|lia]. apply named_iff in K4; [|lia]. apply named_iff in K5; [|lia].
  split; [repeat (apply Forall_cons; [assumption|]); apply Forall_nil|]. split; [discriminate|]. split.
  - unfold position. cbn [map fst]. rewrite K0, K1, K2, K3, K4, K5. cbn [concat app]. repeat constructor; cbn; lia.
  - intros old. apply lenient_cons. exists true. eexists. exists 0. split; [|split; [|reflexivity]].
    { eapply (one_field (k0, x0) 0); [exact K0|exact P0|reflexivity|]. cbn [t_conv t_val snd]. exact (says_int_conv x0 (v0 cd) _ H0). }
    apply lenient_cons. exists true. eexists. exists 0. split; [|split; [|reflexivity]].
    { eapply (one_field (k1, x1) 1); [exact K1|exact P1|reflexivity|]. cbn [t_conv t_val snd]. apply H1. }
    apply lenient_cons. exists true. eexists. exists 0. split; [|split; [|reflexivity]].
    { eapply (one_field (k2, v2 cd) 2); [exact K2|exact P2|reflexivity|]. cbn [t_conv t_val snd]. reflexivity. }
    apply lenient_cons. exists true. eexists. exists 0. split; [|split; [|reflexivity]].
    { eapply (one_field (k3, x3) 3); [exact K3|exact P3|reflexivity|]. cbn [t_conv t_val snd vec_sink].
      eapply listed_sink; [|exact H3]. intros y v. apply says_int_conv. }
    apply lenient_cons. exists true. eexists. exists 0. split; [|split; [|reflexivity]].
    { eapply (one_field (k4, x4) 4); [exact K4|exact P4|reflexivity|]. cbn [t_conv t_val snd deq_sink].
      eapply listed_sink; [|exact H4]. intros y v Hy. apply Hy. }
    apply lenient_cons. exists true. eexists. exists 0. split; [|split; [|reflexivity]].
    { eapply (one_field (k5, x5) 5); [exact K5|exact P5|reflexivity|]. cbn [t_conv t_val snd lst_sink].
      eapply listed_sink; [|exact H5]. intros y v ->. reflexivity. }
    cbn [map upd members given t_type t_conv t_val vec_sink deq_sink lst_sink v0 v1 v2 v3 v4 v5]. constructor.
Qed.
Lemma record_read cd pairs pairs' old : record_fields says_real cd pairs -> Permutation pairs pairs' ->
  kv_parse (uintkey_lookup key_table) "|" "=" (record_text "|" "=" pairs') (members conv_real nought old) =
    Ok (true, members conv_real nought (CD (v0 cd) (v1 cd) (v2 cd) (v3 old ++ v3 cd) (v4 old ++ v4 cd) (v5 old ++ v5 cd))).
Proof.
  intros Hr Hp. destruct (fields_ok cd pairs Hr) as (Hf & Hne & Hn & Hl).
  assert (Hf' : Forall (pair_ok "|" "=") pairs').
  { rewrite Forall_forall in *. intros x Hx. apply Hf. eapply Permutation_in; [symmetry; exact Hp|exact Hx]. }
  assert (Hne' : pairs' <> []). { intros ->. apply Permutation_sym, Permutation_nil in Hp. auto. }
  apply (C38_strict _ named _ _ _ (map (pair_text "=") pairs') _ _ _ named_ok).
  - apply record_fields_of; auto. discriminate.
  - right. split; [now apply record_nonempty|]. apply lenient_strict. eapply lenient_perm; try eassumption. apply Hl.
Qed.
Lemma records_read cds : forall texts old, v3 old = [] -> v4 old = [] -> v5 old = [] ->
  Forall2 (fun cd s => exists pairs pairs', record_fields says_real cd pairs /\ Permutation pairs pairs' /\ s = record_text "|" "=" pairs') cds texts ->
  read_records conv_real nought texts (members conv_real nought old) = Ok (map (fun cd => Some (members conv_real nought cd)) cds).
Proof.
  induction cds as [|cd cds IH]; intros texts old E3 E4 E5 H; inversion H as [|? s ? texts' (pairs & pairs' & Hr & Hp & ->) H']; subst; [reflexivity|].
  cbn [read_records]. rewrite (record_read cd pairs pairs' old Hr Hp). cbn [bind]. rewrite E3, E4, E5. cbn [app].
  change (reset conv_real nought (members conv_real nought (CD (v0 cd) (v1 cd) (v2 cd) (v3 cd) (v4 cd) (v5 cd)))) with
    (members conv_real nought (CD (v0 cd) (v1 cd) (v2 cd) [] [] [])).
  rewrite IH with (texts := texts') by (reflexivity || assumption). cbn [bind map]. destruct cd; reflexivity.
Qed.
End Restore.
