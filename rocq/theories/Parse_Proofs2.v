From Verif Require Import Base Split_Model Split_Spec Split_Proofs Split_Proofs2 Split_Proofs3 Num_Model Parse_Model Parse_Spec Parse_Proofs.
Local Open Scope nat_scope.

Lemma join_onto_ok {T} (f : T -> list ascii) d xs : forall output, join_onto f output d xs = output ++ separated d (map f xs).
Proof.
  induction xs as [|x xs IH]; intros output; [cbn; now rewrite app_nil_r|].
  cbn [join_onto map]. destruct xs as [|y ys]; [reflexivity|].
  rewrite IH. cbn [separated map]. now rewrite <- !app_assoc.
Qed.

Lemma join_if_ok {T} (f : T -> list ascii) p d xs : forall output,
  join_if_onto f p d xs true output = output ++ separated d (map f (filter p xs)) /\
  join_if_onto f p d xs false output =
    output ++ concat (map (fun x => d ++ f x) (filter p xs)).
Proof.
  induction xs as [|x xs IH]; intros output; [cbn; now rewrite !app_nil_r|].
  cbn [join_if_onto filter]. destruct (p x); [|apply IH]. cbn [negb].
  split; rewrite (proj2 (IH _)).
  - cbn [map]. remember (filter p xs) as ys eqn:Ey. clear.
    rewrite <- app_assoc. f_equal.
    revert x. induction ys as [|y ys IH]; intros x; [cbn; now rewrite app_nil_r|].
    cbn [map concat separated]. rewrite <- app_assoc. f_equal. f_equal. apply IH.
  - cbn [map concat]. now rewrite <- !app_assoc.
Qed.

Lemma separated_app_one d xs t : xs <> [] -> separated d (xs ++ [t]) = separated d xs ++ d ++ t.
Proof.
  intros H. induction xs as [|x xs IH]; [congruence|]. destruct xs as [|y ys].
  - reflexivity.
  - cbn [app separated] in *. rewrite IH by discriminate. rewrite <- !app_assoc. reflexivity.
Qed.

Lemma join_args_ok output d argv : join_args output d argv = Ok (output ++ separated d argv).
Proof.
  unfold join_args. apply holds_eq.
  pose proof (for_up_rule (S := list ascii) (fun i o => i <= length argv /\ 
     o = output ++ separated d (firstn i argv) ++ (if ((0 <? i) && (i <? length argv))%bool then d else []))
    (fun i output0 => a <- rd argv i ;; Ok (if (Z.of_nat i <? Z.of_nat (length argv) - 1)%Z then (output0 ++ a) ++ d else output0 ++ a))
    (length argv) 0) as R.
  eapply holds_weaken; [apply R|].
  - intros i o Hi [Hl Ho].
    destruct (nth_error argv i) as [a|] eqn:Ea; [|apply nth_error_None in Ea; lia].
    rewrite (rd_nth _ _ _ Ea). cbn [bind holds]. split; [lia|]. subst o.
    rewrite (firstn_S_nth _ _ _ Ea).
    assert (Hlen : length (firstn i argv) = i) by (rewrite firstn_length; lia).
    replace ((0 <? S i) && (S i <? length argv))%bool with (S i <? length argv) by reflexivity.
    assert (E1 : (Z.of_nat i <? Z.of_nat (length argv) - 1)%Z = (S i <? length argv)).
    { destruct (S i <? length argv) eqn:E; [apply Nat.ltb_lt in E; apply Z.ltb_lt; lia|apply Nat.ltb_ge in E; apply Z.ltb_ge; lia]. }
    rewrite E1. destruct i as [|i].
    + change ((0 <? 0) && (0 <? length argv))%bool with false. cbn [firstn app separated]. rewrite app_nil_r. destruct (1 <? length argv); rewrite ?app_nil_r; [rewrite <- app_assoc|]; reflexivity.
    + rewrite separated_app_one by (intros H; rewrite H in Hlen; discriminate).
      replace (0 <? S i) with true by reflexivity. replace (S i <? length argv) with true by (symmetry; apply Nat.ltb_lt; lia).
      cbn [andb]. destruct (S (S i) <? length argv); rewrite <- ?app_assoc; [reflexivity|]. rewrite app_nil_r. reflexivity.
  - split; [lia|]. cbn. now rewrite app_nil_r.
  - cbn beta. intros o (_ & ->). rewrite firstn_all2 by lia. rewrite Nat.ltb_irrefl, andb_false_r, app_nil_r. reflexivity.
Qed.

Lemma construct_ok d texts : forall output, construct output d texts = output ++ separated d texts.
Proof.
  induction texts as [|t texts IH]; intros output; [cbn; now rewrite app_nil_r|].
  cbn [construct separated]. destruct texts as [|u texts]; [reflexivity|]. rewrite IH.
  now rewrite <- !app_assoc.
Qed.

(* ------------------------------------------------------------------ *)
(* joining then splitting at one character *)
Lemma sep_unique d : forall ts us,
  Forall (fun t => ~ In d t) ts -> Forall (fun t => ~ In d t) us -> length ts = length us ->
  separated [d] ts = separated [d] us -> ts = us.
Proof.
  assert (Hcut : forall t u x y, ~ In d t -> ~ In d u -> t ++ d :: x = u ++ d :: y -> t = u /\ x = y).
  { induction t as [|a t IH]; intros [|b u] x y Ht Hu E; cbn in *.
    - injection E as ->. auto.
    - injection E as -> _. exfalso. apply Hu. auto.
    - injection E as -> _. exfalso. apply Ht. auto.
    - injection E as -> E. destruct (IH u x y) as [-> ->]; auto. }
  induction ts as [|t ts IH]; intros [|u us] Ht Hu Hl E; try discriminate; [reflexivity|].
  inversion Ht as [|? ? Ht1 Ht2]; inversion Hu as [|? ? Hu1 Hu2]; subst. injection Hl as Hl.
  destruct ts as [|t2 ts], us as [|u2 us]; try discriminate; cbn [separated] in E.
  - now subst.
  - cbn [app] in E. destruct (Hcut t u _ _ Ht1 Hu1 E) as [-> E2]. f_equal. apply IH; auto.
Qed.

Lemma filter_sep d ts : Forall (fun t => ~ In d t) ts ->
  filter (fun c => Ascii.eqb d c) (separated [d] ts) = repeat d (pred (length ts)).
Proof.
  assert (Hn : forall t, ~ In d t -> filter (fun c => Ascii.eqb d c) t = []).
  { induction t as [|a t IH]; intros H; [reflexivity|]. cbn. destruct (Ascii.eqb_spec d a) as [->|_].
    - exfalso. apply H. now left.
    - apply IH. intros Hi. apply H. now right. }
  induction 1 as [|t ts Ht _ IH]; [reflexivity|]. destruct ts as [|u ts]; [now apply Hn|].
  change (separated [d] (t :: u :: ts)) with (t ++ [d] ++ separated [d] (u :: ts)).
  rewrite !filter_app, IH, Hn by auto. cbn. rewrite Ascii.eqb_refl. reflexivity.
Qed.

Lemma weave_sep d : forall fs, weave fs (map (fun c => [c]) (repeat d (pred (length fs)))) = separated [d] fs.
Proof.
  induction fs as [|f fs IH]; [reflexivity|]. destruct fs as [|g fs]; [reflexivity|].
  change (weave (f :: g :: fs) (map (fun c => [c]) (repeat d (pred (length (f :: g :: fs))))))
    with (f ++ [d] ++ weave (g :: fs) (map (fun c => [c]) (repeat d (pred (length (g :: fs)))))).
  rewrite IH. reflexivity.
Qed.

Lemma split_join d ts : ts <> [] -> ts <> [[]] -> Forall (fun t => ~ In d t) ts ->
  exists toks, split_str [d] (separated [d] ts) 0 = Ok (toks, length toks) /\
    map (sub (separated [d] ts)) toks = ts.
Proof.
  intros Hne Hne2 Hf. rewrite split_str_delims.
  set (s := separated [d] ts).
  rewrite (split_pred_ext _ (fun c => Ascii.eqb d c)) by (intros c; cbn; now rewrite orb_false_r).
  destruct (split_default_fields (fun c => Ascii.eqb d c) s) as (toks & E & _ & _ & Hfree & _ & H).
  exists toks. split; [exact E|].
  assert (Hs : s <> []).
  { subst s. destruct ts as [|t [|u ts]]; [congruence| |].
    - cbn. intros ->. congruence.
    - cbn [separated]. destruct t; discriminate. }
  destruct (H Hs) as (Hl & Hw). unfold count_delims in Hl. unfold s in Hw at 2, Hl at 1.
  rewrite filter_sep in Hl, Hw by auto. rewrite repeat_length in Hl.
  assert (Hlt : length toks = length ts) by (destruct ts; [congruence|exact Hl]).
  apply (sep_unique d).
  - rewrite Forall_map. eapply Forall_impl; [|exact Hfree]. cbn. intros r Hr Hi.
    rewrite Forall_forall in Hr. specialize (Hr _ Hi). rewrite Ascii.eqb_refl in Hr. discriminate.
  - exact Hf.
  - now rewrite map_length.
  - rewrite <- weave_sep, map_length, Hlt. exact Hw.
Qed.

(* ------------------------------------------------------------------ *)
(* a separated text has exactly these compressed tokens *)
Lemma all_in_free {A} (p : A -> bool) pre t post : Forall (fun x => p x = false) t ->
  all_in (pre ++ t ++ post) (fun x => negb (p x)) (length pre) (length pre + length t).
Proof.
  intros H i x Hi Hx. rewrite nth_error_app2, nth_error_app1 in Hx by lia.
  apply nth_error_In in Hx. rewrite Forall_forall in H. now rewrite H.
Qed.
Lemma all_in_all {A} (p : A -> bool) pre t post : Forall (fun x => p x = true) t ->
  all_in (pre ++ t ++ post) p (length pre) (length pre + length t).
Proof.
  intros H i x Hi Hx. rewrite nth_error_app2, nth_error_app1 in Hx by lia.
  apply nth_error_In in Hx. rewrite Forall_forall in H. now apply H.
Qed.

Lemma sub_here {A} (pre t post : list A) : sub (pre ++ t ++ post) (length pre, length pre + length t) = t.
Proof.
  unfold sub. cbn [fst snd]. rewrite skipn_app_len. replace (length pre + length t - length pre) with (length t) by lia.
  apply firstn_app_len.
Qed.

Lemma cuts_separated (p : ascii -> bool) sep : sep <> [] -> Forall (fun c => p c = true) sep ->
  forall texts pre, texts <> [] -> Forall (fun t => t <> [] /\ Forall (fun c => p c = false) t) texts ->
  exists toks, cuts p (pre ++ separated sep texts) (fun f e => f) (fun f e => e) (length pre) toks /\
    map (sub (pre ++ separated sep texts)) toks = texts.
Proof.
  intros Hsep Hs. induction texts as [|t texts IH]; intros pre Hne Hf; [congruence|].
  inversion Hf as [|? ? [Ht1 Ht2] Hf']; subst. destruct texts as [|u texts].
  - exists [(length pre, length (pre ++ separated sep [t]))]. cbn [separated]. split.
    + apply cut_last; [rewrite app_length; lia|]. rewrite app_length.
      rewrite <- (app_nil_r t) at 1. now apply all_in_free.
    + cbn [map]. f_equal. rewrite app_length. rewrite <- (app_nil_r t) at 1. apply sub_here.
  - change (separated sep (t :: u :: texts)) with (t ++ sep ++ separated sep (u :: texts)).
    destruct (IH (pre ++ t ++ sep) ltac:(discriminate) Hf') as (toks & Hc & Hm).
    rewrite <- !app_assoc in Hc, Hm.
    exists ((length pre, length pre + length t) :: toks). split.
    + assert (Hlen : length (pre ++ t ++ sep) = length pre + length t + length sep) by (rewrite !app_length; lia).
      apply (cut_more p _ (fun f e => f) (fun f e => e) (length pre) (length pre + length t) (length pre + length t + length sep)).
      * lia.
      * destruct sep; [congruence|simpl; lia].
      * rewrite !app_length. lia.
      * now apply all_in_free.
      * pose proof (all_in_all p (pre ++ t) sep (separated sep (u :: texts)) Hs) as H.
        rewrite <- app_assoc, app_length in H. exact H.
      * right. inversion Hf' as [|? ? [Hu1 Hu2] _]; subst. destruct u as [|c u]; [congruence|].
        exists c. split; [|now inversion Hu2].
        replace (pre ++ t ++ sep ++ separated sep ((c :: u) :: texts)) with ((pre ++ t ++ sep) ++ separated sep ((c :: u) :: texts)) by now rewrite <- !app_assoc.
        rewrite nth_error_app2 by lia. rewrite Hlen, Nat.sub_diag. destruct texts; reflexivity.
      * cbv beta. rewrite Hlen in Hc. exact Hc.
    + cbn [map]. rewrite sub_here, Hm. reflexivity.
Qed.

Lemma is_delim_in delims c : is_delim delims c = true <-> In c delims.
Proof.
  unfold is_delim. rewrite existsb_exists. split.
  - intros (d & Hd & E). apply Ascii.eqb_eq in E. now subst.
  - intros H. exists c. split; auto. apply Ascii.eqb_refl.
Qed.
Lemma is_delim_out delims c : is_delim delims c = false <-> ~ In c delims.
Proof. rewrite <- is_delim_in. destruct (is_delim delims c); split; intros; congruence. Qed.

Lemma compressed_separated delims sep texts : sep <> [] -> incl sep delims ->
  Forall (fun t => t <> [] /\ forall c, In c t -> ~ In c delims) texts ->
  compressed_tokens delims (separated sep texts) texts.
Proof.
  intros Hs Hi Hf. destruct texts as [|t texts].
  - exists []. split; [now left|reflexivity].
  - destruct (cuts_separated (is_delim delims) sep Hs) with (texts := t :: texts) (pre := @nil ascii) as (toks & Hc & Hm).
    + apply Forall_forall. intros c Hc. apply is_delim_in. now apply Hi.
    + discriminate.
    + eapply Forall_impl; [|exact Hf]. cbn. intros x [H1 H2]. split; [auto|]. apply Forall_forall. intros c Hc.
      apply is_delim_out. now apply H2.
    + cbn [app length] in *. exists toks. split; [|now rewrite Hm]. right. split; [|exact Hc].
      inversion Hf as [|? ? [Ht _] _]; subst. cbn [separated]. destruct texts; [auto|]. destruct t; [congruence|discriminate].
Qed.

Lemma writes_results ts xs ts' : writes ts xs ts' -> results ts xs true ts'.
Proof. induction 1; constructor; auto. Qed.
Lemma writes_length ts xs ts' : writes ts xs ts' -> length xs = length ts.
Proof. induction 1; simpl; auto. Qed.

Lemma construct_parse delims sep ts texts ts' : sep <> [] -> incl sep delims ->
  Forall (fun t => t <> [] /\ forall c, In c t -> ~ In c delims) texts -> writes ts texts ts' ->
  parse_values delims (construct [] sep texts) ts = Ok (true, ts').
Proof.
  intros Hs Hi Hf Hw. rewrite construct_ok. cbn [app].
  apply (parse_values_iff _ _ _ _ _ _ (compressed_separated delims sep texts Hs Hi Hf)).
  rewrite (writes_length _ _ _ Hw), Nat.ltb_irrefl. now apply writes_results.
Qed.

(* ------------------------------------------------------------------ *)
(* lines *)
Lemma take_line_ok s : first_line s (fst (take_line s)) (snd (take_line s)).
Proof.
  induction s as [|c s IH]; [split; [constructor|right; auto]|].
  cbn [take_line]. unfold newline. destruct (Ascii.eqb_spec c (ascii_of_nat 10)) as [->|Hc].
  - split; [constructor|left; reflexivity].
  - destruct (take_line s) as [l r]. cbn [fst snd] in *. destruct IH as [H1 H2]. split; [constructor; auto|].
    destruct H2 as [->|[-> ->]]; [left|right]; auto.
Qed.

Lemma first_line_unique s l1 r1 l2 r2 : first_line s l1 r1 -> first_line s l2 r2 -> l1 = l2 /\ r1 = r2.
Proof.
  revert s l2. induction l1 as [|a l1 IH]; intros s l2 [H1 H1'] [H2 H2'].
  - destruct l2 as [|b l2].
    + destruct H1' as [->|[-> ->]], H2' as [E|[E ->]]; cbn in *; try congruence; split; congruence.
    + exfalso. inversion H2; subst. destruct H1' as [->|[-> ->]], H2' as [E|[E ->]]; cbn in *; congruence.
  - inversion H1 as [|? ? Ha H1r]; subst. destruct l2 as [|b l2].
    + exfalso. destruct H1' as [->|[-> ->]], H2' as [E|[E ->]]; cbn in *; congruence.
    + inversion H2 as [|? ? Hb H2r]; subst.
      assert (exists s', first_line s' l1 r1 /\ first_line s' l2 r2 /\ a = b) as (s' & F1 & F2 & ->).
      { destruct H1' as [->|[-> ->]]; [exists (l1 ++ ascii_of_nat 10 :: r1)|exists l1];
        destruct H2' as [E|[E ->]]; cbn in E; injection E as -> E;
        (split; [split; auto|split; [split; auto|reflexivity]]). }
      destruct (IH s' l2 F1 F2) as [-> ->]. auto.
Qed.

Lemma parse_line_ok st delims ts line r : good st = true -> rest st <> [] -> first_line (rest st) line r ->
  parse_line st delims ts =
    if ((length line =? 0) || (length delims =? 0))%bool then Ok (false, ts, Stream r true)
    else ' (b, ts') <- parse_values delims line ts ;; Ok (b, ts', Stream r true).
Proof.
  intros Hg Hr Hl. unfold parse_line, getline. rewrite Hg. cbn [negb].
  destruct (rest st) as [|c s] eqn:Er; [congruence|]. pose proof (take_line_ok (c :: s)) as H.
  destruct (take_line (c :: s)) as [l r']. destruct (first_line_unique _ _ _ _ _ Hl H) as [-> ->].
  reflexivity.
Qed.

(* ------------------------------------------------------------------ *)
Lemma fold_append s : forall k n o, fold_left (fun o (_ : nat) => o ++ s) (seq k n) o = o ++ copies n s.
Proof.
  intros k n. revert k. induction n as [|n IH]; intros k o; unfold copies; cbn; [now rewrite app_nil_r|].
  rewrite IH. unfold copies. now rewrite <- app_assoc.
Qed.
Lemma replicate_ok n s : replicate n s = copies n s.
Proof.
  unfold replicate, replicate_onto. destruct (Nat.eqb_spec n 0) as [->|H]; [reflexivity|].
  now rewrite fold_append.
Qed.
Lemma replicate_inplace_ok n s : replicate_inplace n s = copies (S n) s.
Proof. unfold replicate_inplace. rewrite fold_append. reflexivity. Qed.
Lemma bracketize_ok {T} (f : T -> list ascii) pre post xs : forall o,
  bracketize f pre post xs o = o ++ concat (map (fun x => pre ++ f x ++ post) xs).
Proof.
  unfold bracketize. induction xs as [|x xs IH]; intros o; cbn [fold_left map concat]; [now rewrite app_nil_r|].
  rewrite IH. now rewrite <- !app_assoc.
Qed.

Lemma insert_interval_ok {T} k (v : T) : 0 < k -> (N.of_nat k < 2 ^ 64)%N -> forall xs cnt b out size, length b = cnt -> cnt < k ->
  exists ys, interleaved k v (b ++ xs) (b ++ ys) /\
   insert_interval (N.of_nat k) v (N.of_nat cnt) xs out size = (out ++ ys, size + length ys).
Proof.
  intros Hk Hw. induction xs as [|x xs IH]; intros cnt b out size Hb Hc.
  - exists []. split; [rewrite app_nil_r; constructor; lia|]. cbn. rewrite app_nil_r. f_equal. lia.
  - cbn [insert_interval]. rewrite N.mod_small by lia.
    replace (N.of_nat cnt + 1)%N with (N.of_nat (S cnt)) by lia.
    destruct (N.eqb_spec (N.of_nat (S cnt)) (N.of_nat k)) as [E|E].
    + assert (k = S cnt) by lia. subst k.
      destruct (IH 0 [] ((out ++ [x]) ++ [v]) (size + 2) eq_refl Hk) as (ys & H1 & H2).
      exists (x :: v :: ys). split.
      * replace (b ++ x :: xs) with ((b ++ [x]) ++ xs) by now rewrite <- app_assoc.
        replace (b ++ x :: v :: ys) with ((b ++ [x]) ++ v :: ys) by now rewrite <- app_assoc.
        apply il_block; [rewrite app_length; simpl; lia|exact H1].
      * change (N.of_nat 0) with 0%N in H2. rewrite H2. rewrite <- !app_assoc. f_equal. simpl. lia.
    + destruct (IH (S cnt) (b ++ [x]) (out ++ [x]) (S size)) as (ys & H1 & H2).
      { rewrite app_length. simpl. lia. } { lia. }
      exists (x :: ys). rewrite <- !app_assoc in *. split; [exact H1|]. rewrite H2. f_equal. simpl. lia.
Qed.

Lemma substr_ok s r0 r1 : r0 <= r1 -> r0 <= length s -> (N.of_nat (length s) < 2 ^ 64)%N ->
  substr s r0 ((N.of_nat (Nat.min r1 (length s)) + 2 ^ 64 - N.of_nat r0) mod 2 ^ 64)%N = sub s (r0, Nat.min r1 (length s)).
Proof.
  intros H1 H2 Hw. unfold substr, sub. cbn [fst snd].
  replace (N.of_nat (Nat.min r1 (length s)) + 2 ^ 64 - N.of_nat r0)%N
    with (N.of_nat (Nat.min r1 (length s) - r0) + 1 * 2 ^ 64)%N by lia.
  rewrite N.mod_add by (intro; discriminate). rewrite N.mod_small by lia. f_equal. lia.
Qed.

Lemma cut_ok r0 r1 xs : r0 <= r1 -> Forall (fun s => (N.of_nat (length s) < 2 ^ 64)%N) xs ->
  cut r0 r1 xs = map (fun s => sub s (r0, Nat.min r1 (length s))) (filter (fun s => r0 <=? length s) xs).
Proof.
  intros H. unfold cut. induction 1 as [|s xs Hs _ IH]; [reflexivity|].
  cbn [flat_map filter]. rewrite IH. destruct (Nat.leb_spec r0 (length s)) as [Hl|Hl].
  - replace (length s <? r0) with false by (symmetry; apply Nat.ltb_ge; lia).
    cbn [app map]. now rewrite substr_ok.
  - replace (length s <? r0) with true by (symmetry; apply Nat.ltb_lt; lia). reflexivity.
Qed.
Lemma cut_inplace_ok r0 r1 xs : r0 <= r1 -> Forall (fun s => (N.of_nat (length s) < 2 ^ 64)%N) xs ->
  cut_inplace r0 r1 xs = map (fun s => if r0 <=? length s then sub s (r0, Nat.min r1 (length s)) else s) xs.
Proof.
  intros H. unfold cut_inplace. induction 1 as [|s xs Hs _ IH]; [reflexivity|].
  cbn [map]. f_equal; [|exact IH]. destruct (Nat.leb_spec r0 (length s)) as [Hl|Hl]; [|reflexivity]. now rewrite substr_ok.
Qed.

(* ------------------------------------------------------------------ *)
(* translation *)
Definition low (c : ascii) : Prop := nat_of_ascii c < 128.
Lemma lookup_snoc ps a b c : lookup_last (ps ++ [(a, b)]) c = if Ascii.eqb a c then b else lookup_last ps c.
Proof.
  induction ps as [|[x y] ps IH]; [cbn; reflexivity|].
  cbn [app lookup_last]. rewrite existsb_app. cbn [existsb fst]. rewrite orb_false_r.
  destruct (Ascii.eqb a c) eqn:Ea.
  - rewrite orb_true_r. exact IH.
  - rewrite orb_false_r. destruct (existsb _ ps); [exact IH|reflexivity].
Qed.

Lemma iota_nth c : nth_error (map ascii_of_nat (seq 0 256)) (nat_of_ascii c) = Some c.
Proof.
  assert (Hlt : nat_of_ascii c < 256) by apply nat_of_ascii_lt.
  rewrite nth_error_map. rewrite (nth_error_nth' _ 0) by (rewrite seq_length; exact Hlt).
  rewrite seq_nth by exact Hlt. cbn [option_map plus]. now rewrite ascii_nat_embedding.
Qed.

Lemma table_ok itable otable : length itable = length otable -> Forall low itable ->
  exists t, translation_table itable otable = Ok (Some t) /\ length t = 256 /\
    forall c, nth_error t (nat_of_ascii c) = Some (lookup_last (combine itable otable) c).
Proof.
  intros Hl Hlow. unfold translation_table. rewrite Hl, Nat.eqb_refl. cbn [negb].
  assert (H : holds (for_up 0 (length otable)
     (fun i t => a <- rd itable i ;; b <- rd otable i ;; k <- tt_index a ;; wr t k b)
     (map ascii_of_nat (seq 0 256)))
     (fun t => length t = 256 /\ forall c, nth_error t (nat_of_ascii c) = Some (lookup_last (combine itable otable) c))).
  { pose proof (for_up_rule (S := list ascii) (fun i t => length t = 256 /\
       forall c, nth_error t (nat_of_ascii c) = Some (lookup_last (firstn i (combine itable otable)) c))
      (fun i t => a <- rd itable i ;; b <- rd otable i ;; k <- tt_index a ;; wr t k b) (length otable) 0) as R.
    eapply holds_weaken; [apply R|].
    - intros i t Hi [H1 H2].
      destruct (nth_error itable i) as [a|] eqn:Ea; [|apply nth_error_None in Ea; lia].
      destruct (nth_error otable i) as [b|] eqn:Eb; [|apply nth_error_None in Eb; lia].
      rewrite (rd_nth _ _ _ Ea), (rd_nth _ _ _ Eb). cbn [bind].
      rewrite Forall_forall in Hlow. pose proof (Hlow a (nth_error_In _ _ Ea)) as Hla. unfold low in Hla.
      unfold tt_index. replace (nat_of_ascii a <? 128) with true by (symmetry; apply Nat.ltb_lt; lia). cbn [bind].
      rewrite wr_ok by lia. cbn [holds]. split; [now rewrite upd_length|]. intros c.
      assert (En : nth_error (combine itable otable) i = Some (a, b)).
      { clear -Ea Eb. revert otable i Ea Eb. induction itable as [|x xs IH]; intros [|y ys] [|i] Ea Eb; try discriminate; cbn in *; [congruence|].
        now apply IH. }
      rewrite (firstn_S_nth _ _ _ En), lookup_snoc.
      destruct (Ascii.eqb_spec a c) as [->|Hne].
      + apply nth_error_upd_same. lia.
      + rewrite nth_error_upd_other; [apply H2|]. intros E. apply Hne.
        rewrite <- (ascii_nat_embedding a), <- (ascii_nat_embedding c). now f_equal.
    - split; [reflexivity|]. intros c. cbn [firstn lookup_last]. apply iota_nth.
    - cbv beta. intros t [H1 H2]. split; auto. intros c. rewrite H2. rewrite firstn_all2; [reflexivity|].
      rewrite combine_length. lia. }
  destruct (for_up _ _ _ _) as [t| |]; cbn [holds] in H; try contradiction.
  exists t. cbn [bind]. destruct H. auto.
Qed.

Lemma translate_ok t (f : ascii -> ascii) : (forall c, nth_error t (nat_of_ascii c) = Some (f c)) ->
  forall s, Forall low s -> translate t s = Ok (map f s).
Proof.
  intros Ht. induction 1 as [|c s Hc _ IH]; [reflexivity|]. cbn [translate map].
  unfold tt_index, low in *. replace (nat_of_ascii c <? 128) with true by (symmetry; apply Nat.ltb_lt; lia).
  cbn [bind]. rewrite (rd_nth _ _ _ (Ht c)). cbn [bind]. rewrite IH. reflexivity.
Qed.
Lemma translate_high t s : (exists c, In c s /\ 128 <= nat_of_ascii c) -> length t = 256 -> translate t s = UB.
Proof.
  intros (c & Hc & Hh) Hl. induction s as [|a s IH]; [destruct Hc|]. cbn [translate]. unfold tt_index.
  destruct (Nat.ltb_spec (nat_of_ascii a) 128) as [Ha|Ha]; [|reflexivity]. cbn [bind].
  destruct Hc as [->|Hc]; [lia|]. destruct (nth_error t (nat_of_ascii a)) eqn:E; [|apply nth_error_None in E; lia].
  rewrite (rd_nth _ _ _ E). cbn [bind]. now rewrite IH.
Qed.
