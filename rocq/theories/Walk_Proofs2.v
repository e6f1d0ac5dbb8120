From Coq Require Import Sorting.Sorted.
From Verif Require Import Base Split_Model Num_Model Num_Spec Num_Proofs Num_Proofs2 Num_Props Parse_Model Parse_Spec Parse_Spec2 Parse_Proofs Parse_Proofs2 Parse_Proofs3 Parse_Props
  Sink_Model Sink_Props Scan_Model Scan_Spec Scan_Props KV_Model KV_Spec KV_Proofs2 KV_Props Cont_Model Cont_Spec Cont_Proofs Cont_Props Wordfreq_Model Wordfreq_Spec Wordfreq_Proofs Fields_Spec Fields_Proofs
  Tour_Model Tour_Proofs Tour_Proofs2 Walk_Model Walk_Spec.
Local Open Scope nat_scope.

(* ---- truncated integers ---- *)
Lemma digit_not_dot : ~ is_digit "."%char.
Proof. unfold is_digit. change (N_of_ascii "."%char) with 46%N. lia. Qed.
Lemma signed_no_dot a v : signed_text a v -> ~ In "."%char a /\ a <> [].
Proof.
  intros (sign & ds & -> & [Hne Hd] & H). split.
  - intros Hi. apply in_app_or in Hi as [Hi|Hi].
    + destruct H as [[[-> | ->] _]|[-> _]]; cbn in Hi; intuition discriminate.
    + rewrite Forall_forall in Hd. exact (digit_not_dot (Hd _ Hi)).
  - destruct ds; [congruence|]. destruct sign; discriminate.
Qed.
Lemma unsigned_no_dot a v : unsigned_text a v -> ~ In "."%char a /\ a <> [].
Proof.
  intros (sign & ds & Hs & -> & [Hne Hd] & _). split.
  - intros Hi. apply in_app_or in Hi as [Hi|Hi].
    + destruct Hs as [-> | ->]; cbn in Hi; intuition discriminate.
    + rewrite Forall_forall in Hd. exact (digit_not_dot (Hd _ Hi)).
  - destruct ds; [congruence|]. destruct sign; discriminate.
Qed.
Lemma digit_not_bar : ~ is_digit "|"%char.
Proof. unfold is_digit. change (N_of_ascii "|"%char) with 124%N. lia. Qed.
Lemma signed_no_bar a v : signed_text a v -> ~ In "|"%char a.
Proof.
  intros (sign & ds & -> & [Hne Hd] & H) Hi. apply in_app_or in Hi as [Hi|Hi].
  - destruct H as [[[-> | ->] _]|[-> _]]; cbn in Hi; intuition discriminate.
  - rewrite Forall_forall in Hd. exact (digit_not_bar (Hd _ Hi)).
Qed.
Lemma unsigned_no_bar a v : unsigned_text a v -> ~ In "|"%char a.
Proof.
  intros (sign & ds & Hs & -> & [Hne Hd] & H) Hi. apply in_app_or in Hi as [Hi|Hi].
  - destruct Hs as [-> | ->]; cbn in Hi; intuition discriminate.
  - rewrite Forall_forall in Hd. exact (digit_not_bar (Hd _ Hi)).
Qed.
Lemma uint_conv x old v : unsigned_text x v -> (v <= 4294967295)%Z -> conv_unsigned t_uint n_uint x old = Ok (true, v).
Proof.
  intros H Hb. destruct (C18_unsigned_exact x) as (_ & (_ & U) & _). unfold conv_unsigned.
  replace (parse_unsigned t_uint n_uint x) with (Ok (Some v)) by (symmetry; apply U; auto). reflexivity.
Qed.
Lemma truncated_drops {T} (conv : converter T) frac a r t : ~ In "."%char a -> dropped frac r -> truncated_int conv frac (a ++ r) t = conv a t.
Proof.
  intros Ha Hr. destruct frac as [n|]; cbn [dropped] in Hr; [|now apply C71_unknown_size].
  unfold truncated_int. rewrite app_length. replace (length a + length r <? n + 1) with false by (symmetry; apply Nat.ltb_ge; lia).
  replace (length a + length r - (n + 1)) with (length a) by lia. now rewrite firstn_app, firstn_all, Nat.sub_diag, app_nil_r.
Qed.
Lemma truncated_block_ok frac a v r b u q : int_text a v -> unsigned_text b u -> (u <= 4294967295)%Z ->
  dropped frac r -> dropped frac q -> ~ In "|"%char r -> ~ In "|"%char q ->
  truncated_block frac (a ++ r ++ str "|" ++ b ++ q) = Ok (true, [trunc_int frac v; trunc_uint frac u]).
Proof.
  intros Ha Hb Hu Hr Hq Nr Nq. unfold truncated_block. replace (a ++ r ++ str "|" ++ b ++ q) with (construct [] (str "|") [a ++ r; b ++ q]).
  2:{ rewrite C55_construct. cbn [app separated]. now rewrite <- !app_assoc. }
  destruct (signed_no_dot a v (proj1 Ha)) as [A1 A2]. destruct (unsigned_no_dot b u Hb) as [B1 B2]. apply C55_round_trip_any; [discriminate|now intros c Hc| |].
  - repeat constructor.
    + destruct a; [congruence|discriminate].
    + intros c Hc [<-|[]]. apply in_app_or in Hc as [Hc|Hc]; [exact (signed_no_bar _ _ (proj1 Ha) Hc)|contradiction].
    + destruct b; [congruence|discriminate].
    + intros c Hc [<-|[]]. apply in_app_or in Hc as [Hc|Hc]; [exact (unsigned_no_bar _ _ Hb Hc)|contradiction].
  - unfold trunc_int, trunc_uint. apply (writes_cons (Target Z (truncated_int (conv_signed t_int n_int) frac) 0%Z)).
    { cbn [t_conv t_val]. rewrite truncated_drops by assumption. now apply int_conv_iff. }
    apply (writes_cons (Target Z (truncated_int (conv_unsigned t_uint n_uint) frac) 0%Z)); [|constructor].
    cbn [t_conv t_val]. rewrite truncated_drops by assumption. now apply uint_conv.
Qed.

(* ---- columns ---- *)
Lemma int_results cols texts vs : Forall2 int_text texts vs -> Forall (fun c => c < length texts) cols ->
  forall olds, length olds = length cols -> exists xs, columns_of texts cols xs /\
    results (map int_var olds) xs true (map int_var (map (fun c => nth c vs 0%Z) cols)).
Proof.
  intros Ht Hc. induction Hc as [|c cols Hc Hcs IH]; intros olds Hl.
  - destruct olds; [|discriminate]. exists []. split; [split; [reflexivity|intros [|i]; discriminate]|constructor].
  - destruct olds as [|o olds]; [discriminate|]. injection Hl as Hl. destruct (IH olds Hl) as (xs & [X1 X2] & R).
    destruct (nth_error texts c) as [x|] eqn:Ex; [|apply nth_error_None in Ex; lia].
    exists (x :: xs). split; [split; [cbn; now rewrite X1|intros [|i] d Hd; cbn [nth_error] in *; [injection Hd as <-; auto|auto]]|].
    cbn [map]. apply (res_ok (int_var o)); [|exact R]. cbn [t_conv t_val int_var]. apply int_conv_iff.
    clear -Ht Ex. revert c Ex. induction Ht as [|y v ys vs H Ht IH]; intros [|c] Ex; cbn in Ex |- *; try discriminate; [injection Ex as <-; exact H|now apply IH].
Qed.
Lemma last_ascending cols : ascending cols -> Forall (fun c => c <= last cols 0) cols.
Proof.
  induction cols as [|c cols IH]; intros H; [constructor|]. destruct cols as [|d cols]; [repeat constructor|].
  destruct H as [Hcd H]. specialize (IH H). change (last (c :: d :: cols) 0) with (last (d :: cols) 0). constructor; [|exact IH].
  inversion IH as [|? ? Hd _]; subst. lia.
Qed.
Lemma columns_ok data texts vs cols olds : compressed_tokens (str ",") data texts -> Forall2 int_text texts vs ->
  ascending cols -> cols <> [] -> length olds = length cols ->
  parse_columns (str ",") data cols (map int_var olds) =
  Ok (if last cols 0 <? length texts then (true, map int_var (map (fun c => nth c vs 0%Z) cols)) else (false, map int_var olds)).
Proof.
  intros Hd Ht Ha Hne Hl. destruct (Nat.ltb_spec (last cols 0) (length texts)) as [L|L].
  - destruct (int_results cols texts vs Ht) with (olds := olds) as (xs & X & R); [|exact Hl|].
    { eapply Forall_impl; [|apply last_ascending, Ha]. cbn. lia. }
    apply (C58_columns (str ",") data cols texts xs); auto. now rewrite map_length.
  - now apply (C58_short (str ",") data cols texts).
Qed.
Lemma ascending5 a b c d e : a < b -> b < c -> c < d -> d < e -> ascending [a; b; c; d; e].
Proof. intros. cbn. auto. Qed.
Lemma columns_blocks_ok data texts vs : compressed_tokens (str ",") data texts -> Forall2 int_text texts vs ->
  let even := if 8 <? length texts then map (fun c => nth c vs 0%Z) [0; 2; 4; 6; 8] else repeat 0%Z 5 in
  let odd := if 9 <? length texts then map (fun c => nth c vs 0%Z) [1; 3; 5; 7; 9] else even in
  columns_blocks data = Ok ((8 <? length texts, map int_var even), (9 <? length texts, map int_var odd)).
Proof.
  intros Hd Ht. unfold columns_blocks. rewrite (columns_ok data texts vs [0; 2; 4; 6; 8] (repeat 0%Z 5) Hd Ht); [|apply ascending5; lia|discriminate|reflexivity].
  change (last [0; 2; 4; 6; 8] 0) with 8. destruct (8 <? length texts); cbn [bind].
  - rewrite (columns_ok data texts vs [1; 3; 5; 7; 9] _ Hd Ht); [|apply ascending5; lia|discriminate|reflexivity].
    change (last [1; 3; 5; 7; 9] 0) with 9. destruct (9 <? length texts); reflexivity.
  - rewrite (columns_ok data texts vs [1; 3; 5; 7; 9] _ Hd Ht); [|apply ascending5; lia|discriminate|reflexivity].
    change (last [1; 3; 5; 7; 9] 0) with 9. destruct (9 <? length texts); reflexivity.
Qed.

(* ---- fields left out ---- *)
Lemma ignoring_iff {T} (conv_t : converter T) zero_t data ts' : ignoring conv_t zero_t data = Ok (true, ts') <->
  exists t0 t1 t2 t3 t4 more v w, compressed_tokens (str ",") data (t0 :: t1 :: t2 :: t3 :: t4 :: more) /\
    int_text t0 v /\ conv_t t2 zero_t = Ok (true, w) /\
    ts' = [int_var v; Target unit conv_ignore tt; Target T conv_t w; Target unit conv_ignore tt; Target (list ascii) conv_string t4].
Proof.
  unfold ignoring. rewrite parse_true_iff. split.
  - intros (texts & Hc & Hr). apply results_cons in Hr as (t0 & x1 & v & r1 & -> & E0 & Hr & ->).
    apply results_cons in Hr as (t1 & x2 & v1 & r2 & -> & E1 & Hr & ->). apply results_cons in Hr as (t2 & x3 & w & r3 & -> & E2 & Hr & ->).
    apply results_cons in Hr as (t3 & x4 & v3 & r4 & -> & E3 & Hr & ->). apply results_cons in Hr as (t4 & x5 & v4 & r5 & -> & E4 & Hr & ->).
    inversion Hr; subst. exists t0, t1, t2, t3, t4, x5, v, w. split; [exact Hc|]. split; [now apply int_conv_iff in E0|]. split; [exact E2|].
    cbn [t_conv t_val t_type int_var] in *. unfold conv_ignore in E1, E3. unfold conv_string in E4. injection E1 as <-. injection E3 as <-. injection E4 as <-. reflexivity.
  - intros (t0 & t1 & t2 & t3 & t4 & more & v & w & Hc & H0 & H2 & ->). eexists. split; [exact Hc|].
    apply (res_ok (int_var 0%Z)); [now apply int_conv_iff|]. apply (res_ok (Target unit conv_ignore tt)); [reflexivity|].
    apply (res_ok (Target T conv_t zero_t)); [exact H2|]. apply (res_ok (Target unit conv_ignore tt)); [reflexivity|].
    apply (res_ok (Target (list ascii) conv_string [])); [reflexivity|constructor].
Qed.

(* ---- maps ---- *)
Lemma string_weak : strict_weak string_less.
Proof.
  assert (I : forall x, string_less x x = false).
  { intros x. apply not_true_iff_false. intros H. apply string_less_before in H. exact (before_irrefl x H). }
  assert (T : forall x y z, string_less x y = true -> string_less y z = true -> string_less x z = true).
  { intros x y z A B. apply string_less_before. apply string_less_before in A, B. eapply before_trans; eauto. }
  split; [exact I|]. split; [exact T|].
  intros x y z A B. apply not_true_iff_false. intros C. destruct (string_less y x) eqn:E; [|pose proof (string_less_total _ _ A E); subst; congruence].
  assert (string_less y z = true) by (eapply T; eauto). congruence.
Qed.
Lemma map_assign_in m key v : forall k, In k (map fst (map_assign m key v)) <-> k = key \/ In k (map fst m).
Proof.
  induction m as [|[k w] m IH]; intros x; cbn [map_assign]; [cbn; intuition|].
  destruct (string_less key k) eqn:A; [cbn; intuition|]. destruct (string_less k key) eqn:B.
  - cbn [map fst In]. rewrite IH. tauto.
  - pose proof (string_less_total _ _ A B) as ->. cbn. intuition.
Qed.
Lemma map_assign_sorted m key v : StronglySorted before (map fst m) -> StronglySorted before (map fst (map_assign m key v)).
Proof.
  induction m as [|[k w] m IH]; cbn [map_assign]; intros S; [repeat constructor|]. cbn [map fst] in S. inversion S as [|? ? S' F]; subst.
  destruct (string_less key k) eqn:A.
  - apply string_less_before in A. cbn [map fst]. constructor; [exact S|]. constructor; [exact A|]. eapply Forall_impl; [|exact F]. intros b Hb. eapply before_trans; eauto.
  - destruct (string_less k key) eqn:B.
    + apply string_less_before in B. cbn [map fst]. constructor; [now apply IH|]. apply Forall_forall. intros x Hx. apply map_assign_in in Hx as [->|Hx]; [exact B|]. rewrite Forall_forall in F. auto.
    + exact S.
Qed.
Lemma map_all ps : forall m, StronglySorted before (map fst m) ->
  let r := fold_left (fun m kv => map_assign m (fst kv) (snd kv)) ps m in
  StronglySorted before (map fst r) /\ forall k, In k (map fst r) <-> In k (map fst m) \/ In k (map fst ps).
Proof.
  induction ps as [|[key v] ps IH]; intros m S; cbn [fold_left map fst snd]; [split; [exact S|cbn; tauto]|].
  destruct (IH _ (map_assign_sorted m key v S)) as [A B]. split; [exact A|]. intros k. rewrite B, map_assign_in. cbn [In]. intuition.
Qed.
Lemma map_assign_pairs m key v : StronglySorted before (map fst m) -> forall k w, In (k, w) (map_assign m key v) <-> (k = key /\ w = v) \/ (k <> key /\ In (k, w) m).
Proof.
  assert (One : forall k w, (key, v) = (k, w) <-> k = key /\ w = v) by (intros; split; [intros E; injection E; auto|intros [-> ->]; auto]).
  assert (Ne : forall k (w : Z) m, StronglySorted before (map fst m) -> Forall (before key) (map fst m) -> In (k, w) m -> k <> key).
  { intros k w m' _ F Hi ->. rewrite Forall_forall in F. apply (before_irrefl key), F. apply in_map_iff. exists (key, w). auto. }
  induction m as [|[k w] m IH]; cbn [map_assign]; intros S x y.
  - cbn [In]. rewrite One. tauto.
  - cbn [map fst] in S. inversion S as [|? ? S' F]; subst. destruct (string_less key k) eqn:A.
    + apply string_less_before in A. cbn [In]. rewrite One. split; [|tauto]. intros [H|H]; [auto|]. right. split; [|exact H].
      apply (Ne x y ((k, w) :: m)); [exact S| |exact H]. cbn [map fst]. constructor; [exact A|]. eapply Forall_impl; [|exact F]. intros b Hb. eapply before_trans; eauto.
    + destruct (string_less k key) eqn:B.
      * cbn [In]. rewrite (IH S'). split; [|tauto]. intros [H|H]; [|tauto]. right. split; [|auto]. injection H as <- <-. intros ->. congruence.
      * pose proof (string_less_total _ _ A B) as ->. cbn [In]. rewrite One. split; [|intros [H|[H [E|G]]]; auto; injection E as <- <-; congruence].
        intros [H|H]; [auto|]. right. split; [|auto]. eapply Ne; eassumption.
Qed.
Lemma map_last ps : forall k v, In (k, v) (fold_left (fun m kv => map_assign m (fst kv) (snd kv)) ps []) <-> exists a b, ps = a ++ (k, v) :: b /\ ~ In k (map fst b).
Proof.
  induction ps as [|[key w] ps IH] using rev_ind; intros k v.
  - cbn. split; [tauto|]. intros ([|? ?] & ? & E & _); discriminate.
  - rewrite fold_left_app. cbn [fold_left fst snd]. rewrite map_assign_pairs by (apply (map_all ps []); constructor). rewrite IH. split.
    + intros [[-> ->]|[H (a & b & -> & Hb)]]; [exists ps, []; cbn; auto|]. exists a, (b ++ [(key, w)]). rewrite <- app_assoc. split; [reflexivity|].
      rewrite map_app, in_app_iff. cbn. intuition congruence.
    + intros (a & b & E & Hb). destruct b as [|p b _] using rev_ind.
      * apply app_inj_tail in E as [_ E]. injection E as -> ->. auto.
      * rewrite app_comm_cons, app_assoc in E. apply app_inj_tail in E as [-> <-]. rewrite map_app, in_app_iff in Hb. cbn in Hb. right.
        split; [intuition congruence|]. exists a, b. intuition.
Qed.
Lemma set_append s k : Forall (fun x => before x k) s -> set_insert string_less s k = s ++ [k].
Proof.
  induction 1 as [|x s Hx F IH]; cbn [set_insert]; [reflexivity|]. pose proof Hx as Hl. apply string_less_before in Hl.
  destruct (string_less k x) eqn:E; [|now rewrite Hl, IH]. exfalso. apply string_less_before in E. exact (before_irrefl _ (before_trans _ _ _ Hx E)).
Qed.
Lemma set_of_sorted ks : forall s, StronglySorted before (s ++ ks) -> fold_left (set_insert string_less) ks s = s ++ ks.
Proof.
  induction ks as [|k ks IH]; intros s S; cbn [fold_left]; [now rewrite app_nil_r|].
  rewrite set_append, IH; [now rewrite <- app_assoc|now rewrite <- app_assoc|].
  clear -S. induction s as [|x s IHs]; [constructor|]. cbn [app] in S. inversion S as [|? ? S' F]; subst. constructor; [|now apply IHs].
  rewrite Forall_forall in F. apply F. apply in_or_app. right. now left.
Qed.
Lemma key_lists_ok ps : exists ks, StronglySorted before ks /\ (forall k, In k ks <-> In k (map fst ps)) /\
  make_key_lists ps = Ok (str "Keys(set): " ++ separated (str ", ") ks ++ [ascii_of_nat 10] ++ str "Keys(vec): " ++ separated (str ", ") ks ++ [ascii_of_nat 10] ++
    str "Keys(deq): " ++ separated (str ", ") ks ++ [ascii_of_nat 10] ++ str "Keys(lst): " ++ separated (str ", ") ks ++ [ascii_of_nat 10]).
Proof.
  destruct (map_all ps [] (SSorted_nil _)) as [S I]. set (m := fold_left _ ps []) in *. exists (map fst m). split; [exact S|].
  split; [intros k; rewrite I; cbn; tauto|]. unfold make_key_lists. fold m. unfold make_key_list_set. rewrite key_list_impl, set_of_sorted by exact S. rewrite !C79_keys_sequence.
  cbn [bind app]. rewrite !join_texts, <- !app_assoc. reflexivity.
Qed.
Lemma values_app a b k : values_of (a ++ b) k = values_of a k ++ values_of b k.
Proof. unfold values_of. now rewrite flat_map_app. Qed.
Lemma values_none m k : Forall (fun kv => fst kv <> k) m -> values_of m k = [].
Proof. unfold values_of. induction 1 as [|kv m H F IH]; cbn [flat_map]; [reflexivity|]. destruct (list_eq_dec ascii_dec k (fst kv)); [congruence|exact IH]. Qed.
Lemma multimap_in m kv x : In x (map fst (multimap_insert m kv)) <-> x = fst kv \/ In x (map fst m).
Proof.
  induction m as [|[k w] m IH]; cbn [multimap_insert]; [cbn; intuition|]. destruct (string_less (fst kv) k); [cbn; intuition|].
  cbn [map fst In]. rewrite IH. tauto.
Qed.
Lemma multimap_sorted m kv : level_or_rising string_less (map fst m) -> level_or_rising string_less (map fst (multimap_insert m kv)).
Proof.
  destruct string_weak as (I & T & W). unfold level_or_rising. induction m as [|[k w] m IH]; cbn [multimap_insert]; intros S; [repeat constructor|]. cbn [map fst] in S. inversion S as [|? ? S' F]; subst.
  destruct (string_less (fst kv) k) eqn:A.
  - cbn [map fst]. constructor; [exact S|]. assert (A' : string_less k (fst kv) = false).
    { apply not_true_iff_false. intros B. pose proof (T _ _ _ A B). rewrite I in *. discriminate. }
    constructor; [exact A'|]. eapply Forall_impl; [|exact F]. cbn. intros b Hb. eapply W; eauto.
  - cbn [map fst]. constructor; [now apply IH|]. apply Forall_forall. intros x Hx. apply multimap_in in Hx as [->|Hx]; [exact A|]. rewrite Forall_forall in F. auto.
Qed.
Lemma multimap_values m kv k : level_or_rising string_less (map fst m) ->
  values_of (multimap_insert m kv) k = values_of m k ++ (if list_eq_dec ascii_dec k (fst kv) then [snd kv] else []).
Proof.
  destruct string_weak as (I & T & W). unfold level_or_rising. induction m as [|[k0 w] m IH]; cbn [multimap_insert]; intros S.
  - unfold values_of. cbn. destruct (list_eq_dec ascii_dec k (fst kv)); reflexivity.
  - cbn [map fst] in S. inversion S as [|? ? S' F]; subst. destruct (string_less (fst kv) k0) eqn:A.
    + change (kv :: (k0, w) :: m) with ([kv] ++ (k0, w) :: m). rewrite values_app. destruct (list_eq_dec ascii_dec k (fst kv)) as [E|E].
      * subst k. rewrite (values_none ((k0, w) :: m) (fst kv)); [cbn; destruct (list_eq_dec ascii_dec (fst kv) (fst kv)); [reflexivity|congruence]|].
        constructor; [cbn; intros ->; rewrite I in A; discriminate|]. apply Forall_forall. intros y Hy E. apply (in_map fst) in Hy. rewrite Forall_forall in F. specialize (F _ Hy). rewrite E in F. congruence.
      * rewrite (values_none [kv] k); [now rewrite app_nil_r|]. constructor; [congruence|constructor].
    + change ((k0, w) :: multimap_insert m kv) with ([(k0, w)] ++ multimap_insert m kv). change ((k0, w) :: m) with ([(k0, w)] ++ m). rewrite !values_app, (IH S'), <- app_assoc. reflexivity.
Qed.
Lemma multimap_all ps : forall m, level_or_rising string_less (map fst m) ->
  let r := fold_left multimap_insert ps m in level_or_rising string_less (map fst r) /\ forall k, values_of r k = values_of m k ++ values_of ps k.
Proof.
  induction ps as [|kv ps IH]; intros m S; cbn [fold_left]; [split; [exact S|intros k; cbn; now rewrite app_nil_r]|].
  destruct (IH _ (multimap_sorted m kv S)) as [A B]. split; [exact A|]. intros k. rewrite B, (multimap_values m kv k S), <- app_assoc. reflexivity.
Qed.
Lemma values_filter m k : map snd (filter (fun kv => text_eqb k (fst kv)) m) = values_of m k.
Proof.
  unfold values_of, text_eqb. induction m as [|kv m IH]; cbn [filter flat_map]; [reflexivity|]. destruct (list_eq_dec ascii_dec k (fst kv)); cbn [map app]; now rewrite IH.
Qed.
Lemma value_list_ok choose ps key : (forall n, choose n = 0) ->
  make_value_list string_less text_eqb choose (fold_left multimap_insert ps []) key [] = Ok (values_of ps key).
Proof.
  intros Hc. destruct (multimap_all ps [] (SSorted_nil _)) as [A B]. rewrite C79_values; [|exact string_weak|exact A| |exact Hc].
  - cbn [app]. now rewrite values_filter, B.
  - intros a b. destruct string_weak as (I & _ & _). unfold text_eqb. destruct (list_eq_dec ascii_dec a b) as [->|D]; split; intros H; try discriminate; auto.
    destruct H as [H1 H2]. exfalso. apply D. now apply string_less_total.
Qed.
Lemma int_join vs : Forall in_int vs -> exists ts, Forall2 canonical ts vs /\ join text_of_int (str ", ") vs = separated (str ", ") ts.
Proof.
  intros Hv. exists (map text_of_int vs). split.
  - induction Hv as [|v vs Hi Hv IH]; cbn [map]; constructor; auto. destruct C20_signed_round_trip as (_ & R & _ & _).
    destruct (R v (in_int_range v Hi)) as (y & Ef & Cy & _). unfold text_of_int. now rewrite Ef.
  - unfold join. now rewrite join_onto_ok.
Qed.
Lemma values_int ps k : Forall (fun kv => in_int (snd kv)) ps -> Forall in_int (values_of ps k).
Proof.
  unfold values_of. induction 1 as [|kv ps H F IH]; cbn [flat_map]; [constructor|]. destruct (list_eq_dec ascii_dec k (fst kv)); [constructor; auto|exact IH].
Qed.

(* ---- characters that occur once ---- *)
Lemma once_lines_ok ss : Forall (fun s => (N.of_nat (length s) < 18446744073709551614)%N /\ Forall (fun c => nat_of_ascii c < 128) s) ss ->
  exists ls, non_repeated_lines ss = Ok (concat ls) /\ Forall2 once_line ss ls.
Proof.
  induction 1 as [|s ss [H1 H2] F IH]; [exists []; split; [reflexivity|constructor]|]. destruct IH as (ls & E & G). cbn [non_repeated_lines].
  destruct (C68_first_non_repeated s H1 H2) as (o & Eo & Ho). rewrite Eo. cbn [bind]. destruct o as [i|].
  - destruct Ho as [(c & Ec & Hc) Hm]. rewrite (rd_nth _ _ _ Ec). cbn [bind]. rewrite E. cbn [bind]. eexists (_ :: ls). split; [reflexivity|]. constructor; [|exact G].
    left. exists i, c. split; [exact Ec|]. split; [now exists c|]. split; [exact Hm|reflexivity].
  - cbn [bind]. rewrite E. cbn [bind]. eexists (_ :: ls). split; [reflexivity|]. constructor; [|exact G]. now right.
Qed.
