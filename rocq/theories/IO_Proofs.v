From Verif Require Import Base Num_Model Parse_Model Parse_Spec Match_Proofs Parse_Proofs2 IO_Spec IO_Model.
From Verif Require Export IO_Spec2.
Local Open Scope nat_scope.

(* ------------------------------------------------------------------ *)
(* lines *)
Lemma take_line_len c s : length (snd (take_line (c :: s))) <= length s.
Proof.
  revert c. induction s as [|d s IH]; intros c; cbn [take_line].
  - destruct (Ascii.eqb c newline); cbn; lia.
  - destruct (Ascii.eqb c newline); [cbn; lia|]. specialize (IH d). cbn [take_line] in IH.
    destruct (Ascii.eqb d newline); cbn [snd length] in *; [lia|].
    destruct (take_line s) as [l r]. cbn [snd length] in *. lia.
Qed.

Lemma first_line_app l s : ~ In newline l -> take_line (l ++ newline :: s) = (l, s).
Proof.
  induction l as [|c l IH]; intros H; cbn [app take_line].
  - rewrite Ascii.eqb_refl. reflexivity.
  - destruct (Ascii.eqb_spec c newline) as [->|]; [exfalso; apply H; now left|].
    rewrite IH; [reflexivity|]. intros Hin. apply H. now right.
Qed.
Lemma first_line_all l : ~ In newline l -> take_line l = (l, []).
Proof.
  induction l as [|c l IH]; intros H; cbn [take_line]; auto.
  destruct (Ascii.eqb_spec c newline) as [->|]; [exfalso; apply H; now left|].
  rewrite IH; [reflexivity|]. intros Hin. apply H. now right.
Qed.

Lemma getline_more l s : ~ In newline l -> getline (Stream (l ++ newline :: s) true) = (Some l, Stream s true).
Proof.
  intros H. unfold getline. cbn [good negb rest]. destruct (l ++ newline :: s) eqn:E; [destruct l; discriminate|].
  rewrite <- E, first_line_app by auto. reflexivity.
Qed.
Lemma getline_rest l : l <> [] -> ~ In newline l -> getline (Stream l true) = (Some l, Stream [] true).
Proof.
  intros Hn H. unfold getline. cbn [good negb rest]. destruct l as [|c l]; [congruence|]. rewrite first_line_all by auto. reflexivity.
Qed.

Lemma lines_exist s : exists ls, lines_of s ls.
Proof.
  remember (length s) as n eqn:E. revert s E. induction n as [n IH] using lt_wf_ind. intros s E. subst n.
  destruct s as [|c s]; [exists []; constructor|].
  pose proof (take_line_ok (c :: s)) as [H1 H2]. pose proof (take_line_len c s) as Hl.
  destruct (take_line (c :: s)) as [l r]. cbn [fst snd] in *.
  assert (Hn : ~ In newline l) by (intros Hin; rewrite Forall_forall in H1; apply (H1 _ Hin); reflexivity).
  destruct H2 as [H2|[H2 ->]].
  - destruct (IH (length r) ltac:(cbn; lia) r eq_refl) as (ls & Hls). exists (l :: ls). rewrite H2. now apply lines_more.
  - exists [l]. rewrite H2. apply lines_rest; [rewrite <- H2; discriminate|exact Hn].
Qed.
Lemma app_nl_inj l1 s1 l2 s2 : ~ In newline l1 -> ~ In newline l2 -> l1 ++ newline :: s1 = l2 ++ newline :: s2 -> l1 = l2 /\ s1 = s2.
Proof.
  intros H1 H2 E. pose proof (first_line_app l1 s1 H1) as T1. rewrite E, (first_line_app l2 s2 H2) in T1. injection T1. auto.
Qed.
Lemma lines_unique s l1 : lines_of s l1 -> forall l2, lines_of s l2 -> l1 = l2.
Proof.
  induction 1 as [|l Hn Hl|l s ls Hl _ IH]; intros l2 H2.
  - inversion H2 as [|? Hx|? ? ? ? ? E]; subst; auto; [congruence|destruct l; discriminate].
  - inversion H2 as [|? Hx|? ? ? Hy ? E]; subst; auto; [congruence|]. exfalso. apply Hl. apply in_or_app. right. now left.
  - inversion H2 as [E|? Hx Hy|? ? ? Hy ? E]; subst; auto.
    + destruct l; discriminate.
    + exfalso. apply Hy. apply in_or_app. right. now left.
    + destruct (app_nl_inj _ _ _ _ Hl Hy (eq_sym E)) as [-> ->]. f_equal. auto.
Qed.

Section Lines.
Context {St : Type}.

Lemma for_each_line_ok (f : St -> list ascii -> St) s ls : lines_of s ls -> forall x,
  for_each_line f (Stream s true) x = Ok (length ls, fold_left f ls x, Stream [] false).
Proof.
  intros H x. unfold for_each_line. cbn [rest].
  match goal with |- context [loop _ ?f _] => set (body := f) end.
  assert (G : forall s ls, lines_of s ls -> forall fuel n x, length s < fuel ->
    loop fuel body (Stream s true, n, x) = Ok (n + length ls, fold_left f ls x, Stream [] false)).
  { clear s ls H x. induction 1 as [|l Hn Hl|l s ls Hl _ IH]; intros fuel n x Hf; (destruct fuel as [|fuel]; [lia|]); cbn [loop]; unfold body at 1.
    - cbn. now rewrite Nat.add_0_r.
    - rewrite getline_rest by auto. cbn [bind]. destruct fuel as [|fuel]; [destruct l; [congruence|cbn in Hf; lia]|].
      cbn [loop]. unfold body at 1. cbn. now rewrite Nat.add_1_r.
    - rewrite getline_more by auto. cbn [bind]. rewrite IH by (rewrite app_length in Hf; cbn in Hf; lia).
      cbn [length fold_left]. do 3 f_equal. lia. }
  rewrite G with (ls := ls) by (auto; lia). reflexivity.
Qed.


Lemma for_each_line_n_ok n (f : St -> list ascii -> St) s ls : lines_of s ls -> forall x,
  exists st, for_each_line_n n f (Stream s true) x = Ok (length (limit n ls), fold_left f (limit n ls) x, st) /\
    (n <> 0 -> n <= length ls -> good st = true /\ after_lines n s (rest st)) /\
    (n = 0 \/ length ls < n -> st = Stream [] false).
Proof.
  intros H x. unfold for_each_line_n. cbn [rest].
  match goal with |- context [loop _ ?f _] => set (body := f) end.
  assert (G : forall s ls, lines_of s ls -> forall fuel k x, length s < fuel -> (n = 0 \/ k < n) ->
    exists st, loop fuel body (Stream s true, k, x) =
      Ok (k + length (if n =? 0 then ls else firstn (n - k) ls), fold_left f (if n =? 0 then ls else firstn (n - k) ls) x, st) /\
      (n <> 0 -> n - k <= length ls -> good st = true /\ after_lines (n - k) s (rest st)) /\
      (n = 0 \/ length ls < n - k -> st = Stream [] false)).
  { clear s ls H x. induction 1 as [|l Hn Hl|l s ls Hl _ IH]; intros fuel k x Hf Hk; (destruct fuel as [|fuel]; [lia|]); cbn [loop]; unfold body at 1.
    - exists (Stream [] false). cbn [getline good negb rest bind]. split; [|split; [cbn; lia|auto]].
      replace (if n =? 0 then [] else firstn (n - k) []) with (@nil (list ascii)) by (destruct (n =? 0), (n - k); reflexivity).
      cbn. now rewrite Nat.add_0_r.
    - rewrite getline_rest by auto. cbn [bind]. destruct (Nat.eqb_spec n (S k)) as [E|E].
      + exists (Stream [] true). subst n. cbn [Nat.eqb]. replace (S k - k) with 1 by lia. cbn [bind firstn length fold_left].
        split; [now rewrite Nat.add_1_r|]. split; [|cbn; lia]. intros _ _. split; [reflexivity|]. now apply after_rest.
      + destruct fuel as [|fuel]; [destruct l; [congruence|cbn in Hf; lia]|]. cbn [bind loop]. unfold body at 1.
        cbn [getline good negb rest bind]. exists (Stream [] false). split.
        * destruct (Nat.eqb_spec n 0); cbn [length fold_left]; [now rewrite Nat.add_1_r|].
          rewrite firstn_all2 by (cbn; lia). cbn [length fold_left]. now rewrite Nat.add_1_r.
        * split; [cbn; lia|auto].
    - rewrite getline_more by auto. cbn [bind]. destruct (Nat.eqb_spec n (S k)) as [E|E].
      + exists (Stream s true). subst n. cbn [Nat.eqb]. replace (S k - k) with 1 by lia. cbn [bind firstn length fold_left].
        split; [now rewrite Nat.add_1_r|]. split; [|cbn; lia]. intros _ _. split; [reflexivity|]. apply after_more; [auto|constructor].
      + cbn [bind]. destruct (IH fuel (S k) (f x l)) as (st & E1 & E2 & E3); [rewrite app_length in Hf; cbn in Hf; lia|lia|].
        exists st. rewrite E1. split; [|split].
        * destruct (Nat.eqb_spec n 0); cbn [length fold_left]; [do 3 f_equal; lia|].
          replace (n - k) with (S (n - S k)) by lia. cbn [firstn length fold_left]. do 3 f_equal. lia.
        * intros Hn Hle. cbn [length] in Hle. destruct (E2 Hn ltac:(lia)) as [E4 E5]. split; [auto|].
          replace (n - k) with (S (n - S k)) by lia. now apply after_more.
        * intros [->|Hlt]; apply E3; [auto|]. cbn [length] in Hlt. lia. }
  destruct (G s ls H (S (length s)) 0 x) as (st & E1 & E2 & E3); [lia|lia|].
  exists st. rewrite Nat.sub_0_r in *. unfold limit. auto.
Qed.

Lemma accepted_fun (f : St -> list ascii -> St * bool) x ls x' n b : accepted f x ls x' n b ->
  forall x2 n2 b2, accepted f x ls x2 n2 b2 -> x' = x2 /\ n = n2 /\ b = b2.
Proof.
  induction 1 as [st|st l ls st' E|st l ls st1 st' n b E _ IH]; intros x2 n2 b2 H2.
  - inversion H2; auto.
  - inversion H2 as [|? ? ? ? E2|? ? ? ? ? ? ? E2]; subst; rewrite E in E2; injection E2; intros; subst; auto; congruence.
  - inversion H2 as [|? ? ? ? E2|? ? ? ? ? ? ? E2 H3]; subst; rewrite E in E2; [congruence|]. injection E2 as <-.
    destruct (IH _ _ _ H3) as (-> & -> & ->). auto.
Qed.

Lemma for_each_line_conditional_ok (f : St -> list ascii -> St * bool) s ls : lines_of s ls -> forall x x' n b,
  accepted f x ls x' n b ->
  exists st, for_each_line_conditional f (Stream s true) x = Ok (n, x', st) /\ (b = true -> st = Stream [] false).
Proof.
  intros H x x' n b Ha. unfold for_each_line_conditional. cbn [rest].
  match goal with |- context [loop _ ?f _] => set (body := f) end.
  assert (G : forall s ls, lines_of s ls -> forall fuel k x n, length s < fuel -> accepted f x ls x' n b ->
    exists st, loop fuel body (Stream s true, k, x) = Ok (k + n, x', st) /\ (b = true -> st = Stream [] false)).
  { clear s ls H x n Ha. induction 1 as [|l Hn Hl|l s ls Hl _ IH]; intros fuel k x n Hf Ha; (destruct fuel as [|fuel]; [lia|]); cbn [loop]; unfold body at 1.
    - inversion Ha; subst. exists (Stream [] false). cbn. now rewrite Nat.add_0_r.
    - rewrite getline_rest by auto. cbn [bind]. inversion Ha as [|? ? ? ? E|? ? ? st1 ? ? ? E Hr]; subst; rewrite E; cbn [negb bind].
      + exists (Stream [] true). rewrite Nat.add_0_r. split; [reflexivity|discriminate].
      + inversion Hr; subst. destruct fuel as [|fuel]; [destruct l; [congruence|cbn in Hf; lia]|]. cbn [loop]. unfold body at 1.
        exists (Stream [] false). cbn. now rewrite Nat.add_1_r.
    - rewrite getline_more by auto. cbn [bind]. inversion Ha as [|? ? ? ? E|? ? ? st1 ? ? ? E Hr]; subst; rewrite E; cbn [negb bind].
      + exists (Stream s true). rewrite Nat.add_0_r. split; [reflexivity|discriminate].
      + destruct (IH fuel (S k) _ _ ltac:(rewrite app_length in Hf; cbn in Hf; lia) Hr) as (st & E1 & E2).
        exists st. rewrite E1. split; [do 3 f_equal; lia|exact E2]. }
  exact (G s ls H (S (length s)) 0 x n ltac:(lia) Ha).
Qed.

Lemma for_each_line_n_conditional_ok m (f : St -> list ascii -> St * bool) s ls : lines_of s ls -> forall x x' n b,
  accepted f x (limit m ls) x' n b ->
  exists st, for_each_line_n_conditional m f (Stream s true) x = Ok (n, x', st).
Proof.
  intros H x x' n b Ha. unfold for_each_line_n_conditional. cbn [rest].
  match goal with |- context [loop _ ?f _] => set (body := f) end.
  assert (G : forall s ls, lines_of s ls -> forall fuel k x n, length s < fuel -> (m = 0 \/ k < m) ->
    accepted f x (if m =? 0 then ls else firstn (m - k) ls) x' n b ->
    exists st, loop fuel body (Stream s true, k, x) = Ok (k + n, x', st)).
  { clear s ls H x n Ha. induction 1 as [|l Hn Hl|l s ls Hl _ IH]; intros fuel k x n Hf Hk Ha; (destruct fuel as [|fuel]; [lia|]); cbn [loop]; unfold body at 1.
    - replace (if m =? 0 then [] else firstn (m - k) []) with (@nil (list ascii)) in Ha by (destruct (m =? 0), (m - k); reflexivity).
      inversion Ha; subst. exists (Stream [] false). cbn. now rewrite Nat.add_0_r.
    - replace (if m =? 0 then [l] else firstn (m - k) [l]) with [l] in Ha
        by (destruct (Nat.eqb_spec m 0); [auto|]; rewrite firstn_all2 by (cbn; lia); auto).
      rewrite getline_rest by auto. cbn [bind]. inversion Ha as [|? ? ? ? E|? ? ? st1 ? ? ? E Hr]; subst; rewrite E; cbn [negb bind].
      + exists (Stream [] true). now rewrite Nat.add_0_r.
      + inversion Hr; subst. destruct (Nat.eqb_spec m (S k)).
        * exists (Stream [] true). cbn [bind]. now rewrite Nat.add_1_r.
        * destruct fuel as [|fuel]; [destruct l; [congruence|cbn in Hf; lia]|]. cbn [loop]. unfold body at 1.
          exists (Stream [] false). cbn. now rewrite Nat.add_1_r.
    - rewrite getline_more by auto. cbn [bind].
      assert (El : (if m =? 0 then l :: ls else firstn (m - k) (l :: ls)) = l :: (if m =? 0 then ls else firstn (m - S k) ls)).
      { destruct (Nat.eqb_spec m 0); auto. replace (m - k) with (S (m - S k)) by lia. reflexivity. }
      rewrite El in Ha. clear El.
      inversion Ha as [|? ? ? ? E|? ? ? st1 ? ? ? E Hr]; subst; rewrite E; cbn [negb bind].
      + exists (Stream s true). now rewrite Nat.add_0_r.
      + destruct (Nat.eqb_spec m (S k)) as [->|Hne].
        * rewrite Nat.sub_diag in Hr. cbn in Hr. inversion Hr; subst. exists (Stream s true). cbn [bind]. now rewrite Nat.add_1_r.
        * cbn [bind]. destruct (IH fuel (S k) _ _ ltac:(rewrite app_length in Hf; cbn in Hf; lia) ltac:(lia) Hr) as (st & E1).
          exists st. rewrite E1. do 3 f_equal. lia. }
  apply (G s ls H (S (length s)) 0 x n ltac:(lia) ltac:(lia)). rewrite Nat.sub_0_r. exact Ha.
Qed.
End Lines.

(* ------------------------------------------------------------------ *)
(* text files *)
Lemma load_ok {T} (conv : list ascii -> option T) s ls vs b sq : lines_of s ls -> values_of conv ls vs b ->
  exists n st, load_from_text_file conv (Stream s true) sq = Ok (b, n, sq ++ vs, st) /\
    (b = true -> n = length ls /\ st = Stream [] false).
Proof.
  intros H Hv. unfold load_from_text_file. cbn [good negb rest].
  match goal with |- context [loop _ ?f _] => set (body := f) end.
  assert (G : forall s ls, lines_of s ls -> forall vs fuel k sq, length s < fuel -> values_of conv ls vs b ->
    exists n st, loop fuel body (Stream s true, k, sq) = Ok (b, n, sq ++ vs, st) /\ (b = true -> n = k + length ls /\ st = Stream [] false)).
  { clear s ls H vs sq Hv. induction 1 as [|l Hn Hl|l s ls Hl _ IH]; intros vs fuel k sq Hf Hv; (destruct fuel as [|fuel]; [lia|]); cbn [loop]; unfold body at 1.
    - inversion Hv; subst. exists k, (Stream [] false). cbn. rewrite app_nil_r, Nat.add_0_r. auto.
    - rewrite getline_rest by auto. cbn [bind]. inversion Hv as [|? ? E|? v ? vs' ? E Hr]; subst; rewrite E; cbn [bind].
      + exists (S k), (Stream [] true). rewrite app_nil_r. split; [reflexivity|discriminate].
      + inversion Hr; subst. destruct fuel as [|fuel]; [destruct l; [congruence|cbn in Hf; lia]|]. cbn [loop]. unfold body at 1.
        exists (S k), (Stream [] false). cbn. rewrite Nat.add_1_r. auto.
    - rewrite getline_more by auto. cbn [bind]. inversion Hv as [|? ? E|? v ? vs' ? E Hr]; subst; rewrite E; cbn [bind].
      + exists (S k), (Stream s true). rewrite app_nil_r. split; [reflexivity|discriminate].
      + destruct (IH vs' fuel (S k) (sq ++ [v]) ltac:(rewrite app_length in Hf; cbn in Hf; lia) Hr) as (n & st & E1 & E2).
        exists n, st. rewrite E1, <- app_assoc. split; [reflexivity|]. intros Hb. destruct (E2 Hb) as [-> ->]. cbn [length]. split; [lia|auto]. }
  destruct (G s ls H vs (S (length s)) 0 sq ltac:(lia) Hv) as (n & st & E1 & E2). exists n, st. auto.
Qed.

Lemma write_items_ok {T} (show : T -> list ascii) d xs : forall o n,
  write_items show d xs o n = (o ++ concat (map (fun x => show x ++ d) xs), n + length xs).
Proof.
  induction xs as [|x xs IH]; intros o n; cbn [write_items map concat length]; [now rewrite app_nil_r, Nat.add_0_r|].
  rewrite IH. f_equal; [|lia]. destruct d as [|c d]; cbn [length Nat.eqb]; rewrite <- ?app_assoc; rewrite ?app_nil_r; auto.
Qed.

Lemma written_lines ls : Forall (fun l => ~ In newline l) ls -> lines_of (concat (map (fun l => l ++ [newline]) ls)) ls.
Proof.
  induction 1 as [|l ls Hl _ IH]; cbn [map concat]; [constructor|]. rewrite <- app_assoc. now apply lines_more.
Qed.
Lemma values_all {T} (show : T -> list ascii) conv xs : (forall x, In x xs -> conv (show x) = Some x) ->
  values_of conv (map show xs) xs true.
Proof.
  induction xs as [|x xs IH]; intros H; cbn [map]; [constructor|]. eapply vals_next; [apply H; now left|]. apply IH. intros y Hy. apply H. now right.
Qed.

(* ------------------------------------------------------------------ *)
(* copying *)
Lemma copy_n_ok {T} (s : list T) itr n out : itr + n <= length s -> copy_n s itr n out = Ok (out ++ sub s (itr, itr + n)).
Proof.
  intros Hl. unfold copy_n.
  assert (H : holds (for_up 0 n (fun i out => x <- rd s (itr + i) ;; Ok (out ++ [x])) out) (fun r => r = out ++ sub s (itr, itr + n))).
  { pose proof (for_up_rule (S := list T) (fun i o => o = out ++ sub s (itr, itr + i)) (fun i out => x <- rd s (itr + i) ;; Ok (out ++ [x])) n 0) as R.
    eapply holds_weaken; [apply R|].
    - intros k o Hk ->. destruct (nth_error s (itr + k)) as [c|] eqn:Ec; [|apply nth_error_None in Ec; lia].
      rewrite (rd_nth _ _ _ Ec). cbn [bind holds]. rewrite <- app_assoc. f_equal. unfold sub. cbn [fst snd].
      replace (itr + S k - itr) with (S k) by lia. replace (itr + k - itr) with k by lia.
      symmetry. apply firstn_S_nth. rewrite nth_error_skipn. exact Ec.
    - unfold sub. cbn [fst snd]. replace (itr + 0 - itr) with 0 by lia. now rewrite firstn_O, app_nil_r.
    - cbn. auto. }
  apply holds_eq in H. exact H.
Qed.
Lemma copy_if_ok {T} (p : T -> bool) s out : copy_if p s out = Ok (out ++ filter p s).
Proof.
  unfold copy_if.
  assert (H : holds (for_up 0 (length s) (fun i out => x <- rd s i ;; Ok (if p x then out ++ [x] else out)) out) (fun r => r = out ++ filter p s)).
  { pose proof (for_up_rule (S := list T) (fun i o => o = out ++ filter p (firstn i s)) (fun i out => x <- rd s i ;; Ok (if p x then out ++ [x] else out)) (length s) 0) as R.
    eapply holds_weaken; [apply R|].
    - intros k o Hk ->. destruct (nth_error s k) as [c|] eqn:Ec; [|apply nth_error_None in Ec; lia].
      rewrite (rd_nth _ _ _ Ec). cbn [bind holds]. rewrite (firstn_S_nth _ _ _ Ec), filter_app. cbn [filter].
      destruct (p c); [now rewrite app_assoc|now rewrite app_nil_r].
    - cbn. now rewrite app_nil_r.
    - cbn. intros o ->. now rewrite firstn_all. }
  apply holds_eq in H. exact H.
Qed.

Lemma copy_while_ok {T} (p : T -> bool) s out : exists n, prefix_len p s n /\ copy_while p s out = Ok (n, out ++ firstn n s).
Proof.
  unfold copy_while. match goal with |- context [loop _ ?f _] => set (body := f) end.
  assert (H : holds (loop (S (length s)) body (0, out)) (fun r => exists n, prefix_len p s n /\ r = (n, out ++ firstn n s))).
  { apply loop_rule with (I := fun '(i, o) => i <= length s /\ Forall (fun x => p x = true) (firstn i s) /\ o = out ++ firstn i s)
                         (mu := fun '(i, _) => length s - i).
    - intros [i o] (Hi & Hf & ->). unfold body. destruct (Nat.eqb_spec i (length s)) as [->|Hne].
      + cbn [holds]. exists (length s). split; [|reflexivity]. split; [lia|]. split; [auto|].
        intros x Hx. apply nth_error_some_lt in Hx. lia.
      + destruct (nth_error s i) as [c|] eqn:Ec; [|apply nth_error_None in Ec; lia]. rewrite (rd_nth _ _ _ Ec). cbn [bind].
        destruct (p c) eqn:Ep; cbn [negb holds].
        * split; [|lia]. split; [lia|]. rewrite (firstn_S_nth _ _ _ Ec). split; [|now rewrite app_assoc].
          apply Forall_app. split; auto.
        * exists i. split; [|reflexivity]. split; [lia|]. split; [auto|]. congruence.
    - split; [lia|]. split; [constructor|]. now rewrite app_nil_r.
    - lia. }
  apply holds_ex in H. destruct H as (r & E & n & Hn & ->). eauto.
Qed.
Lemma copy_until_ok {T} (p : T -> bool) s out :
  exists n, prefix_len (fun x => negb (p x)) s n /\ copy_until p s out = Ok (n, out ++ firstn n s).
Proof.
  destruct (copy_while_ok (fun x => negb (p x)) s out) as (n & Hn & E). exists n. split; [auto|]. rewrite <- E.
  unfold copy_until, copy_while. apply Match_Proofs.loop_ext. intros [i o]. destruct (i =? length s); auto.
  destruct (rd s i); cbn [bind]; auto. now rewrite negb_involutive.
Qed.
Lemma range_only_contains_ok {T} (p : T -> bool) s : range_only_contains p s = Ok (forallb p s).
Proof.
  unfold range_only_contains. match goal with |- context [loop _ ?f _] => set (body := f) end.
  assert (H : holds (loop (S (length s)) body 0) (fun r => r = forallb p s)).
  { apply loop_rule with (I := fun i => i <= length s /\ forallb p s = forallb p (skipn i s)) (mu := fun i => length s - i).
    - intros i (Hi & Hf). unfold body. destruct (Nat.eqb_spec i (length s)) as [->|Hne].
      + cbn [holds]. rewrite skipn_all in Hf. cbn in Hf. now rewrite Hf.
      + destruct (nth_error s i) as [c|] eqn:Ec; [|apply nth_error_None in Ec; lia]. rewrite (rd_nth _ _ _ Ec). cbn [bind].
        rewrite (skipn_nth_cons _ _ _ Ec) in Hf. cbn [forallb] in Hf. destruct (p c) eqn:Ep; cbn [negb holds andb] in *.
        * split; [|lia]. split; [lia|auto].
        * auto.
    - split; [lia|reflexivity].
    - lia. }
  apply holds_eq in H. exact H.
Qed.

(* ------------------------------------------------------------------ *)
(* files *)
Lemma init_bytes_ok got rest : init_bytes (map Some got ++ rest) (length got) = Ok got.
Proof. induction got as [|c got IH]; cbn [length init_bytes map app]; [reflexivity|]. now rewrite IH. Qed.

Lemma ifs_read_ok fs name pos buffer n D : contents fs name = D -> pos + n <= length D -> n <= length buffer ->
  ifs_read fs (IFS name pos true) buffer n =
  Ok (map Some (sub D (pos, pos + n)) ++ skipn n buffer, IFS name (pos + n) true).
Proof.
  intros HD Hp Hb. unfold ifs_read. destruct (Nat.ltb_spec (length buffer) n); [lia|]. cbn [i_ok negb i_name i_pos]. rewrite HD.
  replace (firstn n (skipn pos D)) with (sub D (pos, pos + n)) by (unfold sub; cbn [fst snd]; f_equal; lia).
  assert (L : length (sub D (pos, pos + n)) = n) by (unfold sub; cbn [fst snd]; rewrite firstn_length, skipn_length; lia).
  rewrite L, Nat.eqb_refl. reflexivity.
Qed.
Lemma sub_len {A} (s : list A) b e : b <= e -> e <= length s -> length (sub s (b, e)) = e - b.
Proof. intros. unfold sub. cbn [fst snd]. rewrite firstn_length, skipn_length. lia. Qed.
Lemma firstn_sub {A} (D : list A) a n : a + n <= length D -> firstn (a + n) D = firstn a D ++ sub D (a, a + n).
Proof.
  intros H. unfold sub. cbn [fst snd]. replace (a + n - a) with n by lia.
  rewrite <- (firstn_skipn a (firstn (a + n) D)). rewrite firstn_firstn, Nat.min_l by lia. f_equal.
  rewrite skipn_firstn_comm. f_equal. lia.
Qed.
Lemma append_data fs n b m : f_data (append fs n b) m = if m =? n then Some (contents fs n ++ b) else f_data fs m.
Proof. reflexivity. Qed.

Lemma copy_blocks_ok bs fs src dst buffer D E : 0 < bs -> src <> dst -> length buffer = bs ->
  can_open fs src = true -> contents fs src = D -> f_data fs dst = Some E ->
  exists fs' buffer' st', copy_blocks bs fs src dst buffer (IFS src 0 true) = Ok (fs', buffer', st') /\
    length buffer' = bs /\ file_is fs fs' dst (E ++ D).
Proof.
  intros Hbs Hne Hb Hopen HD HE. unfold copy_blocks.
  assert (Hsz : file_size fs src = length D) by (unfold file_size; rewrite Hopen, HD; reflexivity). rewrite Hsz.
  match goal with |- context [loop _ ?f _] => set (body := f) end.
  pose (I := fun (x : fsys * list (option ascii) * ifs * nat) => let '(f, b, st, rem) := x in
    length b = bs /\ exists pos, st = IFS src pos true /\ pos + rem = length D /\ file_is fs f dst (E ++ firstn pos D)).
  assert (HDf : forall f pos, file_is fs f dst (E ++ firstn pos D) -> contents f src = D /\ contents f dst = E ++ firstn pos D).
  { intros f pos (H1 & _ & _). unfold contents. rewrite (H1 src), (H1 dst), Nat.eqb_refl.
    rewrite (proj2 (Nat.eqb_neq src dst) Hne). auto. }
  assert (H : holds (loop (S (length D)) body (fs, buffer, IFS src 0 true, length D))
                (fun x => I x /\ snd x < bs)).
  { apply loop_rule with (I := I) (mu := fun '(_, _, _, rem) => rem).
    - intros [[[f b] st] rem] (Hl & pos & -> & Hp & Hf). unfold body. destruct (Nat.leb_spec bs rem).
      + destruct (HDf _ _ Hf) as [C1 C2]. rewrite (ifs_read_ok _ _ _ _ _ D) by (auto; lia). cbn [bind].
        pose proof (init_bytes_ok (sub D (pos, pos + bs)) (skipn bs b)) as Hi. rewrite sub_len in Hi by lia.
        replace (pos + bs - pos) with bs in Hi by lia. rewrite Hi. cbn [bind holds].
        split; [|lia]. split.
        * rewrite app_length, map_length, sub_len, skipn_length by lia. lia.
        * exists (pos + bs). split; [reflexivity|]. split; [lia|]. destruct Hf as (F1 & F2 & F3). split; [|split; [exact F2|exact F3]].
          intros m. rewrite append_data, C2, <- app_assoc, <- firstn_sub by lia. destruct (m =? dst) eqn:Em; auto. rewrite F1, Em. auto.
      + cbn [holds snd]. split; [|lia]. split; [auto|]. exists pos. auto.
    - split; [auto|]. exists 0. split; [reflexivity|]. split; [lia|]. split; [|auto]. intros m. cbn [firstn]. rewrite app_nil_r.
      destruct (Nat.eqb_spec m dst) as [->|]; auto.
    - lia. }
  apply holds_ex in H. destruct H as ([[[f b] st] rem] & El & (Hl & pos & -> & Hp & Hf) & Hr). cbn [snd] in Hr. rewrite El. cbn [bind].
  destruct (HDf _ _ Hf) as [C1 C2]. destruct (Nat.ltb_spec 0 rem) as [H0|H0].
  - rewrite (ifs_read_ok _ _ _ _ _ D) by (auto; lia). cbn [bind].
    pose proof (init_bytes_ok (sub D (pos, pos + rem)) (skipn rem b)) as Hi. rewrite sub_len in Hi by lia.
    replace (pos + rem - pos) with rem in Hi by lia. rewrite Hi. cbn [bind]. eexists _, _, _. split; [reflexivity|]. split.
    + rewrite app_length, map_length, sub_len, skipn_length by lia. lia.
    + destruct Hf as (F1 & F2 & F3). split; [|split; [exact F2|exact F3]].
      intros m. rewrite append_data, C2, <- app_assoc, <- firstn_sub by lia. rewrite firstn_all2 by lia.
      destruct (m =? dst) eqn:Em; auto. rewrite F1, Em. auto.
  - eexists _, _, _. split; [reflexivity|]. split; [auto|]. rewrite firstn_all2 in Hf by lia. exact Hf.
Qed.

Lemma open_out_ok fs n : f_write fs n = true -> open_out fs n = (true, set_file fs n (Some [])).
Proof. unfold open_out. now intros ->. Qed.
Lemma open_out_no fs n : f_write fs n = false -> open_out fs n = (false, fs).
Proof. unfold open_out. now intros ->. Qed.
Lemma set_file_other fs n d m : m <> n -> can_open (set_file fs n d) m = can_open fs m /\ contents (set_file fs n d) m = contents fs m.
Proof. intros H. unfold can_open, contents, set_file. cbn. rewrite (proj2 (Nat.eqb_neq m n) H). auto. Qed.
Lemma set_file_self fs n d : f_data (set_file fs n (Some d)) n = Some d.
Proof. cbn. now rewrite Nat.eqb_refl. Qed.
Lemma file_is_trans fs n d0 fs' d : file_is (set_file fs n d0) fs' n d -> file_is fs fs' n d.
Proof.
  intros (H1 & H2 & H3). split; [|auto]. intros m. rewrite H1. cbn. destruct (m =? n); auto.
Qed.

Lemma copy_file_ok bs fs src dst D : 0 < bs -> src <> dst -> can_open fs src = true -> contents fs src = D -> f_write fs dst = true ->
  exists fs', copy_file_n bs fs src dst = Ok (true, fs') /\ file_is fs fs' dst D.
Proof.
  intros Hb Hne Ho HD Hw. unfold copy_file_n. rewrite Ho, (open_out_ok _ _ Hw). cbn [negb].
  destruct (set_file_other fs dst (Some []) src Hne) as [O1 O2].
  destruct (copy_blocks_ok bs (set_file fs dst (Some [])) src dst (repeat None bs) D []) as (fs' & b' & st' & E & _ & Hf); auto; try congruence.
  - apply repeat_length.
  - apply set_file_self.
  - rewrite E. cbn [bind]. exists fs'. split; [reflexivity|]. eapply file_is_trans; eauto.
Qed.

Lemma concatenate_ok bs fs f1 f2 out D1 D2 : 0 < bs -> f1 <> out -> f2 <> out -> can_open fs f1 = true -> can_open fs f2 = true ->
  contents fs f1 = D1 -> contents fs f2 = D2 -> f_write fs out = true ->
  exists fs', concatenate_n bs fs f1 f2 out = Ok (true, fs') /\ file_is fs fs' out (D1 ++ D2).
Proof.
  intros Hb Hn1 Hn2 Ho1 Ho2 HD1 HD2 Hw. unfold concatenate_n. rewrite Ho1, Ho2, (open_out_ok _ _ Hw). cbn [negb orb].
  destruct (set_file_other fs out (Some []) f1 Hn1) as [O1 O2]. destruct (set_file_other fs out (Some []) f2 Hn2) as [O3 O4].
  destruct (copy_blocks_ok bs (set_file fs out (Some [])) f1 out (repeat None bs) D1 []) as (fs1 & b1 & st1 & E1 & L1 & F1); auto; try congruence.
  { apply repeat_length. }
  { apply set_file_self. }
  rewrite E1. cbn [bind app]. destruct F1 as (F1 & F2 & F3).
  destruct (copy_blocks_ok bs fs1 f2 out b1 D2 D1) as (fs2 & b2 & st2 & E2 & L2 & (G1 & G2 & G3)); auto.
  - unfold can_open in *. rewrite F2, F1. cbn. rewrite (proj2 (Nat.eqb_neq f2 out) Hn2). exact Ho2.
  - unfold contents in *. rewrite F1. cbn. rewrite (proj2 (Nat.eqb_neq f2 out) Hn2). exact HD2.
  - rewrite F1. now rewrite Nat.eqb_refl.
  - rewrite E2. cbn [bind]. exists fs2. split; [reflexivity|]. split; [|split; [now rewrite G2, F2|now rewrite G3, F3]].
    intros m. rewrite G1, F1. cbn. destruct (m =? out); auto.
Qed.

Lemma differ_iff a b : differ a b = false <-> a = b.
Proof. unfold differ. destruct (list_eq_dec ascii_dec a b); split; congruence. Qed.

Lemma app_eq_len {A} (a b c d : list A) : length a = length c -> a ++ b = c ++ d -> a = c /\ b = d.
Proof.
  revert c. induction a as [|x a IH]; intros [|y c] L E; cbn in *; try discriminate; auto.
  injection E as -> E. destruct (IH c ltac:(lia) E) as [-> ->]. auto.
Qed.

Lemma files_identical_ok bs fs f1 f2 : 0 < bs -> exists b, files_identical_n bs fs f1 f2 = Ok b /\
  (b = true <-> can_open fs f1 = true /\ can_open fs f2 = true /\ contents fs f1 = contents fs f2).
Proof.
  intros Hbs. unfold files_identical_n. destruct (can_open fs f1) eqn:O1; cbn [negb].
  2:{ exists false. split; [reflexivity|]. split; [discriminate|]. intros (? & _); discriminate. }
  destruct (can_open fs f2) eqn:O2; cbn [negb].
  2:{ exists false. split; [reflexivity|]. split; [discriminate|]. intros (_ & ? & _); discriminate. }
  assert (S1 : file_size fs f1 = length (contents fs f1)) by (unfold file_size; now rewrite O1).
  assert (S2 : file_size fs f2 = length (contents fs f2)) by (unfold file_size; now rewrite O2).
  rewrite S1, S2. remember (contents fs f1) as D1 eqn:HD1. remember (contents fs f2) as D2 eqn:HD2.
  destruct (Nat.eqb_spec (length D1) (length D2)) as [Hlen|Hlen]; cbn [negb].
  2:{ exists false. split; [reflexivity|]. split; [discriminate|]. intros (_ & _ & ->). congruence. }
  match goal with |- context [loop _ ?f _] => set (body := f) end.
  pose (I := fun (x : list (option ascii) * list (option ascii) * ifs * ifs * nat) => let '(b1, b2, s1, s2, rem) := x in
    length b1 = bs /\ length b2 = bs /\ exists pos, s1 = IFS f1 pos true /\ s2 = IFS f2 pos true /\ pos + rem = length D1 /\
      firstn pos D1 = firstn pos D2).
  assert (H : holds (loop (S (length D1)) body (repeat None bs, repeat None bs, IFS f1 0 true, IFS f2 0 true, length D1))
                (fun r => match r with None => D1 <> D2 | Some x => I x /\ snd x < bs end)).
  { apply loop_rule with (I := I) (mu := fun '(_, _, _, _, rem) => rem).
    - intros [[[[b1 b2] s1] s2] rem] (L1 & L2 & pos & -> & -> & Hp & Hf). unfold body. destruct (Nat.leb_spec bs rem).
      + rewrite (ifs_read_ok _ _ _ _ _ D1) by (auto; lia). cbn [bind]. rewrite (ifs_read_ok _ _ _ _ _ D2) by (auto; lia). cbn [bind].
        pose proof (init_bytes_ok (sub D1 (pos, pos + bs)) (skipn bs b1)) as Hi1. rewrite sub_len in Hi1 by lia.
        pose proof (init_bytes_ok (sub D2 (pos, pos + bs)) (skipn bs b2)) as Hi2. rewrite sub_len in Hi2 by lia.
        replace (pos + bs - pos) with bs in Hi1, Hi2 by lia. rewrite Hi1. cbn [bind]. rewrite Hi2. cbn [bind].
        destruct (differ (sub D1 (pos, pos + bs)) (sub D2 (pos, pos + bs))) eqn:Ed; cbn [holds].
        * intros ->. rewrite (proj2 (differ_iff _ _) eq_refl) in Ed. discriminate.
        * apply differ_iff in Ed. split; [|lia]. split; [|split].
          -- rewrite app_length, map_length, sub_len, skipn_length by lia. lia.
          -- rewrite app_length, map_length, sub_len, skipn_length by lia. lia.
          -- exists (pos + bs). repeat split; [lia|]. rewrite !firstn_sub by lia. now rewrite Hf, Ed.
      + cbn [holds snd]. split; [|lia]. split; [auto|]. split; [auto|]. exists pos. auto.
    - split; [apply repeat_length|]. split; [apply repeat_length|]. exists 0. auto.
    - lia. }
  apply holds_ex in H. destruct H as (r & El & Hr). rewrite El. cbn [bind]. destruct r as [[[[[b1 b2] s1] s2] rem]|].
  - destruct Hr as [(L1 & L2 & pos & -> & -> & Hp & Hf) Hrem]. cbn [snd] in Hrem. destruct (Nat.ltb_spec 0 rem) as [H0|H0].
    + rewrite (ifs_read_ok _ _ _ _ _ D1) by (auto; lia). cbn [bind]. rewrite (ifs_read_ok _ _ _ _ _ D2) by (auto; lia). cbn [bind].
      pose proof (init_bytes_ok (sub D1 (pos, pos + rem)) (skipn rem b1)) as Hi1. rewrite sub_len in Hi1 by lia.
      pose proof (init_bytes_ok (sub D2 (pos, pos + rem)) (skipn rem b2)) as Hi2. rewrite sub_len in Hi2 by lia.
      replace (pos + rem - pos) with rem in Hi1, Hi2 by lia. rewrite Hi1. cbn [bind]. rewrite Hi2. cbn [bind].
      eexists. split; [reflexivity|]. rewrite negb_true_iff, differ_iff.
      pose proof (firstn_sub D1 pos rem ltac:(lia)) as P1. pose proof (firstn_sub D2 pos rem ltac:(lia)) as P2.
      rewrite firstn_all2 in P1 by lia. rewrite firstn_all2 in P2 by lia. split.
      * intros E. split; [auto|]. split; [auto|]. rewrite P1, P2, Hf, E. reflexivity.
      * intros (_ & _ & E). rewrite E. reflexivity.
    + exists true. split; [reflexivity|]. split; [|auto]. intros _. split; [auto|]. split; [auto|].
      rewrite !firstn_all2 in Hf by lia. exact Hf.
  - exists false. split; [reflexivity|]. split; [discriminate|]. intros (_ & _ & E). congruence.
Qed.

Lemma load_file_ok fs n buffer :
  load_file fs n buffer = Ok (if can_open fs n then (true, map Some (contents fs n)) else (false, [])).
Proof.
  unfold load_file, load_file_buf, file_size. destruct (can_open fs n) eqn:O; cbn [negb].
  - set (b := resize_buf buffer (length (contents fs n))).
    assert (L : length b = length (contents fs n)).
    { unfold b, resize_buf. rewrite app_length, firstn_length, repeat_length. lia. }
    rewrite (ifs_read_ok _ _ _ _ _ (contents fs n)) by (auto; lia). cbn [bind]. rewrite L. rewrite skipn_all2 by lia. rewrite app_nil_r.
    do 3 f_equal. unfold sub. cbn [fst snd skipn]. apply firstn_all2. lia.
  - unfold resize_buf. reflexivity.
Qed.
Lemma write_file_ok fs n d : match write_file fs n d with
  | (true, fs') => f_write fs n = true /\ file_is fs fs' n d
  | (false, fs') => f_write fs n = false /\ fs' = fs end.
Proof.
  unfold write_file. destruct (f_write fs n) eqn:W.
  - rewrite (open_out_ok _ _ W). split; [auto|]. split; [|split; reflexivity]. intros m. rewrite append_data. unfold contents. rewrite set_file_self.
    cbn. destruct (m =? n); reflexivity.
  - rewrite (open_out_no _ _ W). auto.
Qed.
Lemma read_at_offset_ok fs n offset buffer size : exists b buf, read_at_offset fs n offset buffer size = Ok (b, buf) /\
  (b = true <-> can_open fs n = true /\ (size = 0 \/ offset + size <= length (contents fs n))) /\
  (b = true -> buf = map Some (sub (contents fs n) (offset, offset + size))).
Proof.
  unfold read_at_offset, read_at_offset_buf. destruct (can_open fs n) eqn:O; cbn [negb].
  2:{ exists false, buffer. split; [reflexivity|]. split; [|discriminate]. split; [discriminate|]. intros [? _]; discriminate. }
  assert (L : length (resize_buf buffer size) = size).
  { unfold resize_buf. rewrite app_length, firstn_length, repeat_length. lia. }
  unfold ifs_read. rewrite L. destruct (Nat.ltb_spec size size); [lia|]. cbn [i_ok negb i_name i_pos bind].
  eexists _, _. split; [reflexivity|]. remember (contents fs n) as D eqn:HD.
  assert (Hg : length (firstn size (skipn offset D)) = Nat.min size (length D - offset)) by (rewrite firstn_length, skipn_length; reflexivity).
  split.
  - rewrite Nat.eqb_eq, Hg. split; [intros H0; split; [auto|lia]|]. intros [_ [?|?]]; lia.
  - intros E. apply Nat.eqb_eq in E. rewrite E. rewrite (skipn_all2 (resize_buf buffer size)) by lia. rewrite app_nil_r. f_equal.
    unfold sub. cbn [fst snd]. f_equal. lia.
Qed.
