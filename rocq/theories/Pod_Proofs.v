From Verif Require Import Base IO_Model Pod_Model Pod_Spec.
Local Open Scope nat_scope.

Lemma total_concat {A} (ts : list (list A)) : length (concat ts) = total (map (@length A) ts).
Proof. induction ts as [|t ts IH]; cbn [concat map total fold_right]; [reflexivity|]. rewrite app_length, IH. reflexivity. Qed.

Lemma memcpy_to_here pre old post bytes : length old = length bytes ->
  memcpy_to (pre ++ old ++ post) (length pre) bytes = Ok (pre ++ bytes ++ post).
Proof.
  intros H. unfold memcpy_to. rewrite !app_length.
  destruct (Nat.leb_spec (length pre + length bytes) (length pre + (length old + length post))); [|lia].
  rewrite firstn_app_len. f_equal. f_equal. f_equal. rewrite <- H, <- app_length, app_assoc. apply skipn_app_len.
Qed.

Lemma memcpy_to_ub mem pos bytes : length mem < pos + length bytes -> memcpy_to mem pos bytes = UB.
Proof. intros H. unfold memcpy_to. destruct (Nat.leb_spec (pos + length bytes) (length mem)); [lia|reflexivity]. Qed.

Lemma memcpy_from_here pre bytes post : memcpy_from (pre ++ bytes ++ post) (length pre) (length bytes) = Ok bytes.
Proof.
  unfold memcpy_from. rewrite !app_length.
  destruct (Nat.leb_spec (length pre + length bytes) (length pre + (length bytes + length post))); [|lia].
  now rewrite skipn_app_len, firstn_app_len.
Qed.

Lemma memcpy_from_ub mem pos n : length mem < pos + n -> memcpy_from mem pos n = UB.
Proof. intros H. unfold memcpy_from. destruct (Nat.leb_spec (pos + n) (length mem)); [lia|reflexivity]. Qed.

Lemma write_pod_ok ts : forall pre room post, length room = length (concat ts) ->
  write_pod (pre ++ room ++ post) (length pre) ts = Ok (pre ++ concat ts ++ post, length pre + length room).
Proof.
  induction ts as [|t ts IH]; intros pre room post H; cbn [write_pod concat] in *.
  - destruct room; [|discriminate]. simpl. now rewrite Nat.add_0_r.
  - rewrite app_length in H.
    rewrite <- (firstn_skipn (length t) room) at 1. rewrite <- (app_assoc (firstn _ _)).
    rewrite memcpy_to_here by (rewrite firstn_length; lia). cbn [bind].
    replace (pre ++ t ++ skipn (length t) room ++ post) with ((pre ++ t) ++ skipn (length t) room ++ post) by now rewrite <- app_assoc.
    rewrite <- app_length, IH by (rewrite skipn_length; lia).
    rewrite app_length, skipn_length, <- !app_assoc. f_equal. f_equal. lia.
Qed.

Lemma memcpy_to_length mem pos bytes mem' : memcpy_to mem pos bytes = Ok mem' -> length mem' = length mem.
Proof.
  unfold memcpy_to. destruct (Nat.leb_spec (pos + length bytes) (length mem)); [|discriminate].
  intros E. injection E as <-. rewrite !app_length, firstn_length, skipn_length. lia.
Qed.

Lemma write_pod_ub ts : forall mem data, data <= length mem -> length mem < data + length (concat ts) -> write_pod mem data ts = UB.
Proof.
  induction ts as [|t ts IH]; intros mem data Hd H; cbn [write_pod concat] in *; [simpl in H; lia|].
  rewrite app_length in H. destruct (memcpy_to mem data t) as [mem'| |] eqn:E; cbn [bind]; auto.
  - pose proof (memcpy_to_length _ _ _ _ E). unfold memcpy_to in E.
    destruct (Nat.leb_spec (data + length t) (length mem)); [|discriminate]. apply IH; lia.
  - unfold memcpy_to in E. destruct (_ <=? _); discriminate.
Qed.

Lemma read_pod_ok sizes : forall pre bytes post, length bytes = total sizes ->
  read_pod (pre ++ bytes ++ post) (length pre) sizes = Ok (pieces sizes bytes, length pre + length bytes).
Proof.
  induction sizes as [|n sizes IH]; intros pre bytes post H; cbn [read_pod pieces total fold_right] in *.
  - destruct bytes; [|discriminate]. simpl. now rewrite Nat.add_0_r.
  - fold (total sizes) in H.
    assert (Eb : bytes ++ post = firstn n bytes ++ skipn n bytes ++ post) by now rewrite app_assoc, firstn_skipn.
    rewrite Eb.
    assert (E : memcpy_from (pre ++ firstn n bytes ++ skipn n bytes ++ post) (length pre) n = Ok (firstn n bytes)).
    { replace n with (length (firstn n bytes)) at 3 by (rewrite firstn_length; lia). apply memcpy_from_here. }
    rewrite E. cbn [bind].
    replace (pre ++ firstn n bytes ++ skipn n bytes ++ post) with ((pre ++ firstn n bytes) ++ skipn n bytes ++ post) by now rewrite <- app_assoc.
    replace (length pre + n) with (length (pre ++ firstn n bytes)) by (rewrite app_length, firstn_length; lia).
    rewrite IH by (rewrite skipn_length; lia). cbn [bind].
    rewrite app_length, firstn_length, skipn_length. f_equal. f_equal. lia.
Qed.

Lemma read_pod_ub sizes : forall mem data, data <= length mem -> length mem < data + total sizes -> read_pod mem data sizes = UB.
Proof.
  induction sizes as [|n sizes IH]; intros mem data Hd H; cbn [read_pod total fold_right] in *; [lia|].
  fold (total sizes) in H. unfold memcpy_from.
  destruct (Nat.leb_spec (data + n) (length mem)); [|reflexivity]. cbn [bind]. rewrite IH by lia. reflexivity.
Qed.

Lemma pieces_concat {A} (ts : list (list A)) : pieces (map (@length A) ts) (concat ts) = ts.
Proof.
  induction ts as [|t ts IH]; cbn [map pieces concat]; [reflexivity|].
  now rewrite firstn_app_len, skipn_app_len, IH.
Qed.

Lemma write_array_ok ts pre room post : length room = length (concat ts) ->
  write_pod_array (pre ++ room ++ post) (length pre) ts = Ok (pre ++ concat ts ++ post, length pre + length room).
Proof. intros H. unfold write_pod_array. rewrite memcpy_to_here by auto. cbn [bind]. now rewrite <- H. Qed.

Lemma read_array_ok base align size n : align <> 0 -> size mod align = 0 ->
  forall pre bytes post, (base + length pre) mod align = 0 -> length bytes = n * size ->
  read_pod_array base align size (pre ++ bytes ++ post) (length pre) n =
    Ok (pieces (repeat size n) bytes, length pre + n * size).
Proof.
  intros Ha Hs pre bytes post Hb Hl. unfold read_pod_array.
  match goal with |- context [for_up _ _ ?b _] => set (body := b) end.
  assert (G : forall m i ts, i + m = n -> 
    for_up i m body ts = Ok (ts ++ pieces (repeat size m) (skipn (i * size) bytes))).
  { induction m as [|m IH]; intros i ts Hm; cbn [for_up repeat pieces]; [now rewrite app_nil_r|].
    unfold body at 1.
    assert (Em : (base + length pre + i * size) mod align = 0).
    { rewrite Nat.add_mod, Hb, Nat.mul_mod, Hs, Nat.mul_0_r, Nat.mod_0_l, Nat.add_0_r by auto. now rewrite !Nat.mod_0_l. }
    rewrite Em. cbn [Nat.eqb].
    assert (E : memcpy_from (pre ++ bytes ++ post) (length pre + i * size) size = Ok (firstn size (skipn (i * size) bytes))).
    { pose proof (memcpy_from_here (pre ++ firstn (i * size) bytes) (firstn size (skipn (i * size) bytes))
                    (skipn size (skipn (i * size) bytes) ++ post)) as M.
      rewrite (app_assoc (firstn size _)), firstn_skipn in M.
      rewrite <- (app_assoc pre), (app_assoc (firstn (i * size) bytes)), firstn_skipn in M.
      rewrite app_length, !firstn_length, skipn_length in M.
      replace (Nat.min (i * size) (length bytes)) with (i * size) in M by nia.
      replace (Nat.min size (length bytes - i * size)) with size in M by nia.
      exact M. }
    rewrite E. cbn [bind]. rewrite IH by lia. rewrite <- app_assoc. cbn [app].
    rewrite skipn_skipn. replace (size + i * size) with (S i * size) by lia. reflexivity. }
  rewrite (G n 0 []) by lia. reflexivity.
Qed.

Lemma read_array_misaligned base align size mem data n : n <> 0 -> (base + data) mod align <> 0 ->
  read_pod_array base align size mem data n = UB.
Proof.
  intros Hn H. unfold read_pod_array. destruct n as [|n]; [congruence|]. cbn [for_up].
  replace (base + data + 0 * size) with (base + data) by lia.
  destruct (Nat.eqb_spec ((base + data) mod align) 0); [congruence|reflexivity].
Qed.

(* ------------------------------------------------------------------ *)
(* files *)
Definition remaining (fs : fsys) (st : ifs) : list ascii := skipn (i_pos st) (contents fs (i_name st)).

Lemma ifs_read_ok fs n p t :
  ifs_read fs (IFS n p true) t (length t) =
  let got := firstn (length t) (skipn p (contents fs n)) in
  Ok (map Some got ++ skipn (length got) t, IFS n (p + length got) (length got =? length t)).
Proof. unfold ifs_read. rewrite Nat.ltb_irrefl. reflexivity. Qed.

Lemma file_read_ok fs n ts : forall p,
  let rest := skipn p (contents fs n) in
  let got := firstn (length (concat ts)) rest in
  exists ts', file_read_pod fs (IFS n p true) ts =
      Ok (length (concat ts) <=? length rest, ts', IFS n (p + length got) (length (concat ts) <=? length rest)) /\
    map (@length _) ts' = map (@length _) ts /\
    concat ts' = map Some got ++ skipn (length got) (concat ts).
Proof.
  induction ts as [|t ts IH]; intros p rest got; subst got; subst rest.
  - exists []. cbn. rewrite Nat.add_0_r. auto.
  - cbn [file_read_pod]. unfold read_pod_proxy. rewrite ifs_read_ok. cbn zeta. cbn [bind].
    set (rest := skipn p (contents fs n)).
    assert (Hfl : length (firstn (length t) rest) = Nat.min (length t) (length rest)) by apply firstn_length.
    cbn [concat]. rewrite app_length. cbn [i_ok].
    destruct (Nat.leb_spec (length t) (length rest)) as [Hle|Hgt].
    + assert (Hfl' : length (firstn (length t) rest) = length t) by lia.
      rewrite Hfl', Nat.eqb_refl. specialize (IH (p + length t)). cbn zeta in IH.
      assert (Er : skipn (p + length t) (contents fs n) = skipn (length t) rest).
      { unfold rest. rewrite skipn_skipn. f_equal. lia. }
      rewrite Er in IH. destruct IH as (ts' & E & Hm & Hc). rewrite E. cbn [bind].
      assert (Ek : firstn (length t + length (concat ts)) rest = firstn (length t) rest ++ firstn (length (concat ts)) (skipn (length t) rest)).
      { rewrite <- (firstn_skipn (length t) rest) at 1. rewrite firstn_app, Hfl'.
        rewrite firstn_all2 by lia. f_equal. f_equal. lia. }
      assert (Eb : (length (concat ts) <=? length (skipn (length t) rest)) = (length t + length (concat ts) <=? length rest)).
      { rewrite skipn_length. destruct (Nat.leb_spec (length (concat ts)) (length rest - length t));
          destruct (Nat.leb_spec (length t + length (concat ts)) (length rest)); lia. }
      rewrite Eb, Ek. rewrite app_length, Hfl'.
      eexists. split.
      { rewrite <- Nat.add_assoc. reflexivity. }
      split.
      * cbn [map]. rewrite Hm. f_equal. rewrite app_length, map_length, skipn_length. lia.
      * cbn [concat]. rewrite Hc, skipn_all. rewrite app_nil_r, map_app, <- app_assoc. f_equal. f_equal.
        rewrite skipn_app. rewrite (skipn_all2 t) by lia. cbn [app]. f_equal. lia.
    + rewrite firstn_all2 by lia. destruct (Nat.eqb_spec (length rest) (length t)); [lia|].
      rewrite (firstn_all2 (n := length t + length (concat ts))) by lia.
      destruct (Nat.leb_spec (length t + length (concat ts)) (length rest)); [lia|].
      eexists. split; [reflexivity|]. split.
      * cbn [map]. f_equal. rewrite app_length, map_length, skipn_length. lia.
      * cbn [concat]. rewrite <- app_assoc. f_equal. rewrite skipn_app.
        replace (length rest - length t) with 0 by lia. reflexivity.
Qed.

Lemma file_count_ok {C} (put : C -> list (option ascii) -> C) size fs n p count (c : C) : 0 < size ->
  let rest := skipn p (contents fs n) in
  let k := Nat.min count (length rest / size) in
  exists st', file_read_pod_count put size fs (IFS n p true) count c =
    Ok (count * size <=? length rest, fold_left put (map (map Some) (pieces (repeat size k) rest)) c, st') /\
    (count * size <= length rest -> st' = IFS n (p + count * size) true).
Proof.
  intros Hsz rest k. unfold file_read_pod_count.
  match goal with |- context [loop _ ?b _] => set (body := b) end.
  assert (G : forall m i fuel t p c, i + m = count -> m < fuel -> length t = size ->
    let rest := skipn p (contents fs n) in
    exists st', loop fuel body (i, t, IFS n p true, c) =
      Ok (m * size <=? length rest, fold_left put (map (map Some) (pieces (repeat size (Nat.min m (length rest / size))) rest)) c, st') /\
      (m * size <= length rest -> st' = IFS n (p + m * size) true)).
  { clear rest k p c. induction m as [|m IH]; intros i fuel t p c Hi Hf Ht rest; (destruct fuel as [|fuel]; [lia|]); cbn [loop]; unfold body at 1.
    - destruct (Nat.ltb_spec i count); [lia|]. cbn. eexists. split; [reflexivity|]. intros _. now rewrite Nat.add_0_r.
    - destruct (Nat.ltb_spec i count); [|lia]. unfold read_pod_proxy. rewrite ifs_read_ok. cbn zeta. cbn [bind i_ok].
      fold rest. rewrite Ht. pose proof (firstn_length size rest) as Hfl.
      destruct (Nat.leb_spec size (length rest)) as [Hle|Hgt].
      + assert (Hfl' : length (firstn size rest) = size) by lia. rewrite Hfl', Nat.eqb_refl.
        rewrite skipn_all2 by lia. rewrite app_nil_r.
        destruct (IH (S i) fuel (map Some (firstn size rest)) (p + size) (put c (map Some (firstn size rest)))) as (st' & E & Hst); [lia|lia|rewrite map_length; lia|].
        assert (Er : skipn (p + size) (contents fs n) = skipn size rest).
        { unfold rest. rewrite skipn_skipn. f_equal. lia. }
        rewrite Er in E, Hst. exists st'. rewrite skipn_length in *. split.
        * etransitivity; [exact E|]. f_equal. f_equal. f_equal.
          -- destruct (Nat.leb_spec (m * size) (length rest - size)); destruct (Nat.leb_spec (S m * size) (length rest)); nia.
          -- assert (Ed : length rest / size = S ((length rest - size) / size)).
             { replace (length rest) with (1 * size + (length rest - size)) at 1 by lia. rewrite Nat.div_add_l by lia. lia. }
             rewrite Ed. rewrite <- Nat.succ_min_distr. cbn [repeat pieces map fold_left]. reflexivity.
        * intros Hs. rewrite Hst by nia. f_equal. lia.
      + rewrite firstn_all2 in * by lia. destruct (Nat.eqb_spec (length rest) size); [lia|].
        eexists. split.
        * f_equal. f_equal. f_equal.
          -- destruct (Nat.leb_spec (S m * size) (length rest)); nia.
          -- rewrite Nat.div_small by lia. rewrite Nat.min_0_r. reflexivity.
        * intros Hs. nia. }
  destruct (G count 0 (S count) (repeat None size) p c) as (st' & E & Hst); [lia|lia|apply repeat_length|].
  exists st'. split; [exact E|exact Hst].
Qed.
