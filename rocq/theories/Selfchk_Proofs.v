(* Proofs about the checks of the example programs. *)
From Verif Require Import Base Codec_Model Codec_Spec Codec_Props Trie_Model Trie_Spec Trie_Props Selfchk_Model Selfchk_Spec.
Local Open Scope nat_scope.

(* ---- converters ---- *)
Lemma compare_equal k a b : k <= length a -> k <= length b -> firstn k a = firstn k b -> compare_buffers k a b = Ok None.
Proof.
  intros Ha Hb E. unfold compare_buffers. apply holds_eq.
  apply (loop_rule (fun i => i <= k) (fun i => k - i)); [|lia|lia].
  intros i Hi. destruct (Nat.ltb_spec i k) as [H|H]; [|reflexivity].
  destruct (rd_ok a i ltac:(lia)) as (x & -> & Ex). destruct (rd_ok b i ltac:(lia)) as (y & -> & Ey). cbn [bind].
  assert (x = y) as ->.
  { assert (nth_error (firstn k a) i = Some x) as F by (rewrite nth_error_firstn; destruct (Nat.ltb_spec i k); [exact Ex|lia]).
    rewrite E in F. rewrite nth_error_firstn in F. destruct (Nat.ltb_spec i k); [congruence|lia]. }
  rewrite Ascii.eqb_refl. cbn [negb holds]. lia.
Qed.

Lemma write_each (v : nat -> ascii) k s : k <= length s ->
  for_up 0 k (fun i b => wr b i (v i)) s = Ok (map v (seq 0 k) ++ skipn k s).
Proof.
  intros H. apply holds_eq.
  apply (holds_weaken _ (fun b => b = map v (seq 0 (0 + k)) ++ skipn (0 + k) s)); [|intros a ->; reflexivity].
  apply (for_up_rule (fun i b => b = map v (seq 0 i) ++ skipn i s)); [|reflexivity].
  intros i b Hi ->. destruct (rd_ok s i ltac:(lia)) as (x & _ & Ex).
  rewrite (skipn_nth_cons _ _ _ Ex).
  replace i with (length (map v (seq 0 i))) at 3 by (rewrite map_length, seq_length; reflexivity).
  rewrite wr_here. cbn [holds]. rewrite seq_S, map_app, <- app_assoc. reflexivity.
Qed.

Lemma example03_ok size b1 b2 b64 : length b1 = size -> length b2 = size -> length b64 = 2 * size ->
  example03 size b1 b2 b64 = Ok None.
Proof.
  intros H1 H2 H3. unfold example03. apply holds_eq.
  apply (loop_rule (fun '(k, b1, b2, b64) => 1 <= k /\ length b1 = size /\ length b2 = size /\ length b64 = 2 * size)
           (fun '(k, _, _, _) => size - k)); [|auto|lia].
  clear. intros [[[k b1] b2] b64] (Hk & H1 & H2 & H3). destruct (Nat.ltb_spec k size) as [H|H]; [|reflexivity].
  rewrite write_each by lia. cbn [bind].
  set (v := fun i => ascii_of_nat (i mod 256)). set (data := map v (seq 0 k)).
  assert (Ld : length data = k) by (unfold data; rewrite map_length, seq_length; reflexivity).
  assert (L1 : length (data ++ skipn k b1) = size) by (rewrite app_length, skipn_length; lia).
  rewrite L1. destruct (Nat.ltb_spec size k); [lia|].
  assert (Ef : firstn k (data ++ skipn k b1) = data) by (rewrite <- Ld at 1; apply firstn_app_len). rewrite Ef.
  assert (Hb : 4 * ((length data + 2) / 3) <= length b64).
  { rewrite Ld, H3. pose proof (Nat.div_mod (k + 2) 3 ltac:(lia)). lia. }
  rewrite (C16_base64_buffer data b64 Hb). cbn [bind].
  destruct (C16_base64_text data []) as [_ Et].
  rewrite (write_each (fun _ => zero)) by lia. cbn [bind].
  set (t := base64_text data) in *.
  assert (Lt : length t <= length b64) by (rewrite Et; exact Hb).
  assert (L3 : length (t ++ skipn (length t) b64) = length b64) by (rewrite app_length, skipn_length; lia).
  rewrite L3. destruct (Nat.ltb_spec (length b64) (length t)); [lia|]. rewrite firstn_app_len.
  set (b2' := map (fun _ => zero) (seq 0 k) ++ skipn k b2).
  assert (L2 : length b2' = size) by (unfold b2'; rewrite app_length, map_length, seq_length, skipn_length; lia).
  assert (Hd : data <> []) by (intros E; rewrite E in Ld; cbn in Ld; lia).
  pose proof (C16_base64_decode_buffer data b2' Hd ltac:(lia)) as D. fold t in D. rewrite D. cbn [bind].
  assert (L4 : length (data ++ skipn (length data) b2') = size) by (rewrite app_length, skipn_length; lia).
  rewrite compare_equal; [|lia|lia|].
  - cbn [bind holds]. repeat split; lia.
  - rewrite Ef. symmetry. rewrite <- Ld at 1. apply firstn_app_len.
Qed.

(* ---- the strings of the trie example ---- *)
Lemma rotate_turned : forall j s, j < length s -> rotate_one (turned j s) = turned (S j) s.
Proof.
  intros j s H. unfold turned. destruct (rd_ok s j H) as (x & _ & Ex). rewrite (skipn_nth_cons _ _ _ Ex). cbn [app rotate_one].
  rewrite (firstn_S_nth _ _ _ Ex), <- app_assoc. reflexivity.
Qed.
Lemma turned_length j s : j <= length s -> length (turned j s) = length s.
Proof. intros H. unfold turned. rewrite app_length, skipn_length, firstn_length. lia. Qed.

Lemma for_up_push {A} (g : nat -> list A) body : forall n i (l : list A),
  (forall k l, i <= k < i + n -> body k l = Ok (l ++ g k)) ->
  for_up i n body l = Ok (l ++ flat_map g (seq i n)).
Proof.
  induction n as [|n IH]; intros i l H; cbn [for_up seq flat_map]; [now rewrite app_nil_r|].
  rewrite H by lia. cbn [bind]. rewrite IH by (intros; apply H; lia). now rewrite app_assoc.
Qed.
Lemma flat_map_one {A B} (f : A -> B) l : flat_map (fun x => [f x]) l = map f l.
Proof. induction l as [|x l IH]; [reflexivity|]. cbn. now rewrite IH. Qed.

Lemma inner_ok s l : for_up 1 (length s)
         (fun i str_list =>
            for_up 0 (length s - i)
              (fun k str_list =>
                 if length s <? k then UB
                 else Ok (str_list ++ [sub s (k, Nat.min (k + i) (length s))])) str_list) l =
  Ok (l ++ flat_map (pieces s) (seq 1 (length s))).
Proof.
  apply for_up_push. intros i l' Hi. rewrite (for_up_push (fun k => [firstn i (skipn k s)])).
  - rewrite flat_map_one. reflexivity.
  - intros k l2 Hk. destruct (Nat.ltb_spec (length s) k); [lia|]. unfold sub. cbn [fst snd].
    rewrite Nat.min_l by lia. replace (k + i - k) with i by lia. reflexivity.
Qed.

Lemma create_ok s : create_string_list s = Ok (all_pieces s).
Proof.
  unfold create_string_list.
  assert (E : for_up 0 (length s)
    (fun _ '(s, str_list) =>
       str_list <- for_up 1 (length s)
         (fun i str_list =>
            for_up 0 (length s - i)
              (fun k str_list =>
                 if length s <? k then UB
                 else Ok (str_list ++ [sub s (k, Nat.min (k + i) (length s))])) str_list) str_list ;;
       Ok (rotate_one s, str_list)) (s, []) = Ok (turned (length s) s, all_pieces s)).
  { apply holds_eq. apply (holds_weaken _ (fun '(x, l) => x = turned (0 + length s) s /\
      l = flat_map (fun j => flat_map (pieces (turned j s)) (seq 1 (length s))) (seq 0 (0 + length s)))).
    - apply (for_up_rule (fun i '(x, l) => x = turned i s /\
        l = flat_map (fun j => flat_map (pieces (turned j s)) (seq 1 (length s))) (seq 0 i))).
      + intros j [x l] Hj (-> & ->). rewrite inner_ok. cbn [bind holds]. split; [apply rotate_turned; lia|].
        rewrite seq_S, flat_map_app. cbn [flat_map Nat.add]. rewrite app_nil_r, turned_length by lia. reflexivity.
      + split; [unfold turned; cbn; now rewrite app_nil_r|reflexivity].
    - intros [x l] (-> & ->). reflexivity. }
  rewrite E. reflexivity.
Qed.

Lemma pieces_in s j i p : j <= length s -> 1 <= i -> In p (pieces (turned j s) i) -> length p = i.
Proof.
  intros Hj Hi H. unfold pieces in H. apply in_map_iff in H. destruct H as (k & <- & Hk). apply in_seq in Hk.
  rewrite turned_length in Hk by exact Hj. rewrite firstn_length, skipn_length, turned_length by exact Hj. lia.
Qed.

Lemma all_nonempty s p : In p (all_pieces s) -> p <> [].
Proof.
  intros H. unfold all_pieces in H. apply in_flat_map in H. destruct H as (j & Hj & H). apply in_seq in Hj.
  apply in_flat_map in H. destruct H as (i & Hi & H). apply in_seq in Hi.
  apply pieces_in in H; [|lia|lia]. intros ->. cbn in H. lia.
Qed.

Lemma pieces_count m : forall n, n <= m -> list_sum (map (fun i => m - i) (seq 1 n)) * 2 + n * S n = 2 * m * n.
Proof.
  induction n as [|n IH]; intros H; [cbn; lia|]. rewrite seq_S, map_app, list_sum_app. cbn [map list_sum fold_right].
  specialize (IH ltac:(lia)). replace (1 + n) with (S n) by lia.
  assert (m - S n + 0 + S n = m) by lia. nia.
Qed.
Lemma flat_map_length' {A B} (f : A -> list B) l : length (flat_map f l) = list_sum (map (fun x => length (f x)) l).
Proof. induction l as [|x l IH]; [reflexivity|]. cbn. rewrite app_length, IH. reflexivity. Qed.

Lemma all_count s : 2 * length (all_pieces s) = length s * (length s * (length s - 1)).
Proof.
  unfold all_pieces. rewrite flat_map_length'.
  assert (H : forall j, In j (seq 0 (length s)) -> 2 * length (flat_map (pieces (turned j s)) (seq 1 (length s))) = length s * (length s - 1)).
  { intros j Hj. apply in_seq in Hj. rewrite flat_map_length'.
    rewrite (map_ext _ (fun i => length s - i)).
    2:{ intros i. unfold pieces. rewrite map_length, seq_length, turned_length by lia. reflexivity. }
    pose proof (pieces_count (length s) (length s) ltac:(lia)) as P.
    assert (length s * (length s - 1) + length s * S (length s) = 2 * length s * length s); [|lia].
    destruct (length s); [reflexivity|]. replace (S n - 1) with n by lia. nia. }
  assert (G : forall l, (forall j, In j l -> 2 * length (flat_map (pieces (turned j s)) (seq 1 (length s))) = length s * (length s - 1)) ->
    2 * list_sum (map (fun x => length (flat_map (pieces (turned x s)) (seq 1 (length s)))) l) = length l * (length s * (length s - 1))).
  { induction l as [|x l IH]; intros Hl; [reflexivity|]. cbn [map length]. cbn [list_sum fold_right].
    change (fold_right Nat.add 0 ?l) with (list_sum l). rewrite Nat.mul_add_distr_l, IH by (intros; apply Hl; right; assumption).
    rewrite Hl by (left; reflexivity). reflexivity. }
  rewrite (G _ H), seq_length. reflexivity.
Qed.

(* ---- the trie ---- *)
Lemma insert_each str_list : forall n i (t : trie ascii nat),
  for_up i n (fun i t => s <- rd str_list i ;; insert Ascii.eqb t s i) t =
  (if i + n <=? length str_list then insert_all Ascii.eqb t (combine (sub str_list (i, i + n)) (seq i n)) else
   for_up i n (fun i t => s <- rd str_list i ;; insert Ascii.eqb t s i) t).
Proof.
  induction n as [|n IH]; intros i t.
  - destruct (Nat.leb_spec (i + 0) (length str_list)); [|reflexivity].
    unfold insert_all. rewrite Nat.add_0_r, sub_empty. reflexivity.
  - destruct (Nat.leb_spec (i + S n) (length str_list)) as [H|H]; [|reflexivity].
    cbn [for_up]. destruct (rd_ok str_list i ltac:(lia)) as (x & E & Ex). rewrite E. cbn [bind].
    rewrite <- (sub_app str_list i (S i) (i + S n)) by lia.
    rewrite (sub_S str_list i i x), sub_empty by (auto; lia). cbn [app seq combine].
    unfold insert_all. cbn [fold_left bind].
    assert (Hbad : forall (l : list (list ascii * nat)) o, (o = UB \/ o = OutOfFuel) ->
       fold_left (fun acc '(k, v) => t <- acc ;; insert Ascii.eqb t k v) l o = o).
    { clear. induction l as [|[k v] l IHl]; intros o Ho; [reflexivity|]. cbn [fold_left].
      destruct Ho as [-> | ->]; cbn [bind]; apply IHl; auto. }
    destruct (insert Ascii.eqb t x i) as [t'| |] eqn:Ei; cbn [bind].
    + rewrite IH. replace (S i + n) with (i + S n) by lia.
      destruct (Nat.leb_spec (i + S n) (length str_list)); [reflexivity|lia].
    + symmetry. apply Hbad. auto.
    + symmetry. apply Hbad. auto.
Qed.

Lemma inserted_ok str_list : exists t,
  for_up 0 (length str_list) (fun i t => s <- rd str_list i ;; insert Ascii.eqb t s i) (@empty_trie ascii nat) = Ok t /\
  forall p, exists b, find_prefix Ascii.eqb t p = Ok b /\ (b = true <-> p <> [] /\ exists k, In k str_list /\ prefix_of p k).
Proof.
  rewrite insert_each. cbn [Nat.add]. rewrite Nat.leb_refl, sub_full.
  destruct (C28_find_prefix ascii nat Ascii.eqb Ascii.eqb_eq (combine str_list (seq 0 (length str_list)))) as (t & E & H).
  exists t. split; [exact E|]. intros p. destruct (H p) as (b & Eb & Hb). exists b. split; [exact Eb|]. rewrite Hb.
  unfold stored_prefix. split; intros [Hp (k & X)]; (split; [exact Hp|]).
  - destruct X as (v & Hin & Hpre). exists k. split; [|exact Hpre]. apply in_combine_l in Hin. exact Hin.
  - destruct X as (Hin & Hpre). apply In_nth_error in Hin. destruct Hin as (i & Ei). exists k, i. split; [|exact Hpre].
    rewrite <- (firstn_all str_list) in Ei.
    assert (G : forall (l : list (list ascii)) a j x, nth_error l j = Some x -> In (x, a + j) (combine l (seq a (length l)))).
    { clear. induction l as [|y l IH]; intros a [|j] x E; try discriminate; cbn [length seq combine].
      - injection E as ->. left. now rewrite Nat.add_0_r.
      - right. replace (a + S j) with (S a + j) by lia. apply IH. exact E. }
    rewrite firstn_all in Ei. exact (G str_list 0 i k Ei).
Qed.

Lemma trie_example_ok rounds str_list : (forall s, In s str_list -> s <> []) ->
  trie_example02 rounds str_list = Ok (inr (rounds * length str_list)).
Proof.
  intros Hne. unfold trie_example02. destruct (inserted_ok str_list) as (t & -> & Hf). cbn [bind]. apply holds_eq.
  set (n := length str_list).
  apply (loop_rule (fun '(r, i, count) => (r < rounds /\ i <= n \/ r = rounds /\ i = 0) /\ count = r * n + i)
           (fun '(r, i, count) => (rounds - r) * S n - i)); [| |].
  - intros [[r i] count] (H & ->). destruct (Nat.ltb_spec r rounds) as [Hr|Hr].
    + destruct H as [[_ Hi]|[-> _]]; [|lia]. destruct (Nat.ltb_spec i n) as [Hi'|Hi'].
      * destruct (rd_ok str_list i Hi') as (s & -> & Es). cbn [bind]. apply nth_error_In in Es.
        destruct (Hf s) as (b & -> & Hb). cbn [bind].
        assert (b = true) as -> by (apply Hb; split; [apply Hne, Es|exists s; split; [exact Es|exists []; now rewrite app_nil_r]]).
        cbn [negb holds]. split; [split; [left; lia|lia]|].
        assert (S n <= (rounds - r) * S n) by (rewrite <- (Nat.mul_1_l (S n)) at 1; apply Nat.mul_le_mono_r; lia). lia.
      * assert (i = n) as -> by lia. cbn [holds]. split.
        -- split; [destruct (Nat.eq_dec (S r) rounds); [right|left]; lia|lia].
        -- replace (rounds - r) with (S (rounds - S r)) by lia. rewrite Nat.mul_succ_l. lia.
    + destruct H as [[H _]|[-> ->]]; [lia|]. cbn [holds]. f_equal. lia.
  - split; [|reflexivity]. destruct (Nat.eq_dec rounds 0); [right|left]; lia.
  - lia.
Qed.

Lemma trie_example_empty rounds str_list : 0 < rounds -> In [] str_list -> trie_example02 rounds str_list = Ok (inl []).
Proof.
  intros Hr0 Hin. unfold trie_example02. destruct (inserted_ok str_list) as (t & -> & Hf). cbn [bind]. apply holds_eq.
  apply In_nth_error in Hin. destruct Hin as (m & Em).
  set (n := length str_list). assert (Hm : m < n) by (apply nth_error_Some; congruence).
  apply (loop_rule (fun '(r, i, count) => r = 0 /\ i <= m) (fun '(r, i, count) => m - i)); [|lia|nia].
  intros [[r i] count] (-> & Hi). destruct (Nat.ltb_spec 0 rounds); [|lia]. destruct (Nat.ltb_spec i n) as [Hi'|Hi']; [|lia].
  destruct (rd_ok str_list i Hi') as (s & -> & Es). cbn [bind].
  destruct (Hf s) as (b & -> & Hb). cbn [bind]. destruct b; cbn [negb holds].
  - split; [|]; assert (i <> m) by (intros ->; rewrite Em in Es; injection Es as <-; apply (proj1 (proj1 Hb eq_refl)); reflexivity); lia.
  - f_equal. destruct s as [|c s]; [reflexivity|].
    assert (false = true) by (apply Hb; split; [discriminate|exists (c :: s); split; [exact (nth_error_In _ _ Es)|exists []; now rewrite app_nil_r]]).
    discriminate.
Qed.
