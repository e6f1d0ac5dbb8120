(* Proofs about the Bloom filter example. *)
From Verif Require Import Base Comb_Model Comb_Spec Comb_Proofs Comb_Proofs3 Codec_Model Codec_Spec Codec_Proofs2 Bloom_Model Bloom_Spec
  Bloom_Proofs IO_Model BFile_Model Bdemo_Model Bdemo_Spec.
From Coq Require Import Permutation Sorted.
Local Open Scope nat_scope.

Lemma copy_to_ok : forall s (a b : memory), length s <= length b ->
  copy_to s (a ++ b) (length a) = Ok (a ++ map Some s ++ skipn (length s) b).
Proof.
  induction s as [|c s IH]; intros a b H; [reflexivity|].
  destruct b as [|x b]; [cbn [length] in H; lia|]. cbn [copy_to]. rewrite wr_here. cbn [bind].
  replace (a ++ Some c :: b) with ((a ++ [Some c]) ++ b) by (rewrite <- app_assoc; reflexivity).
  replace (S (length a)) with (length (a ++ [Some c])) by (rewrite app_length; simpl; lia).
  cbn [length] in H. rewrite IH by lia. rewrite <- app_assoc. reflexivity.
Qed.

Lemma key_at_ok : forall s (a b : memory), key_at (a ++ map Some s ++ b) (length a) (length s) = Ok s.
Proof.
  induction s as [|c s IH]; intros a b; [reflexivity|]. cbn [key_at map length app]. rewrite rd_here. cbn [bind].
  replace (a ++ Some c :: map Some s ++ b) with ((a ++ [Some c]) ++ map Some s ++ b) by (rewrite <- app_assoc; reflexivity).
  replace (S (length a)) with (length (a ++ [Some c])) by (rewrite app_length; simpl; lia).
  rewrite IH. reflexivity.
Qed.

Fixpoint run_keys {St} (body : key -> St -> outcome St) (ks : list key) (st : St) : outcome St :=
  match ks with [] => Ok st | k :: ks' => st <- body k st ;; run_keys body ks' st end.

Lemma each_key_ok {St} (body : key -> St -> outcome St) step : 0 < step ->
  forall ks st fuel, Forall (fun s => length s = step) ks -> length ks < fuel ->
  each_key fuel step (map Some (concat ks)) body st = run_keys body ks st.
Proof.
  intros Hs ks st fuel. unfold each_key.
  enough (G : forall ks fuel st done, Forall (fun s => length s = step) ks -> length ks < fuel ->
    loop fuel (fun '(buf_itr, st) =>
       if length (map Some (done ++ concat ks)) =? buf_itr then Ok (inr st)
       else
         key <- key_at (map Some (done ++ concat ks)) buf_itr step ;;
         st <- body key st ;;
         Ok (inl (buf_itr + step, st))) (length done, st) = run_keys body ks st).
  { intros F Hl. exact (G ks fuel st [] F Hl). }
  clear ks st fuel. induction ks as [|s ks IH]; intros fuel st done F Hf; destruct fuel as [|fuel]; cbn [length] in Hf; try lia.
  - cbn [loop concat]. rewrite app_nil_r, map_length, Nat.eqb_refl. reflexivity.
  - cbn [loop concat run_keys]. inversion F as [|? ? E F']; subst. clear F.
    destruct (Nat.eqb_spec (length (map Some (done ++ s ++ concat ks))) (length done)) as [El|_].
    { rewrite map_length, !app_length in El. lia. }
    assert (Ek : key_at (map Some (done ++ s ++ concat ks)) (length done) (length s) = Ok s).
    { rewrite !map_app. rewrite <- (map_length (@Some ascii) done). apply key_at_ok. }
    rewrite Ek. cbn [bind]. destruct (body s st) as [st'| |]; cbn [bind]; [|reflexivity|reflexivity].
    rewrite app_assoc. rewrite <- app_length. apply IH; [exact F'|lia].
Qed.

(* ---- filling the buffer ---- *)
Section Fill.
Variable lt : ascii -> ascii -> bool.
Hypothesis lt_asym : forall a b, lt a b = true -> lt b a = false.

Definition both (c : list ascii) : list key := [c; map upper c].

Lemma fill_ok fuel k l : StronglySorted (fun a b => lt a b = true) l -> 0 < k <= length l -> 2 * k * length (choices k l) + 1 < fuel ->
  fill lt fuel k l (repeat None (k * (2 * length (choices k l)))) = Ok (map Some (concat (keys k l))).
Proof.
  intros Hs Hk Hf. unfold fill. apply holds_eq.
  set (C := length (choices k l)) in *.
  set (part := fun i => concat (flat_map both (firstn i (choices k l)))).
  assert (Hlen : length (choices k l) = length (sel k l)) by (rewrite <- sel_choices; apply map_length).
  assert (Step : forall i c, nth_error (choices k l) i = Some c -> part (S i) = part i ++ c ++ map upper c).
  { intros i c E. unfold part. rewrite (firstn_S_nth _ _ _ E), flat_map_app, concat_app. cbn [flat_map both concat app].
    rewrite app_nil_r. reflexivity. }
  assert (Lp : forall i, i <= C -> length (part i) = 2 * k * i).
  { induction i as [|i IH]; intros Hi; [unfold part; cbn; lia|].
    destruct (nth_error (choices k l) i) as [c|] eqn:E; [|apply nth_error_None in E; unfold C in Hi; lia].
    rewrite (Step i c E), !app_length, map_length, IH by lia.
    assert (length c = k) by (apply nth_error_In in E; apply choices_in in E; tauto). lia. }
  apply (loop_rule (fun '(it, s, buf, pos) => length s = length l /\
       ((exists i c r, it = ci_start k /\ nth_error (sel k l) i = Some (c, r) /\ s = c ++ r /\
           buf = map Some (part i) ++ repeat None (k * (2 * (C - i))) /\ pos = length (part i)) \/
        (it = ci_end s /\ s = l /\ buf = map Some (concat (keys k l)))))
      (fun '(it, s, buf, pos) => if ci_begin it =? length l then 0 else 1 + (2 * k * C - pos))).
  - intros [[[it s] buf] pos] (Hl & [(i & c & r & -> & En & -> & -> & ->)|(-> & -> & ->)]).
    + unfold ci_equal, ci_start, ci_end. cbn [ci_begin ci_middle].
      replace (0 =? length (c ++ r)) with false by (symmetry; apply Nat.eqb_neq; lia). cbn [andb]. cbn zeta.
      assert (i < length (sel k l)) as Hi by (apply nth_error_Some; congruence).
      assert (length c = k) as Hlc by (apply nth_error_In in En; apply (sel_in lt) in En; tauto).
      rewrite (sub_prefix c r k Hlc).
      assert (nth_error (choices k l) i = Some c) as Ec by (rewrite <- sel_choices, nth_error_map, En; reflexivity).
      fold C in Hlen. rewrite <- Hlen in Hi.
      replace (C - i) with (1 + (C - S i)) by lia.
      replace (k * (2 * (1 + (C - S i)))) with (k + (k + k * (2 * (C - S i)))) by lia.
      rewrite !repeat_app.
      set (rest := repeat None (k * (2 * (C - S i)))).
      assert (E1 : copy_to c (map Some (part i) ++ repeat None k ++ repeat None k ++ rest) (length (part i)) =
                   Ok ((map Some (part i) ++ map Some c) ++ repeat None k ++ rest)).
      { rewrite <- (map_length (@Some ascii) (part i)). rewrite copy_to_ok by (rewrite app_length, repeat_length; lia).
        rewrite Hlc, <- (repeat_length (@None ascii) k) at 1. rewrite skipn_app_len, <- app_assoc. reflexivity. }
      rewrite E1. cbn [bind]. rewrite upper_ok. cbn [bind].
      assert (E2 : copy_to (map upper c) ((map Some (part i) ++ map Some c) ++ repeat None k ++ rest) (length (part i) + length c) =
                   Ok ((map Some (part i) ++ map Some c) ++ map Some (map upper c) ++ rest)).
      { replace (length (part i) + length c) with (length (map Some (part i) ++ map Some c)) by (rewrite app_length, !map_length; lia).
        rewrite copy_to_ok by (rewrite app_length, repeat_length, map_length; lia).
        rewrite map_length, Hlc, <- (repeat_length (@None ascii) k) at 1. rewrite skipn_app_len. reflexivity. }
      rewrite E2. cbn [bind]. unfold rest.
      assert (Eb : (map Some (part i) ++ map Some c) ++ map Some (map upper c) ++ repeat None (k * (2 * (C - S i))) =
                   map Some (part (S i)) ++ repeat None (k * (2 * (C - S i)))).
      { rewrite (Step i c Ec), !map_app, <- !app_assoc. reflexivity. }
      rewrite Eb.
      replace (length (part i) + length c + length (map upper c)) with (length (part (S i))).
      2:{ rewrite map_length, !Lp by lia. lia. }
      unfold ci_next. cbn [ci_begin ci_middle].
      replace (0 =? length (c ++ r)) with false by (symmetry; apply Nat.eqb_neq; lia). cbn [negb].
      replace (0 =? length l) with false by (symmetry; apply Nat.eqb_neq; lia).
      destruct (nth_error (sel k l) (S i)) as [[c' r']|] eqn:En'.
      * rewrite (next_step lt lt_asym l k i c r c' r' Hs En En'). cbn [bind negb holds].
        assert (S i < length (sel k l)) by (apply nth_error_Some; congruence).
        split; [split|].
        -- apply nth_error_In in En'. apply (sel_in lt) in En'. destruct En' as [_ Hp]. apply Permutation_length in Hp. exact Hp.
        -- left. exists (S i), c', r'. auto.
        -- cbn [ci_begin]. replace (0 =? length l) with false by (symmetry; apply Nat.eqb_neq; lia).
           rewrite !Lp by lia. nia.
      * rewrite (next_end lt lt_asym l k i c r Hs ltac:(lia) En En'). cbn [bind negb holds]. apply nth_error_None in En'.
        split; [split; auto; right|].
        -- repeat split; auto. replace (C - S i) with 0 by lia. rewrite !Nat.mul_0_r. cbn [repeat]. rewrite app_nil_r.
           unfold part. rewrite firstn_all2 by (fold C; lia). reflexivity.
        -- unfold ci_end. cbn [ci_begin]. rewrite Nat.eqb_refl. lia.
    + unfold ci_equal. rewrite !Nat.eqb_refl. reflexivity.
  - split; [reflexivity|]. left. exists 0, (firstn k l), (skipn k l). split; [reflexivity|].
    split; [apply (sel_first lt); solve [lia|auto]|]. rewrite firstn_skipn. rewrite Nat.sub_0_r. auto.
  - cbn [ci_begin ci_start]. destruct (0 =? length l); lia.
Qed.
End Fill.
