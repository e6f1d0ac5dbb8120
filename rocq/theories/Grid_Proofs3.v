From Verif Require Import Base Split_Model Split_Spec Split_Proofs Split_Proofs2 Edit_Proofs Parse_Spec Grid_Spec Grid_Model Grid_Rep Grid_Proofs Grid_Proofs2.
Local Open Scope nat_scope.

(* ------------------------------------------------------------------ *)
(* sequential_partition *)
Section Partition.
Context {T : Type}.
Variables (g : grid) (rs : list (list tok)).
Hypothesis Hg : represents g rs.
Variables (p : N -> list tok -> bool) (f : T -> N * N -> T * bool).
Lemma sequential_partition_ok a b x : a <= b -> b <= length rs ->
  exists ranges ok x', sequential_partition p f g (N.of_nat a, N.of_nat b) x = Ok (ok, x') /\
    groups (at_row p rs) b a ranges /\ called (on_nat f) ranges x ok x'.
Proof.
  intros Hab Hb. unfold sequential_partition. rewrite (valid_rows _ _ Hg), (proj2 (Nat.leb_le _ _) Hab), (proj2 (Nat.leb_le _ _) Hb). cbn [negb andb fst snd].
  match goal with |- context [loop _ ?bd _] => set (body := bd) end.
  assert (G : forall n i s sec x fuel, b = i + n -> n < fuel -> s <= i ->
    ((sec = s /\ forall j, s < j < i -> at_row p rs j = true) \/ (s < sec < i /\ at_row p rs sec = false)) ->
    (forall k, s < k < i -> at_row p rs k = true -> forall j, s < j < k -> at_row p rs j = true) ->
    exists ranges ok x',
      (q <- loop fuel body (N.of_nat i, (N.of_nat s, N.of_nat sec), x) ;;
       match q with
       | (None, x) => Ok (false, x)
       | (Some r, x) =>
           if negb (fst r =? N.of_nat b)%N then
             let '(x, bb) := f x (fst r, N.of_nat b) in
             if negb bb then Ok (false, x) else Ok (true, x)
           else Ok (true, x)
       end) = Ok (ok, x') /\ groups (at_row p rs) b s ranges /\ called (on_nat f) ranges x ok x').
  { induction n as [|n IH]; intros i s sec x0 fuel Hi Hf Hs Hsec Hcut; (destruct fuel as [|fuel]; [lia|]); cbn [loop]; unfold body at 1.
    - rewrite (proj2 (N.ltb_ge _ _)) by lia. cbn [negb bind fst]. assert (i = b) by lia. subst i. destruct (Nat.eq_dec s b) as [->|Hne].
      + rewrite N.eqb_refl. cbn [negb]. exists [], true, x0. split; [reflexivity|]. split; constructor.
      + rewrite (proj2 (N.eqb_neq _ _)) by lia. cbn [negb]. destruct (f x0 (N.of_nat s, N.of_nat b)) as [x1 bb] eqn:Ef.
        exists [(s, b)], bb, x1. split; [destruct bb; reflexivity|]. split; [constructor; [lia|exact Hcut]|].
        destruct bb; [eapply called_on; [exact Ef|constructor]|now apply called_stop].
    - rewrite (proj2 (N.ltb_lt _ _)) by lia. cbn [negb].
      destruct (nth_error rs i) as [r|] eqn:Er; [|apply nth_error_None in Er; lia].
      destruct (row_ok _ _ _ _ Hg Er) as (rw & Erw & _ & Hrow). rewrite Erw. cbn [bind]. rewrite (row_tokens_ok _ _ _ Hrow). cbn [bind].
      replace (N.of_nat i + 1)%N with (N.of_nat (S i)) by lia.
      assert (Epi : at_row p rs i = p (N.of_nat i) r) by (unfold at_row; now rewrite Er).
      destruct (p (N.of_nat i) r) eqn:Ep; cbn [fst snd].
      + destruct Hsec as [[-> Hall]|[Hsec Hnp]].
        * rewrite N.eqb_refl. cbn [negb]. apply IH; try lia.
          -- left. split; [reflexivity|]. intros j Hj. destruct (Nat.eq_dec j i) as [->|]; [exact Epi|apply Hall; lia].
          -- intros k Hk Hpk j Hj. apply Hall. lia.
        * rewrite (proj2 (N.eqb_neq _ _)) by lia. cbn [negb].
          assert (Hst : forall k, i < k < S i -> at_row p rs k = true -> forall j, i < j < k -> at_row p rs j = true) by (intros; lia).
          destruct (f x0 (N.of_nat s, N.of_nat i)) as [x1 bb] eqn:Ef.
          destruct (IH (S i) i i x1 fuel ltac:(lia) ltac:(lia) ltac:(lia) ltac:(left; split; [reflexivity|intros; lia]) Hst) as (ranges & ok & x' & E & Hgr & Hc).
          destruct bb; cbn [negb].
          -- exists ((s, i) :: ranges), ok, x'. split; [exact E|]. split.
             ++ apply groups_cut; auto; [lia|]. exists sec. split; [lia|exact Hnp].
             ++ eapply called_on; [exact Ef|exact Hc].
          -- exists ((s, i) :: ranges), false, x1. split; [reflexivity|]. split.
             ++ apply groups_cut; auto; [lia|]. exists sec. split; [lia|exact Hnp].
             ++ now apply called_stop.
      + apply IH; try lia.
        * destruct (Nat.eq_dec s i) as [->|]; [left; split; [reflexivity|intros; lia]|right; split; [lia|exact Epi]].
        * intros k Hk Hpk j Hj. destruct (Nat.eq_dec k i) as [->|]; [congruence|]. apply (Hcut k); auto. lia. }
  apply (G (b - a)); try lia. left. split; [reflexivity|intros; lia].
Qed.
Lemma sequential_partition_bad a b x : b < a \/ length rs < b ->
  sequential_partition p f g (N.of_nat a, N.of_nat b) x = Ok (false, x).
Proof.
  intros H. unfold sequential_partition. rewrite (valid_rows _ _ Hg). destruct (Nat.leb_spec a b), (Nat.leb_spec b (length rs)); cbn; auto; lia.
Qed.
End Partition.

Lemma groups_unique p b : forall s l l', groups p b s l -> groups p b s l' -> l = l'.
Proof.
  intros s l l' H. revert l'.
  induction H as [|s Hs Hno|s e rest Hs Hno Hp (j & Hj & Hnp) Hg IH]; intros l' H';
    inversion H' as [|? Hs' Hno'|? e' rest' Hs' Hno' Hp' (j' & Hj' & Hnp') Hg']; subst; try reflexivity; try lia.
  - exfalso. rewrite (Hno e' ltac:(lia) Hp' j' ltac:(lia)) in Hnp'. discriminate.
  - exfalso. rewrite (Hno' e ltac:(lia) Hp j ltac:(lia)) in Hnp. discriminate.
  - assert (e = e').
    { destruct (Nat.lt_trichotomy e e') as [Hlt|[->|Hlt]]; [|reflexivity|].
      - rewrite (Hno' e ltac:(lia) Hp j ltac:(lia)) in Hnp. discriminate.
      - rewrite (Hno e' ltac:(lia) Hp' j' ltac:(lia)) in Hnp'. discriminate. }
    subst e'. f_equal. now apply IH.
Qed.

(* ------------------------------------------------------------------ *)
(* removal of single rows *)
Lemma map_suffix {A} (h : A -> A) l : forall pre,
  for_up (length pre) (length l) (fun k s => c <- rd s k ;; wr s k (h c)) (pre ++ l) = Ok (pre ++ map h l).
Proof.
  induction l as [|x l IH]; intros pre; cbn [length for_up map]; [reflexivity|].
  rewrite rd_here. cbn [bind]. rewrite wr_here. cbn [bind].
  specialize (IH (pre ++ [h x])). rewrite app_length in IH. cbn [length] in IH. rewrite Nat.add_1_r in IH.
  rewrite <- !app_assoc in IH. exact IH.
Qed.
Lemma shift_rows pre l n : for_range (N.of_nat (length pre)) (N.of_nat (length (pre ++ l)))
    (fun k ix => c <- at_ ix k ;; set_ ix k (sub32 (fst c) n, sub32 (snd c) n)) (pre ++ l) =
  Ok (pre ++ map (fun c : row_ix => (sub32 (fst c) n, sub32 (snd c) n)) l).
Proof.
  unfold for_range. rewrite !Nat2N.id, app_length. replace (length pre + length l - length pre) with (length l) by lia.
  rewrite <- map_suffix. apply for_up_ext. intros i st _. rewrite at_nat. destruct (rd st i); cbn [bind]; auto. apply set_nat.
Qed.

(* entries of rows that may have become empty *)
Definition entry (s n : nat) : row_ix := (N.of_nat s, sub32 (N.of_nat (s + n)) 1).
Fixpoint eindexed (s : nat) (rs : list (list tok)) : list row_ix :=
  match rs with [] => [] | r :: rs => entry s (length r) :: eindexed (s + length r) rs end.
Lemma eindexed_length s rs : length (eindexed s rs) = length rs.
Proof. revert s. induction rs; intros s; cbn; auto. Qed.
Lemma eindexed_app s a b : eindexed s (a ++ b) = eindexed s a ++ eindexed (s + length (concat a)) b.
Proof.
  revert s. induction a as [|r a IH]; intros s; cbn [app eindexed concat length]; [now rewrite Nat.add_0_r|].
  rewrite IH, app_length. do 3 f_equal. lia.
Qed.
Lemma eindexed_ok rs : Forall (fun r => r <> []) rs -> forall s, small (s + length (concat rs)) -> eindexed s rs = indexed s rs.
Proof.
  induction 1 as [|r rs Hr _ IH]; intros s Hs; [reflexivity|]. cbn [eindexed indexed]. cbn [concat] in Hs. rewrite app_length in Hs.
  rewrite IH by (eapply small_le; [|exact Hs]; lia). f_equal. unfold entry. assert (0 < length r) by (destruct r; [congruence|cbn; lia]).
  unfold small in Hs. rewrite sub32_small by lia. f_equal. lia.
Qed.
Lemma sub32_two x r : (1 <= x)%N -> (r <= x)%N -> (x < 2 ^ 32)%N -> sub32 (x - 1) r = sub32 (x - r) 1.
Proof.
  intros H1 H2 H3. unfold sub32. rewrite (u32_small r) by lia. rewrite (u32_small 1) by reflexivity. unfold u32. change (2 ^ 32)%N with 4294967296%N in *. f_equal. lia.
Qed.
Lemma shift_entries rs n : Forall (fun r => r <> []) rs -> forall s, small (s + n + length (concat rs)) ->
  map (fun c : row_ix => (sub32 (fst c) (N.of_nat n), sub32 (snd c) (N.of_nat n))) (eindexed (s + n) rs) = eindexed s rs.
Proof.
  induction 1 as [|r rs Hr _ IH]; intros s Hs; [reflexivity|]. cbn [eindexed map]. cbn [concat] in Hs. rewrite app_length in Hs.
  unfold small in *. assert (0 < length r) by (destruct r; [congruence|cbn; lia]).
  replace (s + n + length r) with (s + length r + n) by lia. rewrite IH by (unfold small; lia). f_equal. unfold entry. cbn [fst snd].
  rewrite (sub32_small (N.of_nat (s + n))) by lia. rewrite (sub32_small (N.of_nat (s + n + length r))) by lia.
  rewrite sub32_two by lia. f_equal; [lia|]. f_equal. lia.
Qed.
Lemma entry_count s n : small (s + n) -> token_count (entry s n) = N.of_nat n.
Proof.
  intros Hs. unfold token_count, entry. cbn [fst snd]. unfold small in Hs. destruct n as [|n].
  - rewrite Nat.add_0_r in *. unfold sub32, u32. change (2 ^ 32)%N with 4294967296%N in *. rewrite (N.mod_small 1) by reflexivity. rewrite (N.mod_small (N.of_nat s)) by lia.
    destruct s as [|s].
    + reflexivity.
    + replace (N.of_nat (S s) + 4294967296 - 1)%N with (N.of_nat s + 1 * 4294967296)%N by lia. rewrite N.mod_add by lia. rewrite (N.mod_small (N.of_nat s)) by lia.
      replace (N.of_nat s + 4294967296 - N.of_nat (S s))%N with 4294967295%N by lia. reflexivity.
  - rewrite (sub32_small (N.of_nat (s + S n))) by lia. rewrite sub32_small by lia. rewrite u32_small by lia. lia.
Qed.

Lemma represents_e g rs : represents g rs <-> tokens g = concat rs /\ rows g = eindexed 0 rs /\ Forall (fun r => r <> []) rs /\ small (length (concat rs)).
Proof.
  split; intros (H1 & H2 & H3 & H4); (split; [exact H1|]); (split; [|split; [exact H3|exact H4]]); rewrite H2; [symmetry|]; now apply eindexed_ok.
Qed.

Lemma concat_split_small (a b : list (list tok)) : small (length (concat (a ++ b))) -> small (length (concat a) + length (concat b)).
Proof. now rewrite concat_app_len. Qed.

Lemma remove_row_ok g rs i : represents g rs -> exists g', remove_row g (N.of_nat i) = Ok g' /\
  represents g' (firstn i rs ++ skipn (S i) rs) /\ min_c g' = min_c g /\ max_c g' = max_c g.
Proof.
  intros Hg. unfold remove_row. rewrite (row_count_ok _ _ Hg). destruct (N.ltb_spec (N.of_nat i) (N.of_nat (length rs))) as [Hlt|Hge].
  2:{ exists g. rewrite firstn_all2, skipn_all2, app_nil_r by lia. auto. }
  destruct (nth_error rs i) as [r|] eqn:Hi; [|apply nth_error_None in Hi; lia].
  destruct (nth_error_split _ _ Hi) as (a & b & -> & Hl). apply represents_e in Hg as (H1 & H2 & H3 & H4).
  apply Forall_app in H3 as [H3a H3b]. inversion H3b as [|? ? Hr H3c]; subst. 
  rewrite concat_app_len in H4. cbn [concat] in H4. rewrite app_length in H4. unfold small in H4.
  rewrite H1, H2, concat_app, eindexed_app. cbn [eindexed concat plus].
  rewrite (firstn_app_len a (r :: b)). replace (skipn (S (length a)) (a ++ r :: b)) with b
    by (rewrite skipn_app, skipn_all2 by lia; replace (S (length a) - length a) with 1 by lia; reflexivity).
  rewrite at_nat. rewrite (rd_nth _ _ (entry (length (concat a)) (length r)))
    by (rewrite nth_error_app2 by (rewrite eindexed_length; lia); rewrite eindexed_length, Nat.sub_diag; reflexivity). cbn [bind].
  rewrite entry_count by (unfold small; lia). unfold entry at 1. cbn [fst]. unfold erase_at at 1. rewrite !app_length.
  rewrite (proj2 (N.leb_le _ _)) by lia. cbn [bind]. rewrite !Nat2N.id. rewrite firstn_app_len, skipn_app, skipn_all2 by lia.
  replace (length (concat a) + length r - length (concat a)) with (length r) by lia. rewrite skipn_app_len. cbn [app].
  unfold erase_at. rewrite app_length. cbn [length]. rewrite !eindexed_length. rewrite (proj2 (N.leb_le _ _)) by lia. cbn [bind].
  rewrite Nat2N.id. change (N.to_nat 1) with 1. rewrite firstn_app, skipn_app, eindexed_length, Nat.sub_diag.
  rewrite (firstn_all2 (n := length a)) by (rewrite eindexed_length; lia). rewrite (skipn_all2 (n := length a + 1)) by (rewrite eindexed_length; lia).
  replace (length a + 1 - length a) with 1 by lia. cbn [app skipn firstn]. rewrite app_nil_r.
  replace (N.of_nat (length a)) with (N.of_nat (length (eindexed 0 a))) by now rewrite eindexed_length. rewrite shift_rows. cbn [bind]. rewrite shift_entries; [|exact H3c|unfold small; lia].
  eexists. split; [reflexivity|]. split; [|split; reflexivity].
  apply represents_e. unfold with_store. cbn [tokens rows]. split; [now rewrite concat_app|]. split; [now rewrite eindexed_app|].
  split; [apply Forall_app; auto|]. rewrite concat_app_len. unfold small. lia.
Qed.

(* ------------------------------------------------------------------ *)
(* removal by a list of indices: masks *)
Fixpoint keep {A} (m : list bool) (l : list A) : list A :=
  match m, l with b :: m, x :: l => if b : bool then keep m l else x :: keep m l | _, _ => [] end.
Fixpoint pos (k : nat) (m : list bool) : list nat :=
  match m with [] => [] | b :: m => if b : bool then k :: pos (S k) m else pos (S k) m end.
Lemma pos_app m m' : forall k, pos k (m ++ m') = pos k m ++ pos (k + length m) m'.
Proof.
  induction m as [|b m IH]; intros k; cbn [app pos length]; [now rewrite Nat.add_0_r|].
  rewrite IH. replace (S k + length m) with (k + S (length m)) by lia. destruct b; reflexivity.
Qed.
Lemma pos_len m : forall k k', length (pos k m) = length (pos k' m).
Proof. induction m as [|b m IH]; intros k k'; cbn; auto. destruct b; cbn; rewrite (IH (S k) (S k')); reflexivity. Qed.
Lemma pos_le m : forall k, length (pos k m) <= length m.
Proof. induction m as [|b m IH]; intros k; cbn; auto. specialize (IH (S k)). destruct b; cbn; lia. Qed.
Lemma keep_app {A} m m' (l l' : list A) : length m = length l -> keep (m ++ m') (l ++ l') = keep m l ++ keep m' l'.
Proof.
  revert l. induction m as [|b m IH]; intros [|x l] H; try discriminate; [reflexivity|]. cbn [app keep]. rewrite IH by (cbn in H; lia). destruct b; reflexivity.
Qed.
Lemma keep_len {A} m (l : list A) k : length m = length l -> length (keep m l) + length (pos k m) = length l.
Proof.
  revert l k. induction m as [|b m IH]; intros [|x l] k H; try discriminate; [reflexivity|]. cbn [keep pos].
  specialize (IH l (S k) ltac:(cbn in H; lia)). destruct b; cbn [length]; lia.
Qed.
Lemma keep_false {A} (l : list A) : keep (repeat false (length l)) l = l.
Proof. induction l; cbn; congruence. Qed.
Lemma pos_false n : forall k, pos k (repeat false n) = [].
Proof. induction n; intros k; cbn; auto. Qed.
Lemma pos_true n : forall k, pos k (repeat true n) = seq k n.
Proof. induction n; intros k; cbn; auto. now rewrite IHn. Qed.
Lemma keep_true {A} n (l : list A) : keep (repeat true n) l = [].
Proof. revert l. induction n; intros [|x l]; cbn; auto. Qed.
Lemma keep_filter {A} (q : A -> bool) l : keep (map q l) l = filter (fun x => negb (q x)) l.
Proof. induction l as [|x l IH]; cbn; auto. rewrite IH. destruct (q x); reflexivity. Qed.
Lemma pos_none {A} m (l : list A) k : length m = length l -> pos k m = [] -> keep m l = l.
Proof.
  revert l k. induction m as [|b m IH]; intros [|x l] k H E; try discriminate; [reflexivity|]. cbn [pos keep] in *. destruct b; [discriminate|].
  f_equal. eapply IH; [cbn in H; lia|exact E].
Qed.

Lemma remove_indices_ok {A} (m : list bool) (s0 : list A) : length m = length s0 -> pos 0 m <> [] ->
  remove_indices (map N.of_nat (pos 0 m)) s0 = Ok (keep m s0).
Proof.
  intros Hm Hp. unfold remove_indices.
  match goal with |- context [loop _ ?bd _] => set (body := bd) end.
  assert (G : forall m rest kp jk idx chk fuel, length m = length rest -> length rest < fuel ->
    (pos (length kp + length jk) m <> [] -> idx = N.of_nat (length kp + length jk) /\ chk = true) ->
    (pos (length kp + length jk) m = [] -> chk = false) ->
    exists jk', loop fuel body (kp ++ jk ++ rest, length kp + length jk, length kp, length jk,
        Remover (map N.of_nat (pos (length kp + length jk) m)) idx chk) =
      Ok ((kp ++ keep m rest) ++ jk', length jk')).
  { clear m s0 Hm Hp. induction m as [|b m IH]; intros [|x rest] kp jk idx chk fuel Hl Hf H1 H2; try discriminate;
      (destruct fuel as [|fuel]; [cbn in Hf; lia|]); cbn [loop]; unfold body at 1; rewrite !app_length; cbn [length].
    - rewrite (proj2 (Nat.eqb_eq _ _)) by lia. exists jk. cbn [keep]. now rewrite !app_nil_r.
    - rewrite (proj2 (Nat.eqb_neq _ _)) by lia. cbn [length] in Hl, Hf. cbn [pos] in H1, H2 |- *.
      destruct b.
      + destruct (H1 ltac:(discriminate)) as [-> ->]. unfold remover_step. cbn [map rem_check rem_itr rem_index]. rewrite N.eqb_refl. cbn [bind keep].
        destruct (IH rest kp (jk ++ [x]) (N.of_nat (length kp + length jk) + 1)%N
          (match map N.of_nat (pos (S (length kp + length jk)) m) with [] => false | _ :: _ => true end) fuel) as (jk' & E); try lia.
        * rewrite app_length. cbn [length]. replace (length kp + (length jk + 1)) with (S (length kp + length jk)) by lia.
          intros Hne. destruct (pos (S (length kp + length jk)) m) eqn:E; [congruence|]. cbn. split; [lia|reflexivity].
        * rewrite app_length. cbn [length]. replace (length kp + (length jk + 1)) with (S (length kp + length jk)) by lia. intros ->. reflexivity.
        * exists jk'. rewrite <- E. rewrite app_length, <- !app_assoc. cbn [length app].
          replace (length kp + (length jk + 1)) with (S (length kp + length jk)) by lia. replace (length jk + 1) with (S (length jk)) by lia. reflexivity.
      + assert (Estep : exists idx', remover_step (Remover (map N.of_nat (pos (S (length kp + length jk)) m)) idx chk) =
           Ok (Remover (map N.of_nat (pos (S (length kp + length jk)) m)) idx' chk, false) /\
           (pos (S (length kp + length jk)) m <> [] -> idx' = N.of_nat (S (length kp + length jk)) /\ chk = true) /\
           (pos (S (length kp + length jk)) m = [] -> chk = false)).
        { destruct (pos (S (length kp + length jk)) m) as [|k l] eqn:E.
          - rewrite (H2 eq_refl). cbn. exists idx. split; [reflexivity|]. split; [congruence|reflexivity].
          - destruct (H1 ltac:(discriminate)) as [-> ->]. cbn [map remover_step rem_check rem_itr rem_index].
            assert (Hk : S (length kp + length jk) <= k).
            { clear - E. revert E. generalize (S (length kp + length jk)) as z. induction m as [|b m IH]; intros z E; [discriminate|]. cbn in E.
              destruct b; [injection E; lia|]. specialize (IH _ E). lia. }
            unfold remover_step. cbn [rem_check rem_itr rem_index]. rewrite (proj2 (N.eqb_neq _ _)) by lia. eexists. split; [reflexivity|].
            split; [intros _; split; [lia|reflexivity]|discriminate]. }
        destruct Estep as (idx' & -> & H1' & H2'). cbn [bind keep].
        destruct jk as [|y jk].
        * cbn [length app] in *. rewrite Nat.add_0_r in *. rewrite Nat.eqb_refl. cbn [negb bind].
          destruct (IH rest (kp ++ [x]) [] idx' chk fuel) as (jk' & E); try lia.
          -- rewrite app_length. cbn [length]. rewrite Nat.add_0_r, Nat.add_1_r. exact H1'.
          -- rewrite app_length. cbn [length]. rewrite Nat.add_0_r, Nat.add_1_r. exact H2'.
          -- exists jk'. rewrite app_length in E. cbn [length app] in E. rewrite Nat.add_0_r, Nat.add_1_r, <- !app_assoc in E. cbn [app] in E.
             rewrite <- !app_assoc. cbn [app]. exact E.
        * rewrite (proj2 (Nat.eqb_neq _ _)) by (cbn [length]; lia). cbn [negb].
          assert (Erd : rd (kp ++ (y :: jk) ++ x :: rest) (length kp + length (y :: jk)) = Ok x).
          { rewrite app_assoc. rewrite <- app_length. apply rd_here. }
          cbn [app length] in Erd |- *. rewrite Erd. cbn [bind]. rewrite wr_here. cbn [bind].
          destruct (IH rest (kp ++ [x]) (jk ++ [x]) idx' chk fuel) as (jk' & E); try lia.
          -- rewrite !app_length. cbn [length]. cbn [length] in H1'. replace (length kp + 1 + (length jk + 1)) with (S (length kp + S (length jk))) by lia. exact H1'.
          -- rewrite !app_length. cbn [length]. cbn [length] in H2'. replace (length kp + 1 + (length jk + 1)) with (S (length kp + S (length jk))) by lia. exact H2'.
          -- exists jk'. rewrite !app_length in E. cbn [length] in *. replace (length kp + 1 + (length jk + 1)) with (S (length kp + S (length jk))) in E by lia.
             replace (length kp + 1) with (S (length kp)) in E by lia. replace (length jk + 1) with (S (length jk)) in E by lia.
             rewrite <- !app_assoc in E. cbn [app] in E. rewrite <- !app_assoc. cbn [app]. exact E. }
  destruct (G m s0 [] [] 0%N true (S (length s0)) Hm ltac:(lia)) as (jk' & E).
  - auto.
  - intros E. cbn in E. congruence.
  - cbn [app length plus] in E. rewrite E. cbn [bind]. rewrite app_length. replace (length (keep m s0) + length jk' - length jk') with (length (keep m s0)) by lia.
    now rewrite firstn_app_len.
Qed.

(* ------------------------------------------------------------------ *)
(* the common end of both removal functions *)
Definition isnil (r : list tok) : bool := negb (nonempty r).
Lemma keep_rows rs : forall s, keep (map isnil rs) (eindexed s rs) = eindexed s (filter nonempty rs).
Proof.
  induction rs as [|r rs IH]; intros s; [reflexivity|]. cbn [map eindexed keep filter]. unfold isnil at 1. destruct r as [|t r]; cbn [nonempty negb].
  - cbn [length]. rewrite Nat.add_0_r. apply IH.
  - cbn [eindexed]. now rewrite IH.
Qed.
Lemma concat_filter_nonempty (rs : list (list tok)) : concat (filter nonempty rs) = concat rs.
Proof. induction rs as [|r rs IH]; [reflexivity|]. cbn [filter concat]. destruct r; cbn [nonempty concat]; now rewrite IH. Qed.
Lemma forall_filter_nonempty (rs : list (list tok)) : Forall (fun r => r <> []) (filter nonempty rs).
Proof. apply Forall_forall. intros r H. apply filter_In in H as [_ H]. destruct r; [discriminate|congruence]. Qed.

Lemma mask_list {A} (pre mid post : list A) (m : list bool) : length m = length mid ->
  (match map N.of_nat (pos (length pre) m) with [] => Ok (pre ++ mid ++ post) | _ => remove_indices (map N.of_nat (pos (length pre) m)) (pre ++ mid ++ post) end) =
  Ok (pre ++ keep m mid ++ post).
Proof.
  intros Hm. destruct (pos (length pre) m) as [|k l] eqn:E.
  - cbn [map]. now rewrite (pos_none _ _ _ Hm E).
  - cbn [map]. set (M := repeat false (length pre) ++ m ++ repeat false (length post)).
    assert (EM : pos 0 M = k :: l).
    { unfold M. rewrite !pos_app, !pos_false, app_nil_r. cbn [app plus]. rewrite repeat_length. exact E. }
    change (N.of_nat k :: map N.of_nat l) with (map N.of_nat (k :: l)). rewrite <- EM. rewrite remove_indices_ok.
    + unfold M. rewrite keep_app by apply repeat_length. rewrite keep_app by exact Hm. now rewrite !keep_false.
    + unfold M. rewrite !app_length, !repeat_length. lia.
    + rewrite EM. discriminate.
Qed.

Lemma finish_ok g (pre mid post : list (list tok)) (m : list bool) (kept : list (list tok)) :
  tokens g = concat pre ++ concat mid ++ concat post -> Forall (fun r => r <> []) pre -> Forall (fun r => r <> []) post ->
  small (length (tokens g)) -> length m = length (concat mid) -> keep m (concat mid) = concat kept -> length kept = length mid ->
  exists g', finish_removal g (eindexed 0 pre ++ eindexed (length (concat pre)) kept ++ eindexed (length (concat pre) + length (concat mid)) post)
      (N.of_nat (length pre + length mid)) (N.of_nat (length (pos 0 m)))
      (map N.of_nat (pos (length pre) (map isnil kept))) (map N.of_nat (pos (length (concat pre)) m)) = Ok g' /\
    represents g' (pre ++ filter nonempty kept ++ post) /\ min_c g' = min_c g /\ max_c g' = max_c g.
Proof.
  intros Ht Hpre Hpost Hs Hm Hk Hl. unfold finish_removal. rewrite Ht, !app_length in Hs. unfold small in Hs.
  pose proof (keep_len m (concat mid) 0 Hm) as Hcount. rewrite Hk in Hcount.
  rewrite app_assoc. replace (length pre + length mid) with (length (eindexed 0 pre ++ eindexed (length (concat pre)) kept)) by (rewrite app_length, !eindexed_length; lia).
  rewrite shift_rows. cbn [bind].
  replace (length (concat pre) + length (concat mid)) with (length (concat pre) + length (concat kept) + length (pos 0 m)) by lia.
  rewrite shift_entries; [|exact Hpost|unfold small; lia]. rewrite <- app_assoc.
  replace (pos (length pre) (map isnil kept)) with (pos (length (eindexed 0 pre)) (map isnil kept)) by now rewrite eindexed_length.
  rewrite mask_list by now rewrite map_length, eindexed_length. cbn [bind]. rewrite keep_rows.
  rewrite Ht. rewrite mask_list by exact Hm. cbn [bind]. rewrite Hk. eexists. split; [reflexivity|]. split; [|split; reflexivity].
  apply represents_e. unfold with_store. cbn [tokens rows]. split; [now rewrite !concat_app, concat_filter_nonempty|].
  split; [now rewrite !eindexed_app, concat_filter_nonempty|]. split.
  - apply Forall_app. split; [exact Hpre|]. apply Forall_app. split; [apply forall_filter_nonempty|exact Hpost].
  - rewrite !concat_app_len, concat_filter_nonempty. unfold small. lia.
Qed.
