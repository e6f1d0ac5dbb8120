(* Proofs about Bloom filters. *)
From Verif Require Import Base Bloom_Model Bloom_Spec.
Open Scope N_scope.

(* hashing always succeeds *)
Lemma byte_at_ok k i : (i < length k)%nat -> exists v, byte_at k i = Ok v.
Proof.
  intros H. unfold byte_at. destruct (nth_error k i) as [c|] eqn:E.
  - unfold rd. rewrite E. eexists. reflexivity.
  - apply nth_error_None in E. lia.
Qed.

Lemma u16_at_ok k i : (i + 1 < length k)%nat -> exists v, u16_at k i = Ok v.
Proof.
  intros H. unfold u16_at. destruct (byte_at_ok k i) as [a ->]; [lia|].
  destruct (byte_at_ok k (i + 1)) as [b ->]; [lia|]. eexists. reflexivity.
Qed.

Lemma u32_at_ok k i : (i + 3 < length k)%nat -> exists v, u32_at k i = Ok v.
Proof.
  intros H. unfold u32_at. destruct (u16_at_ok k i) as [a ->]; [lia|].
  destruct (u16_at_ok k (i + 2)) as [b ->]; [lia|]. eexists. reflexivity.
Qed.

Lemma hash_ap_ok k s : exists h, hash_ap k s = Ok h.
Proof.
  enough (H : holds (hash_ap k s) (fun _ => True)).
  { apply holds_ex in H. destruct H as (h & E & _). eauto. }
  unfold hash_ap.
  eapply holds_bind2 with (P := fun st => let '(itr, rem, h) := st in (itr + rem = length k)%nat).
  - apply (loop_rule (fun st : nat * nat * N => let '(itr, rem, h) := st in (itr + rem = length k)%nat)
             (fun st => snd (fst st))).
    2:{ lia. }
    2:{ cbn [fst snd]. lia. }
    intros [[itr rem] h] Hi. destruct (Nat.leb_spec 8 rem); [|exact Hi].
    destruct (u32_at_ok k itr) as [a ->]; [lia|]. destruct (u32_at_ok k (itr + 4)) as [b ->]; [lia|].
    cbn. lia.
  - intros [[itr rem] h] Hi. destruct (Nat.eqb_spec rem 0); [exact I|].
    eapply holds_bind2 with (P := fun st => let '(itr, rem, h, lp) := st in (itr + rem = length k)%nat).
    + destruct (Nat.leb_spec 4 rem); [|exact Hi].
      destruct (u32_at_ok k itr) as [a ->]; [lia|]. cbn. lia.
    + intros [[[itr1 rem1] h1] lp1] Hi1.
      eapply holds_bind2 with (P := fun st => let '(itr, rem, h, lp) := st in (itr + rem = length k)%nat).
      * destruct (Nat.leb_spec 2 rem1); [|exact Hi1].
        destruct (u16_at_ok k itr1) as [a ->]; [lia|]. cbn. lia.
      * intros [[[itr2 rem2] h2] lp2] Hi2. destruct (Nat.eqb_spec rem2 0); [exact I|].
        destruct (byte_at_ok k itr2) as [a ->]; [lia|]. exact I.
Qed.

Definition hsh (k : key) (s : N) : N := match hash_ap k s with Ok h => h | _ => 0 end.
Lemma hsh_ok k s : hash_ap k s = Ok (hsh k s).
Proof. unfold hsh. destruct (hash_ap_ok k s) as [h ->]. reflexivity. Qed.

(* successive reductions *)
Definition red (l : list N) (x : N) : N := fold_left N.modulo l x.

Lemma reduce_ok l : Forall (fun m => 0 < m) l -> forall x, reduce l x = Ok (red l x).
Proof.
  induction 1 as [|m l Hm _ IH]; intros x; [reflexivity|].
  cbn [reduce]. destruct (N.eqb_spec m 0); [lia|]. apply IH.
Qed.

Lemma red_lt l x : l <> [] -> Forall (fun m => 0 < m) l -> red l x < last l 0.
Proof.
  intros Hne. destruct (exists_last Hne) as [l' [m ->]]. intros H.
  rewrite last_last. unfold red. rewrite fold_left_app. cbn [fold_left].
  apply N.mod_lt. rewrite Forall_app in H. destruct H as [_ H]. inversion H; subst. lia.
Qed.

(* bits of a table *)
Definition bit (t : list N) (i : N) : bool := N.testbit (nth (N.to_nat (i / 8)) t 0) (i mod 8).

Definition wf (f : filter) (t : list N) : Prop :=
  bit_table f = Some t /\ sizes f <> [] /\ Forall (fun m => 0 < m) (sizes f) /\
  last (sizes f) 0 = 8 * N.of_nat (length t).

Definition pos (f : filter) (k : key) : list N := map (fun s => red (sizes f) (hsh k s)) (salt f).

Lemma mask_ok b : b < 8 -> rd bit_mask (N.to_nat b) = Ok (2 ^ b).
Proof.
  intros H. assert (b = 0 \/ b = 1 \/ b = 2 \/ b = 3 \/ b = 4 \/ b = 5 \/ b = 6 \/ b = 7) by lia.
  intuition subst; reflexivity.
Qed.

Lemma land_pow c b : (N.land c (2 ^ b) =? 2 ^ b) = N.testbit c b.
Proof.
  destruct (N.testbit c b) eqn:E.
  - apply N.eqb_eq. apply N.bits_inj. intros n. rewrite N.land_spec.
    destruct (N.eq_dec n b) as [->|Hn].
    + now rewrite E, N.pow2_bits_true.
    + rewrite N.pow2_bits_false by congruence. apply andb_false_r.
  - apply N.eqb_neq. intros H. assert (N.testbit (N.land c (2 ^ b)) b = N.testbit (2 ^ b) b) by now rewrite H.
    rewrite N.land_spec, E, N.pow2_bits_true in H0. discriminate.
Qed.

Lemma rd_nth0 (t : list N) j : (j < length t)%nat -> rd t j = Ok (nth j t 0).
Proof. intros H. unfold rd. now rewrite (nth_error_nth' t 0 H). Qed.

Lemma nth_upd (t : list N) j v : (j < length t)%nat -> forall n, nth n (upd t j v) 0 = if (n =? j)%nat then v else nth n t 0.
Proof.
  revert j. induction t as [|x t IH]; intros j Hj n; [simpl in Hj; lia|].
  destruct j as [|j]; destruct n as [|n]; try reflexivity.
  cbn [upd nth]. apply (IH j). simpl in Hj. lia.
Qed.

Lemma wr_upd (t : list N) j v : (j < length t)%nat -> wr t j v = Ok (upd t j v).
Proof.
  intros H. unfold wr. destruct (Nat.ltb_spec j (length t)); [reflexivity|lia].
Qed.

Lemma bit_upd t j b v i : (N.to_nat j < length t)%nat -> b < 8 -> v = N.lor (nth (N.to_nat j) t 0) (2 ^ b) ->
  bit (upd t (N.to_nat j) v) i = bit t i || (i =? 8 * j + b).
Proof.
  intros Hj Hb ->. unfold bit. rewrite nth_upd by auto.
  pose proof (N.div_mod i 8 ltac:(lia)). pose proof (N.mod_lt i 8 ltac:(lia)).
  destruct (Nat.eqb_spec (N.to_nat (i / 8)) (N.to_nat j)) as [E|E].
  - assert (Ej : i / 8 = j) by lia. rewrite Ej, N.lor_spec. f_equal.
    destruct (N.eqb_spec i (8 * j + b)).
    + replace (i mod 8) with b by lia. apply N.pow2_bits_true.
    + apply N.pow2_bits_false. lia.
  - destruct (N.eqb_spec i (8 * j + b)); [|now rewrite orb_false_r].
    exfalso. apply E. f_equal. subst i. rewrite N.mul_comm, N.div_add_l by lia.
    rewrite N.div_small by lia. lia.
Qed.

Lemma pos_range f t s k : wf f t -> red (sizes f) (hsh k s) < 8 * N.of_nat (length t).
Proof. intros (_ & H1 & H2 & <-). now apply red_lt. Qed.

Lemma insert_salts_ok f t0 k : wf f t0 -> forall ss t, length t = length t0 ->
  exists t', insert_salts f k ss t = Ok t' /\ length t' = length t0 /\
    forall i, bit t' i = bit t i || existsb (N.eqb i) (map (fun s => red (sizes f) (hsh k s)) ss).
Proof.
  intros Hw. induction ss as [|s ss IH]; intros t Ht.
  - exists t. cbn. repeat split; auto. intros i. now rewrite orb_false_r.
  - cbn [insert_salts map existsb]. rewrite hsh_ok. cbn [bind]. unfold compute_indices.
    pose proof Hw as (_ & _ & Hf & _). rewrite reduce_ok by auto. cbn [bind].
    pose proof (pos_range f t0 s k Hw) as Hp. set (p := red (sizes f) (hsh k s)) in *.
    assert (Hb : p mod bits_per_char < 8) by (apply N.mod_lt; discriminate).
    rewrite mask_ok by auto. cbn [bind].
    assert (Hj : (N.to_nat (p / bits_per_char) < length t)%nat).
    { rewrite Ht. change bits_per_char with 8.
      assert (p / 8 < N.of_nat (length t0)) by (apply N.div_lt_upper_bound; lia). lia. }
    rewrite rd_nth0 by auto. cbn [bind]. rewrite wr_upd by auto. cbn [bind].
    destruct (IH (upd t (N.to_nat (p / bits_per_char))
                    (N.lor (nth (N.to_nat (p / bits_per_char)) t 0) (2 ^ (p mod bits_per_char)))))
      as (t' & E & Hl & Hbits).
    { now rewrite upd_length. }
    exists t'. split; [exact E|]. split; [exact Hl|]. intros i. rewrite Hbits.
    rewrite (bit_upd t (p / 8) (p mod 8)) by auto.
    rewrite <- orb_assoc. do 2 f_equal.
    assert (Hd : p = 8 * (p / 8) + p mod 8) by (apply N.div_mod; lia). now rewrite <- Hd.
Qed.

Lemma contains_salts_ok f t k : wf f t -> forall ss,
  contains_salts f k ss t = Ok (forallb (bit t) (map (fun s => red (sizes f) (hsh k s)) ss)).
Proof.
  intros Hw. induction ss as [|s ss IH]; [reflexivity|].
  cbn [contains_salts map forallb]. rewrite hsh_ok. cbn [bind]. unfold compute_indices.
  pose proof Hw as (_ & _ & Hf & _). rewrite reduce_ok by auto. cbn [bind].
  pose proof (pos_range f t s k Hw) as Hp. set (p := red (sizes f) (hsh k s)) in *.
  assert (Hb : p mod bits_per_char < 8) by (apply N.mod_lt; discriminate).
  rewrite mask_ok by auto. cbn [bind].
  assert (Hj : (N.to_nat (p / bits_per_char) < length t)%nat).
  { change bits_per_char with 8.
    assert (p / 8 < N.of_nat (length t)) by (apply N.div_lt_upper_bound; lia). lia. }
  rewrite rd_nth0 by auto. cbn [bind]. rewrite land_pow.
  change (N.testbit (nth (N.to_nat (p / bits_per_char)) t 0) (p mod bits_per_char)) with (bit t p).
  destruct (bit t p); cbn [negb andb]; auto.
Qed.

Lemma insert_ok f t k : wf f t -> exists t' f',
  insert f k = Ok f' /\ f' = set_count (set_table f t') (u32 (inserted_count f + 1)) /\
  wf f' t' /\ length t' = length t /\
  (forall i, bit t' i = bit t i || existsb (N.eqb i) (pos f k)).
Proof.
  intros Hw. destruct (insert_salts_ok f t k Hw (salt f) t eq_refl) as (t' & E & Hl & Hb).
  pose proof Hw as (Ht & H1 & H2 & H3).
  exists t'. eexists. unfold insert, table. rewrite Ht. cbn [bind]. rewrite E. cbn [bind].
  split; [reflexivity|]. split; [reflexivity|]. split; [|auto].
  split; [reflexivity|]. cbn [sizes set_count set_table]. rewrite Hl. auto.
Qed.

Lemma contains_ok f t k : wf f t -> contains f k = Ok (forallb (bit t) (pos f k)).
Proof.
  intros Hw. unfold contains. pose proof (contains_salts_ok f t k Hw (salt f)) as H.
  pose proof Hw as (Ht & _). unfold table. rewrite Ht. cbn [bind].
  unfold pos. destruct (salt f) as [|s ss]; auto.
Qed.

(* pointwise combination *)
Lemma combine_loop (op : N -> N -> N) u n t : (n <= length t)%nat -> (n <= length u)%nat ->
  holds (for_up 0 n (fun i t => a <- rd t i ;; b <- rd u i ;; wr t i (op a b)) t)
    (fun t' => length t' = length t /\
       forall j, nth j t' 0 = if (j <? n)%nat then op (nth j t 0) (nth j u 0) else nth j t 0).
Proof.
  intros Ht Hu.
  pose proof (for_up_rule (S := list N) (fun i t' => length t' = length t /\
       forall j, nth j t' 0 = if (j <? i)%nat then op (nth j t 0) (nth j u 0) else nth j t 0)) as R.
  eapply holds_weaken; [apply R|].
  - intros i s Hi [Hl Hn]. rewrite (rd_nth0 s), (rd_nth0 u) by lia. cbn [bind].
    rewrite wr_upd by lia. cbn [holds]. rewrite upd_length. split; auto.
    intros j. rewrite nth_upd by lia. rewrite !Hn.
    destruct (Nat.eqb_spec j i) as [->|Hj].
    + replace (i <? i)%nat with false by (symmetry; apply Nat.ltb_irrefl).
      replace (i <? S i)%nat with true by (symmetry; apply Nat.ltb_lt; lia). reflexivity.
    + destruct (Nat.ltb_spec j i); destruct (Nat.ltb_spec j (S i)); auto; lia.
  - split; auto.
  - intros t' H. exact H.
Qed.

(* uncompressed filters *)
Definition plain (f : filter) (t : list N) : Prop :=
  wf f t /\ sizes f = [tsize f] /\ N.to_nat (raw_table_size f) = length t.

Lemma bit_out t i : 8 * N.of_nat (length t) <= i -> bit t i = false.
Proof.
  intros H. unfold bit. rewrite nth_overflow; [apply N.bits_0|].
  assert (N.of_nat (length t) <= i / 8) by (apply N.div_le_lower_bound; lia). lia.
Qed.

Lemma combine_ok op opb f g t u : plain f t -> plain g u -> compatible f g = true ->
  (forall a b n, N.testbit (op a b) n = opb (N.testbit a n) (N.testbit b n)) -> opb false false = false ->
  length t = length u ->
  exists t', combine op f g = Ok (set_table f t') /\ plain (set_table f t') t' /\ length t' = length t /\
    forall i, bit t' i = opb (bit t i) (bit u i).
Proof.
  intros (Hw & Hs & Hr) (Hwg & Hsg & Hrg) Hc Hop H00 Hlen. unfold combine. rewrite Hc.
  pose proof Hw as (Ht & Hw'). pose proof Hwg as (Hu & _). unfold table. rewrite Ht, Hu. cbn [bind].
  assert (H : holds (for_up 0 (N.to_nat (raw_table_size f))
       (fun i t => a <- rd t i ;; b <- rd u i ;; wr t i (op a b)) t)
    (fun t' => length t' = length t /\
       forall j, nth j t' 0 = if (j <? N.to_nat (raw_table_size f))%nat then op (nth j t 0) (nth j u 0) else nth j t 0)).
  { apply combine_loop; lia. }
  apply holds_ex in H. destruct H as (t' & E & Hl & Hn). rewrite E. cbn [bind].
  exists t'. split; [reflexivity|]. split; [|split; [exact Hl|]].
  - split; [|split; [exact Hs|]].
    + split; [reflexivity|]. cbn [sizes set_table]. rewrite Hl. exact Hw'.
    + cbn [raw_table_size set_table]. lia.
  - intros i. unfold bit. rewrite Hn, Hr. destruct (Nat.ltb_spec (N.to_nat (i / 8)) (length t)).
    + apply Hop.
    + rewrite !nth_overflow by lia. rewrite N.bits_0. now rewrite H00.
Qed.

Lemma repeat_bit n i : bit (repeat 0 n) i = false.
Proof.
  unfold bit. destruct (nth_in_or_default (N.to_nat (i / 8)) (repeat 0 n) 0) as [H|H].
  - apply repeat_spec in H. rewrite H. apply N.bits_0.
  - rewrite H. apply N.bits_0.
Qed.

Lemma clear_ok f t : plain f t -> exists f', clear f = Ok f' /\
  f' = set_count (set_table f (repeat 0 (length t))) 0 /\ plain f' (repeat 0 (length t)).
Proof.
  intros (Hw & Hs & Hr). pose proof Hw as (Ht & Hw'). unfold clear, table. rewrite Ht. cbn [bind].
  rewrite Hr. replace (length t <? length t)%nat with false by (symmetry; apply Nat.ltb_irrefl).
  rewrite skipn_all, app_nil_r. eexists. split; [reflexivity|]. split; [reflexivity|].
  split; [|split; [exact Hs|]].
  - split; [reflexivity|]. cbn [sizes set_count set_table]. now rewrite repeat_length.
  - cbn [raw_table_size set_count set_table]. now rewrite repeat_length.
Qed.

Lemma assign_ok f g t u : plain f t -> plain g u -> assign f g = Ok g.
Proof.
  intros ((Ht & _) & _) ((Hu & _) & _ & Hr). unfold assign, table. rewrite Ht, Hu. cbn [bind].
  unfold copy_n. rewrite Hr. replace (length u <? length u)%nat with false by (symmetry; apply Nat.ltb_irrefl).
  cbn [bind]. rewrite firstn_all. destruct g; cbn in *. now rewrite Hu.
Qed.

(* ------------------------------------------------------------------ *)
(* programs *)
Definition same (f0 f : filter) : Prop :=
  salt f = salt f0 /\ salt_count f = salt_count f0 /\ tsize f = tsize f0 /\ seed f = seed f0 /\
  sizes f = sizes f0 /\ raw_table_size f = raw_table_size f0 /\ projected_count f = projected_count f0.

Lemma same_compatible f0 f g : same f0 f -> same f0 g -> compatible f g = true.
Proof.
  intros (_ & A & B & C & _) (_ & A' & B' & C' & _). unfold compatible.
  rewrite A, A', B, B', C, C', !N.eqb_refl. reflexivity.
Qed.

Lemma same_pos f0 f k : same f0 f -> pos f k = pos f0 k.
Proof. intros (A & _ & _ & _ & B & _). unfold pos. now rewrite A, B. Qed.

Lemma run_ok f0 t0 : plain f0 t0 -> (forall i, bit t0 i = false) -> inserted_count f0 = 0 ->
  forall p, exists f t, run f0 p = Ok f /\ plain f t /\ same f0 f /\ length t = length t0 /\
    inserted_count f = u32 (count p) /\
    forall i, bit t i = ideal (pos f0) p i.
Proof.
  intros Hp0 Hb0 Hc0. induction p as [|p IHp k|p IHp|p IHp q IHq|p IHp q IHq|p IHp q IHq|p IHp q IHq]; cbn [run].
  - exists f0, t0. split; [reflexivity|]. split; [auto|]. split; [repeat split; auto|]. auto.
  - destruct IHp as (f & t & -> & Hp & Hs & Hl & Hc & Hb). cbn [bind].
    destruct (insert_ok f t k (proj1 Hp)) as (t' & f' & E & Ef & Hw & Hl' & Hb').
    exists f', t'. split; [exact E|]. destruct Hp as (Hw0 & Hs1 & Hr).
    split; [split; [exact Hw|]; rewrite Ef; cbn; split; [auto|lia]|].
    split; [rewrite Ef; exact Hs|]. split; [lia|]. split.
    + rewrite Ef. cbn [inserted_count set_count]. rewrite Hc. cbn [count]. unfold u32.
      rewrite N.add_mod_idemp_l by discriminate. reflexivity.
    + intros i. cbn [ideal]. now rewrite Hb', Hb, (same_pos f0 f).
  - destruct IHp as (f & t & -> & Hp & Hs & Hl & Hc & Hb). cbn [bind].
    destruct (clear_ok f t Hp) as (f' & E & Ef & Hp').
    exists f', (repeat 0 (length t)). split; [exact E|]. split; [exact Hp'|].
    split; [rewrite Ef; exact Hs|]. split; [now rewrite repeat_length|].
    split; [rewrite Ef; reflexivity|]. intros i. apply repeat_bit.
  - destruct IHp as (f & t & -> & Hp & Hs & Hl & Hc & Hb).
    destruct IHq as (g & u & -> & Hq & Hsq & Hlq & Hcq & Hbq). cbn [bind].
    destruct (combine_ok N.lor orb f g t u Hp Hq) as (t' & E & Hp' & Hl' & Hb'); auto using N.lor_spec.
    { eapply same_compatible; eauto. } { lia. }
    exists (set_table f t'), t'. split; [exact E|]. split; [exact Hp'|]. split; [exact Hs|].
    split; [lia|]. split; [exact Hc|]. intros i. cbn [ideal]. now rewrite Hb', Hb, Hbq.
  - destruct IHp as (f & t & -> & Hp & Hs & Hl & Hc & Hb).
    destruct IHq as (g & u & -> & Hq & Hsq & Hlq & Hcq & Hbq). cbn [bind].
    destruct (combine_ok N.land andb f g t u Hp Hq) as (t' & E & Hp' & Hl' & Hb'); auto using N.land_spec.
    { eapply same_compatible; eauto. } { lia. }
    exists (set_table f t'), t'. split; [exact E|]. split; [exact Hp'|]. split; [exact Hs|].
    split; [lia|]. split; [exact Hc|]. intros i. cbn [ideal]. now rewrite Hb', Hb, Hbq.
  - destruct IHp as (f & t & -> & Hp & Hs & Hl & Hc & Hb).
    destruct IHq as (g & u & -> & Hq & Hsq & Hlq & Hcq & Hbq). cbn [bind].
    destruct (combine_ok N.lxor xorb f g t u Hp Hq) as (t' & E & Hp' & Hl' & Hb'); auto using N.lxor_spec.
    { eapply same_compatible; eauto. } { lia. }
    exists (set_table f t'), t'. split; [exact E|]. split; [exact Hp'|]. split; [exact Hs|].
    split; [lia|]. split; [exact Hc|]. intros i. cbn [ideal]. now rewrite Hb', Hb, Hbq.
  - destruct IHp as (f & t & -> & Hp & Hs & Hl & Hc & Hb).
    destruct IHq as (g & u & -> & Hq & Hsq & Hlq & Hcq & Hbq). cbn [bind].
    exists g, u. split; [eapply assign_ok; eauto|]. split; [auto|]. split; [auto|]. auto.
Qed.

Lemma must_ideal ps p k : must p k -> forallb (ideal ps p) (ps k) = true.
Proof.
  rewrite forallb_forall.
  induction p as [|p IHp k'|p IHp|p IHp q IHq|p IHp q IHq|p IHp q IHq|p IHp q IHq]; cbn [must ideal];
    try contradiction; intros Hm x Hx.
  - apply orb_true_iff. destruct Hm as [->|Hm]; [right|left; auto].
    apply existsb_exists. exists x. split; auto. apply N.eqb_refl.
  - apply orb_true_iff. destruct Hm; [left|right]; auto.
  - destruct Hm. rewrite IHp, IHq; auto.
  - auto.
Qed.

(* construction *)
Lemma mix_salts_ok r s : holds (mix_salts r s) (fun s' => length s' = length s).
Proof.
  unfold mix_salts.
  pose proof (for_up_rule (S := list N) (fun i t => length t = length s)) as R.
  eapply holds_weaken; [apply R|]; auto.
  intros i t Hi Hl. cbv beta in Hl.
  rewrite (rd_nth0 t i) by lia. cbn [bind].
  rewrite rd_nth0 by (apply Nat.mod_upper_bound; lia). cbn [bind].
  rewrite wr_upd by lia. cbn. now rewrite upd_length.
Qed.

Lemma new_filter_ok fuel rnd p : number_of_hashes p <= 128 -> exists f, new_filter fuel rnd p = Ok f.
Proof.
  intros H. unfold new_filter, generate_unique_salt.
  destruct (N.leb_spec (number_of_hashes p) 128); [|lia].
  pose proof (mix_salts_ok (u64 (random_seed p * 2779096485 + 1))
    (firstn (N.to_nat (number_of_hashes p)) predef_salt)) as Hm.
  apply holds_ex in Hm. destruct Hm as (s & -> & _). eexists. reflexivity.
Qed.

Lemma new_filter_plain fuel rnd p f : new_filter fuel rnd p = Ok f -> good_size (table_size p) ->
  exists t, plain f t /\ (forall i, bit t i = false) /\ inserted_count f = 0 /\
    sizes f = [table_size p] /\ length t = N.to_nat (table_size p / 8).
Proof.
  intros H [H1 H2]. unfold new_filter in H.
  destruct (generate_unique_salt fuel _ _ _) as [s| |]; try discriminate. cbn [bind] in H.
  injection H as <-. exists (repeat 0 (N.to_nat (table_size p / 8))).
  split; [|split; [apply repeat_bit|repeat split; auto; apply repeat_length]].
  split; [|split; [reflexivity|]].
  - split; [reflexivity|]. split; [discriminate|]. split; [repeat constructor; auto|].
    cbn [sizes last]. rewrite repeat_length, N2Nat.id.
    rewrite (N.div_mod (table_size p) 8) at 1 by lia. lia.
  - cbn [raw_table_size]. now rewrite repeat_length.
Qed.

(* ------------------------------------------------------------------ *)
(* compression *)
Lemma compress_ok f t r tg : wf f t ->
  let m := last (sizes f) 0 in
  if accepted m r tg then
    if m <=? 2 * new_size tg then
      exists t' f', compress r tg f = Ok (Some f') /\ wf f' t' /\ sizes f' = sizes f ++ [new_size tg] /\
        salt f' = salt f /\ raw_table_size f' = raw_table_size f /\ tsize f' = tsize f /\
        salt_count f' = salt_count f /\ seed f' = seed f /\ inserted_count f' = inserted_count f /\
        8 * N.of_nat (length t') = new_size tg /\
        (forall i, i < new_size tg -> bit t' i = bit t i || bit t (i + new_size tg))
    else compress r tg f = UB
  else compress r tg f = Ok None.
Proof.
  intros Hw m. pose proof Hw as (Ht & Hne & Hpos & Hlast). unfold compress, accepted, new_size in *.
  fold m. change bits_per_char with 8 in *.
  destruct r; [|reflexivity]. cbn [negb andb].
  assert (En : tg - tg mod 8 = 8 * (tg / 8)).
  { pose proof (N.div_mod tg 8 ltac:(lia)). lia. }
  rewrite En. set (n := tg / 8) in *.
  destruct (N.ltb_spec 0 (8 * n)) as [Hn|Hn].
  2:{ replace (8 * n <? 8) with true by (symmetry; apply N.ltb_lt; lia). reflexivity. }
  replace (8 * n <? 8) with false by (symmetry; apply N.ltb_ge; lia). cbn [andb orb].
  destruct (N.ltb_spec (8 * n) m) as [Hm|Hm].
  2:{ replace (m <=? 8 * n) with true by (symmetry; apply N.leb_le; lia). reflexivity. }
  replace (m <=? 8 * n) with false by (symmetry; apply N.leb_gt; lia).
  unfold table. rewrite Ht. cbn [bind].
  replace (8 * n / 8) with n by (rewrite N.mul_comm, N.div_mul; lia).
  assert (Eo : m / 8 = N.of_nat (length t)) by (fold m in Hlast; rewrite Hlast, N.mul_comm, N.div_mul; lia).
  rewrite Eo, Nat2N.id. unfold copy_n. fold m in Hlast.
  replace (length t <? N.to_nat n)%nat with false by (symmetry; apply Nat.ltb_ge; lia). cbn [bind].
  set (tmp := firstn (N.to_nat n) t). set (k := (length t - N.to_nat n)%nat).
  assert (Htmp : length tmp = N.to_nat n) by (apply firstn_length_le; lia).
  destruct (N.leb_spec m (2 * (8 * n))) as [Hh|Hh].
  - pose proof (for_up_rule (S := list N) (fun i s => length s = N.to_nat n /\
       forall j, nth j s 0 = if (j <? i)%nat then N.lor (nth j tmp 0) (nth (N.to_nat n + j) t 0) else nth j tmp 0)) as R.
    assert (HL : holds (for_up 0 k (fun j tmp0 => a <- rd tmp0 j ;; b <- rd t (N.to_nat n + j) ;; wr tmp0 j (N.lor a b)) tmp)
      (fun s => length s = N.to_nat n /\
       forall j, nth j s 0 = if (j <? k)%nat then N.lor (nth j tmp 0) (nth (N.to_nat n + j) t 0) else nth j tmp 0)).
    { eapply holds_weaken; [apply R|].
      - intros i s Hi [Hl Hnth]. rewrite (rd_nth0 s), (rd_nth0 t) by lia. cbn [bind].
        rewrite wr_upd by lia. cbn [holds]. rewrite upd_length. split; auto.
        intros j. rewrite nth_upd by lia. rewrite !Hnth.
        destruct (Nat.eqb_spec j i) as [->|Hj].
        + replace (i <? i)%nat with false by (symmetry; apply Nat.ltb_irrefl).
          replace (i <? S i)%nat with true by (symmetry; apply Nat.ltb_lt; lia). reflexivity.
        + destruct (Nat.ltb_spec j i); destruct (Nat.ltb_spec j (S i)); auto; lia.
      - split; auto.
      - intros s H. exact H. }
    apply holds_ex in HL. destruct HL as (t' & E & Hl & Hnth). rewrite E. cbn [bind].
    exists t'. eexists. split; [reflexivity|]. split.
    { split; [reflexivity|]. cbn [sizes]. split; [destruct (sizes f); discriminate|].
      split; [apply Forall_app; split; [auto|repeat constructor; lia]|]. rewrite last_last. lia. }
    cbn [sizes salt raw_table_size tsize salt_count seed inserted_count].
    do 7 (split; [reflexivity|]). split; [lia|].
    intros i Hi. unfold bit. rewrite Hnth.
    assert (Hd : i / 8 < n) by (apply N.div_lt_upper_bound; lia).
    replace ((i + 8 * n) / 8) with (i / 8 + n) by (rewrite (N.mul_comm 8 n), N.div_add; lia).
    replace ((i + 8 * n) mod 8) with (i mod 8) by (rewrite (N.mul_comm 8 n), N.mod_add; lia).
    replace (nth (N.to_nat (i / 8)) tmp 0) with (nth (N.to_nat (i / 8)) t 0).
    2:{ unfold tmp. rewrite <- (firstn_skipn (N.to_nat n) t) at 1. apply app_nth1. fold tmp. lia. }
    destruct (Nat.ltb_spec (N.to_nat (i / 8)) k).
    + rewrite N.lor_spec. do 3 f_equal. lia.
    + rewrite (nth_overflow t 0 (n := N.to_nat (i / 8 + n))) by lia. rewrite N.bits_0. now rewrite orb_false_r.
  - (* the loop runs over the end of tmp *)
    assert (HU : forall c i s, length s = N.to_nat n -> (i + c = k)%nat -> (i <= N.to_nat n)%nat ->
       for_up i c (fun j tmp0 => a <- rd tmp0 j ;; b <- rd t (N.to_nat n + j) ;; wr tmp0 j (N.lor a b)) s = UB).
    { induction c as [|c IH]; intros i s Hs Hk Hi; [lia|]. cbn [for_up].
      destruct (Nat.eq_dec i (N.to_nat n)) as [->|Hne'].
      - unfold rd at 1. replace (nth_error s (N.to_nat n)) with (@None N); [reflexivity|].
        symmetry. apply nth_error_None. lia.
      - rewrite (rd_nth0 s), (rd_nth0 t) by lia. cbn [bind]. rewrite wr_upd by lia. cbn [bind].
        apply IH; [now rewrite upd_length|lia|lia]. }
    rewrite HU; [reflexivity|auto|lia|lia].
Qed.

Lemma red_app l m x : red (l ++ [m]) x = red l x mod m.
Proof. unfold red. now rewrite fold_left_app. Qed.

(* a compression keeps every positive answer *)
Lemma compress_keeps f t r tg f' k : wf f t -> compress r tg f = Ok (Some f') ->
  contains f k = Ok true -> exists t', wf f' t' /\ contains f' k = Ok true.
Proof.
  intros Hw E Hk. pose proof (compress_ok f t r tg Hw) as H. cbv zeta in H.
  destruct (accepted (last (sizes f) 0) r tg) eqn:Ea; [|congruence].
  destruct (N.leb_spec (last (sizes f) 0) (2 * new_size tg)); [|congruence].
  destruct H as (t' & f1 & E1 & Hw' & Hs & Hsalt & _ & _ & _ & _ & _ & Hl & Hb).
  rewrite E in E1. injection E1 as <-. exists t'. split; [exact Hw'|].
  rewrite (contains_ok f t k Hw) in Hk. rewrite (contains_ok f' t' k Hw'). f_equal.
  injection Hk as Hk. rewrite forallb_forall in *. unfold pos in *. rewrite Hs, Hsalt.
  intros x Hx. apply in_map_iff in Hx. destruct Hx as (s & <- & Hin). rewrite red_app.
  assert (Hbit : bit t (red (sizes f) (hsh k s)) = true) by (apply Hk, in_map_iff; eauto).
  pose proof (pos_range f t s k Hw) as Hr. pose proof Hw as (_ & _ & _ & Hlast). rewrite <- Hlast in Hr.
  set (y := red (sizes f) (hsh k s)) in *.
  unfold accepted in Ea. rewrite !andb_true_iff in Ea. destruct Ea as ((_ & Ea1) & Ea2).
  apply N.ltb_lt in Ea1, Ea2.
  assert (Hmod : y mod new_size tg < new_size tg) by (apply N.mod_lt; lia).
  rewrite Hb by auto. destruct (N.lt_ge_cases y (new_size tg)).
  - rewrite N.mod_small by auto. now rewrite Hbit.
  - assert (Ey : y mod new_size tg = y - new_size tg).
    { symmetry. apply (N.mod_unique _ _ 1); lia. }
    rewrite Ey. replace (y - new_size tg + new_size tg) with y by lia. now rewrite Hbit, orb_true_r.
Qed.

Lemma insert_keeps f t k f' k' : wf f t -> insert f k = Ok f' -> contains f k' = Ok true -> contains f' k' = Ok true.
Proof.
  intros Hw E Hk. destruct (insert_ok f t k Hw) as (t' & f1 & E1 & Ef & Hw' & Hl & Hb).
  rewrite E in E1. injection E1 as <-.
  rewrite (contains_ok f t k' Hw) in Hk. rewrite (contains_ok f' t' k' Hw'). f_equal. injection Hk as Hk.
  assert (Hp : pos f' k' = pos f k') by (rewrite Ef; reflexivity).
  rewrite Hp, forallb_forall in *. intros x Hx. rewrite Hb, (Hk x Hx). reflexivity.
Qed.

Lemma insert_has f t k f' : wf f t -> insert f k = Ok f' -> contains f' k = Ok true.
Proof.
  intros Hw E. destruct (insert_ok f t k Hw) as (t' & f1 & E1 & Ef & Hw' & Hl & Hb).
  rewrite E in E1. injection E1 as <-. rewrite (contains_ok f' t' k Hw'). f_equal.
  assert (Hp : pos f' k = pos f k) by (rewrite Ef; reflexivity).
  rewrite Hp, forallb_forall. intros x Hx. rewrite Hb. apply orb_true_iff. right.
  apply existsb_exists. exists x. split; auto. apply N.eqb_refl.
Qed.

Lemma crun_ok f0 t0 : wf f0 t0 -> forall p, halving (last (sizes f0) 0) p ->
  exists f t, crun f0 p = Ok f /\ wf f t /\ last (sizes f) 0 = csize (last (sizes f0) 0) p /\
    forall k, cmust p k -> contains f k = Ok true.
Proof.
  intros Hw0. induction p as [|p IHp k|p IHp r tg]; cbn [crun halving csize cmust]; intros Hh.
  - exists f0, t0. repeat split; try apply Hw0. contradiction.
  - destruct (IHp Hh) as (f & t & -> & Hw & Hl & Hk). cbn [bind].
    destruct (insert_ok f t k Hw) as (t' & f' & E & Ef & Hw' & Hl' & Hb).
    exists f', t'. split; [exact E|]. split; [exact Hw'|].
    split; [rewrite Ef; exact Hl|]. intros k' [->|Hm].
    + eapply insert_has; [exact Hw|exact E].
    + eapply insert_keeps; [exact Hw|exact E|auto].
  - destruct Hh as [Hh Hc]. destruct (IHp Hh) as (f & t & -> & Hw & Hl & Hk). cbn [bind].
    pose proof (compress_ok f t r tg Hw) as H. cbv zeta in H. rewrite <- Hl in *.
    destruct (accepted (last (sizes f) 0) r tg).
    + destruct (N.leb_spec (last (sizes f) 0) (2 * new_size tg)); [|specialize (Hc eq_refl); lia].
      destruct H as (t' & f' & E & Hw' & Hs & _). rewrite E. cbn [bind].
      exists f', t'. split; [reflexivity|]. split; [exact Hw'|]. split; [rewrite Hs; apply last_last|].
      intros k Hm. destruct (compress_keeps f t r tg f' k Hw E (Hk k Hm)) as (t2 & _ & Hc2). exact Hc2.
    + rewrite H. cbn [bind]. exists f, t. auto.
Qed.

(* equality *)
Lemma equal_ok f g t u : plain f t -> plain g u ->
  exists b, equal true f g = Ok b /\ (b = true <-> f = g).
Proof.
  intros (Hw & Hs & Hr) (Hwg & Hsg & Hrg). pose proof Hw as (Ht & _). pose proof Hwg as (Hu & _).
  unfold equal, table. rewrite Ht, Hu. cbn [bind].
  destruct (_ && _) eqn:E.
  - rewrite !andb_true_iff in E. destruct E as (((((((E1 & E2) & E3) & E4) & E5) & E6) & _) & E8).
    apply N.eqb_eq in E1, E2, E3, E4, E5, E6.
    destruct (list_eq_dec N.eq_dec (salt f) (salt g)); [|discriminate].
    assert (length t = length u) by lia. rewrite Hr.
    replace (length t <? length t)%nat with false by (symmetry; apply Nat.ltb_irrefl).
    replace (length u <? length t)%nat with false by (symmetry; apply Nat.ltb_ge; lia). cbn [orb].
    eexists. split; [reflexivity|].
    assert (Hfu : firstn (length t) u = u) by (rewrite H; apply firstn_all).
    rewrite firstn_all, Hfu.
    destruct (list_eq_dec N.eq_dec u t) as [Eu|Eu].
    + split; auto. intros _. destruct f, g; cbn in *. congruence.
    + split; [discriminate|]. intros ->. congruence.
  - exists false. split; [reflexivity|]. split; [discriminate|]. intros ->.
    rewrite !N.eqb_refl in E. destruct (list_eq_dec N.eq_dec (salt g) (salt g)); [discriminate|congruence].
Qed.
