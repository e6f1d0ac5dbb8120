(* Proofs about the Bloom filter example: the whole program. *)
From Verif Require Import Base Comb_Model Comb_Spec Comb_Spec2 Comb_Proofs Comb_Proofs3 Comb_Props Codec_Model Codec_Spec Bloom_Model Bloom_Spec
  Bloom_Proofs Bloom_Props IO_Model BFile_Model BFile_Spec BFile_Props Bdemo_Model Bdemo_Spec Bdemo_Proofs.
From Coq Require Import Permutation Sorted.
Local Open Scope nat_scope.

Lemma run_inserting f0 : forall ks p,
  (f <- run f0 p ;; run_keys (fun key f => Bloom_Model.insert f key) ks f) = run f0 (fold_left Insert ks p).
Proof.
  induction ks as [|k ks IH]; intros p; cbn [run_keys fold_left].
  - destruct (run f0 p); reflexivity.
  - rewrite <- IH. cbn [run]. destruct (run f0 p); reflexivity.
Qed.

Lemma must_inserting k : forall ks p, In k ks \/ must p k -> must (fold_left Insert ks p) k.
Proof.
  induction ks as [|x ks IH]; intros p [H|H]; cbn [fold_left]; try contradiction; auto.
  - apply IH. destruct H as [->|H]; [right; left; reflexivity|left; exact H].
  - apply IH. right. right. exact H.
Qed.

Lemma count_inserting : forall ks p, count (fold_left Insert ks p) = (count p + N.of_nat (length ks))%N.
Proof. induction ks as [|x ks IH]; intros p; cbn [fold_left length]; [lia|]. rewrite IH. cbn [count]. lia. Qed.

Lemma absent_none f report : forall ks out, (forall k, In k ks -> contains f k = Ok true) ->
  run_keys (absent f report) ks out = Ok out.
Proof.
  induction ks as [|k ks IH]; intros out H; cbn [run_keys]; [reflexivity|].
  unfold absent at 1. rewrite H by (left; reflexivity). cbn [bind]. apply IH. intros x Hx. apply H. right. exact Hx.
Qed.

Lemma tally_ok f found : (forall k, contains f k = Ok (found k)) -> forall ks a b,
  (a < 2 ^ 32)%N -> (b < 2 ^ 32)%N ->
  run_keys (tally f) ks (a, b) =
    Ok (((a + N.of_nat (length ks)) mod 2 ^ 32)%N, ((b + N.of_nat (length (List.filter found ks))) mod 2 ^ 32)%N).
Proof.
  intros H. induction ks as [|k ks IH]; intros a b Ha Hb; cbn [run_keys length List.filter].
  - rewrite !N.add_0_r, !N.mod_small by assumption. reflexivity.
  - cbn [tally]. rewrite H. cbn [bind]. unfold Bloom_Model.u32.
    assert (M : forall x, (x mod 2 ^ 32 < 2 ^ 32)%N) by (intros; apply N.mod_lt; discriminate).
    rewrite IH; [|apply M|destruct (found k); auto]. rewrite N.add_mod_idemp_l by discriminate.
    replace (a + 1 + N.of_nat (length ks))%N with (a + N.of_nat (S (length ks)))%N by lia.
    destruct (found k); [|reflexivity]. rewrite N.add_mod_idemp_l by discriminate. cbn [length].
    do 3 f_equal. lia.
Qed.

Lemma keys_length k l : length (keys k l) = 2 * length (choices k l).
Proof. unfold keys. induction (choices k l) as [|c cs IH]; cbn [flat_map app length]; [reflexivity|]. lia. Qed.
Lemma keys_size k l : Forall (fun s => length s = k) (keys k l).
Proof.
  apply Forall_forall. intros s H. unfold keys in H. apply in_flat_map in H. destruct H as (c & Hc & H).
  apply choices_in in Hc. destruct Hc as [Hc _]. destruct H as [<-|[<-|[]]]; [|rewrite map_length]; exact Hc.
Qed.
Lemma halves_length k l : length (halves k l) = 4 * length (choices k l).
Proof.
  unfold halves. pose proof (keys_length k l) as H. revert H. generalize (2 * length (choices k l)) as n.
  enough (G : forall ks : list key, length (flat_map (fun s => [firstn (k / 2) s; skipn (k / 2) s]) ks) = 2 * length ks).
  { intros n _. rewrite G, keys_length. lia. }
  induction ks as [|s ks IH]; cbn [flat_map app length]; [reflexivity|]. lia.
Qed.
Lemma halves_concat k l : concat (halves k l) = concat (keys k l).
Proof.
  unfold halves. induction (keys k l) as [|s ks IH]; [reflexivity|]. cbn [flat_map app concat].
  rewrite IH, app_assoc, firstn_skipn. reflexivity.
Qed.
Lemma halves_size k l : Nat.Even k -> Forall (fun s => length s = k / 2) (halves k l).
Proof.
  intros [q ->]. apply Forall_forall. intros s H. unfold halves in H. apply in_flat_map in H. destruct H as (c & Hc & H).
  pose proof (keys_size (2 * q) l) as F. rewrite Forall_forall in F. apply F in Hc.
  rewrite (Nat.mul_comm 2 q), Nat.div_mul in * by discriminate.
  destruct H as [<-|[<-|[]]]; [rewrite firstn_length|rewrite skipn_length]; lia.
Qed.

Lemma optimal_ok min_k min_m e : (0 < e < 2 ^ 64)%N -> (0 < min_m <= 2 ^ 35 - 8)%Z ->
  exists prm, compute_optimal_parameters min_k min_m (Params 1 (2 ^ 64 - 1) 1 7 e 2779096485 0 0) = Ok (Some prm) /\
    good_size (table_size prm) /\ (table_size prm < 2 ^ 35)%N /\ (0 < number_of_hashes prm <= 7)%N /\ projected prm = e.
Proof.
  intros He Hm. unfold compute_optimal_parameters, bad_parameters.
  cbn [maximum_size minimum_size maximum_hashes minimum_hashes projected random_seed].
  replace (e =? 0)%N with false by (symmetry; apply N.eqb_neq; lia).
  change ((2 ^ 64 - 1 <? 1)%N || (7 <? 1)%N || (1 <? 1)%N || (7 =? 0)%N || false || (2779096485 =? 0)%N || (2779096485 =? 2 ^ 64 - 1)%N) with false.
  cbn iota.
  replace ((min_m <? 0)%Z || (2 ^ 64 <=? min_m)%Z) with false.
  2:{ symmetry. apply orb_false_iff. split; [apply Z.ltb_ge|apply Z.leb_gt]; lia. }
  cbn zeta. eexists. split; [reflexivity|]. cbn [table_size number_of_hashes projected].
  set (m := Z.to_N min_m). assert (Hm' : (0 < m <= 2 ^ 35 - 8)%N) by (unfold m; lia). clearbody m. clear Hm min_m.
  assert (Hr : exists r, Bloom_Model.u64 (m + (if negb (m mod bits_per_char =? 0)%N then bits_per_char - m mod bits_per_char else 0)) = r /\
               (r mod 8 = 0)%N /\ (0 < r < 2 ^ 35)%N).
  { eexists. split; [reflexivity|]. unfold Bloom_Model.u64, bits_per_char.
    pose proof (N.div_mod m 8 ltac:(discriminate)) as D. pose proof (N.mod_lt m 8 ltac:(discriminate)) as L.
    set (q := (m / 8)%N) in *. set (r := (m mod 8)%N) in *. clearbody q r.
    destruct (N.eqb_spec r 0) as [->|Hz]; cbn [negb].
    - rewrite (N.mod_small (m + 0)) by lia. split; [|lia]. rewrite D, !N.add_0_r, N.mul_comm. apply N.mod_mul. discriminate.
    - replace (m + (8 - r))%N with ((q + 1) * 8)%N by lia.
      assert ((q + 1) * 8 < 2 ^ 35)%N by lia.
      rewrite (N.mod_small _ (2 ^ 64)) by lia. split; [apply N.mod_mul; discriminate|]. lia. }
  destruct Hr as (r & -> & R8 & Rb).
  replace (r <? 1)%N with false by (symmetry; apply N.ltb_ge; lia).
  replace (2 ^ 64 - 1 <? r)%N with false by (symmetry; apply N.ltb_ge; lia).
  split; [split; [lia|exact R8]|]. split; [lia|]. split; [|reflexivity].
  destruct (N.ltb_spec min_k 1); [lia|]. destruct (N.ltb_spec 7 min_k); lia.
Qed.

Lemma binom_pos : forall n k, k <= n -> 0 < binom n k.
Proof.
  induction n as [|n IH]; intros [|k] H; cbn [binom]; try lia. pose proof (IH k ltac:(lia)). lia.
Qed.

Section Main.
Variable lt : ascii -> ascii -> bool.
Hypothesis lt_asym : forall a b, lt a b = true -> lt b a = false.

Lemma main_ok fuel le rnd st letters k min_k min_m fs file :
  StronglySorted (fun a b => lt a b = true) letters -> after_calls st ->
  Nat.Even k -> 0 < k <= length letters -> (N.of_nat (length letters) <= 6074000999)%N ->
  (N.of_nat k * (2 * N.of_nat (length (choices k letters))) < 2 ^ 64)%N ->
  (0 < min_m <= 2 ^ 35 - 8)%Z -> length letters < fuel -> 2 * k * length (choices k letters) + 1 < fuel ->
  exists prm f0 f t found, let C := N.of_nat (length (choices k letters)) in
    compute_optimal_parameters min_k min_m (Params 1 (2 ^ 64 - 1) 1 7 (2 * C) 2779096485 0 0) = Ok (Some prm) /\
    new_filter fuel rnd prm = Ok f0 /\ run f0 (inserting (keys k letters)) = Ok f /\ bit_table f = Some t /\
    (forall s, contains f s = Ok (found s)) /\
    let lines := [Insert_done (2 * C mod 2 ^ 32); Contain_done (2 * C mod 2 ^ 32);
                  Positives (4 * C mod 2 ^ 32) (N.of_nat (length (List.filter found (halves k letters))) mod 2 ^ 32)] in
    (f_write fs file = false ->
       main lt fuel le rnd st letters k min_k min_m fs file = Ok (1, lines ++ [Not_written], fs)) /\
    (f_write fs file = true -> exists fs',
       main lt fuel le rnd st letters k min_k min_m fs file =
         Ok (if f_read fs file then 0 else 1, lines ++ [if f_read fs file then Replicated else Not_read], fs') /\
       f_data fs' file = Some (file_image le f (probability le) t) /\
       (forall m, m <> file -> f_data fs' m = f_data fs m)).
Proof.
  intros Hs Hst He Hk Hl Hm Hmm Hf1 Hf2.
  set (n := length (choices k letters)) in *.
  assert (Hn : 0 < n) by (unfold n; rewrite choices_length; apply binom_pos; lia).
  assert (H2 : 2 * n <= k * n) by (destruct He as [q Hq]; apply Nat.mul_le_mono_r; lia).
  assert (H3 : 4 * n + 1 < fuel) by (rewrite <- Nat.mul_assoc in Hf2; lia).
  assert (H4 : (4 * N.of_nat n < 2 ^ 64)%N).
  { apply N.le_lt_trans with (N.of_nat k * (2 * N.of_nat n))%N; [|exact Hm].
    replace (4 * N.of_nat n)%N with (2 * (2 * N.of_nat n))%N by lia. apply N.mul_le_mono_r. destruct He as [q Hq]. lia. }
  destruct (n_choose_k_ok fuel st (N.of_nat (length letters)) (N.of_nat k) (after_calls_ok _ Hst)) as (st2 & E2 & _);
    [rewrite Nat2N.id; exact Hf1|lia|apply wanted_fits; exact Hl|].
  assert (Hb : Bloom_Model.u64 (2 * bin (N.of_nat (length letters)) (N.of_nat k)) = (2 * N.of_nat n)%N).
  { unfold bin, Comb_Model.u64, Bloom_Model.u64. rewrite !Nat2N.id, <- choices_length. fold n.
    rewrite (N.mod_small (N.of_nat n)) by lia. apply N.mod_small. lia. }
  destruct (optimal_ok min_k min_m (2 * N.of_nat n)) as (prm & Ep & Hg & Hts & Hnh & Hpr); [lia|exact Hmm|].
  destruct (C25_construction fuel rnd prm ltac:(lia)) as (f0 & E0 & _).
  set (p := inserting (keys k letters)).
  destruct (C25_exact fuel rnd prm f0 E0 Hg) as (ps & _ & X). destruct (X p) as (f & Er & Hc & Hcont). clear X.
  destruct (C25_no_false_negatives fuel rnd prm f0 E0 Hg p) as (f' & Er' & Hin). rewrite Er in Er'. injection Er' as <-.
  set (found := fun s => forallb (ideal ps p) (ps s)).
  assert (Hfound : forall s, contains f s = Ok (found s)) by exact Hcont.
  assert (Hdl : length (probability le) = 8) by (destruct le; reflexivity).
  destruct (C91_format le fuel rnd prm f0 p (probability le) (FSys (f_data fs) (f_read fs) (fun _ => true)) file) as (f1 & t & _ & Er1 & Ebt & _);
    [exact E0|exact Hg|exact Hts|lia|rewrite Hpr; lia|exact Hdl|reflexivity|].
  rewrite Er in Er1. injection Er1 as <-.
  exists prm, f0, f, t, found. cbn zeta. split; [exact Ep|]. split; [exact E0|]. split; [exact Er|]. split; [exact Ebt|]. split; [exact Hfound|].
  assert (Hkeys : forall s, In s (keys k letters) -> contains f s = Ok true).
  { intros s Hi. apply Hin. apply must_inserting. left. exact Hi. }
  assert (Hcnt : inserted_count f = (2 * N.of_nat n mod 2 ^ 32)%N).
  { rewrite Hc. unfold p, inserting. rewrite count_inserting, keys_length. fold n. cbn [count]. f_equal. lia. }
  set (cont := fun (out : list line) =>
    ' (written, fs) <- write_to_file le true fs file f (probability le) ;;
    if negb written then Ok (1, out ++ [Not_written], fs)
    else
      ' (r, secondary, d) <- read_from_file le true false fs file default_filter fpp_zero ;;
      if negb r then Ok (1, out ++ [Not_read], fs)
      else
        same <- Bloom_Model.equal (if list_eq_dec ascii_dec d (probability le) then true else false) secondary f ;;
        if negb same then Ok (1, out ++ [No_match], fs)
        else
          lost <- each_key fuel k (map Some (concat (keys k letters))) (absent secondary Lost) [] ;;
          Ok (0, out ++ lost ++ (if length lost =? 0 then [Replicated] else []), fs)).
  assert (Hmain : main lt fuel le rnd st letters k min_k min_m fs file = cont [Insert_done (2 * N.of_nat n mod 2 ^ 32); Contain_done (2 * N.of_nat n mod 2 ^ 32);
                  Positives (4 * N.of_nat n mod 2 ^ 32) (N.of_nat (length (List.filter found (halves k letters))) mod 2 ^ 32)]).
  { unfold main. rewrite E2. cbn [bind].
    replace (N.of_nat (length letters) =? 0)%N with false by (symmetry; apply N.eqb_neq; lia). rewrite Hb. cbn zeta.
    assert (Hbad : bad_parameters (Params 1 (2 ^ 64 - 1) 1 7 (2 * N.of_nat n) 2779096485 0 0) = false).
    { unfold compute_optimal_parameters in Ep. destruct (bad_parameters (Params 1 (2 ^ 64 - 1) 1 7 (2 * N.of_nat n) 2779096485 0 0)); [discriminate|reflexivity]. }
    rewrite Hbad, Ep. cbn [bind]. rewrite E0. cbn [bind].
    assert (Hsz : N.to_nat (Bloom_Model.u64 (N.of_nat k * (2 * N.of_nat n))) = k * (2 * n)).
    { unfold Bloom_Model.u64. rewrite N.mod_small by exact Hm. lia. }
    rewrite Hsz. unfold n at 1. rewrite (fill_ok lt lt_asym fuel k letters Hs Hk Hf2). cbn [bind].
    assert (Hlk : length (keys k letters) < fuel) by (rewrite keys_length; fold n; lia).
    assert (Hlh : length (halves k letters) < fuel) by (rewrite halves_length; fold n; lia).
    rewrite (each_key_ok _ k ltac:(lia) _ f0 fuel (keys_size k letters) Hlk).
    pose proof (run_inserting f0 (keys k letters) New) as Ei. cbn [run bind] in Ei.
    match goal with |- context [run_keys ?b (keys k letters) f0] =>
      change (run_keys b (keys k letters) f0) with (run_keys (fun (key : key) f => Bloom_Model.insert f key) (keys k letters) f0) end.
    rewrite Ei.
    change (fold_left Insert (keys k letters) New) with p. rewrite Er. cbn [bind].
    rewrite (each_key_ok _ k ltac:(lia) _ _ fuel (keys_size k letters) Hlk).
    rewrite absent_none by exact Hkeys. cbn [bind app]. rewrite Hcnt.
    rewrite <- halves_concat at 1.
    rewrite (each_key_ok _ (k / 2)) with (fuel := fuel); [|destruct He as [q ->]; rewrite (Nat.mul_comm 2 q), Nat.div_mul by discriminate; lia|apply halves_size; exact He|exact Hlh].
    rewrite (tally_ok f found Hfound) by reflexivity. cbn [bind]. rewrite halves_length. fold n.
    replace (0 + N.of_nat (4 * n))%N with (4 * N.of_nat n)%N by lia. rewrite N.add_0_l. reflexivity. }
  rewrite Hmain. unfold cont. clear Hmain cont. split.
  - intros W. rewrite (C92_not_saved le true fs file f _ (or_intror W)). reflexivity.
  - intros W.
    destruct (C91_format le fuel rnd prm f0 p (probability le) fs file) as (f1 & t1 & fs' & Er1 & Ebt1 & Ew & Ed & Hoth & Hrd & _);
      [exact E0|exact Hg|exact Hts|lia|rewrite Hpr; lia|exact Hdl|exact W|].
    rewrite Er in Er1. injection Er1 as <-. rewrite Ebt in Ebt1. injection Ebt1 as <-.
    exists fs'. split; [|split; [exact Ed|exact Hoth]]. rewrite Ew. cbn [bind negb].
    destruct (f_read fs file) eqn:R.
    + destruct (C91_round_trip le fuel rnd prm f0 p (probability le) fs file) as (f1 & fs1 & Er1 & Ew1 & Hread);
        [exact E0|exact Hg|exact Hts|lia|rewrite Hpr; lia|exact Hdl|exact W|exact R|].
      rewrite Er in Er1. injection Er1 as <-. rewrite Ew in Ew1. injection Ew1 as <-.
      rewrite Hread by discriminate. cbn [bind negb].
      destruct (list_eq_dec ascii_dec (probability le) (probability le)) as [_|N]; [|contradiction N; reflexivity].
      destruct (C26_equality fuel rnd prm f0 fuel rnd prm f0 E0 Hg E0 Hg p p f f Er Er) as (b & Eb & Hbb).
      rewrite Eb. cbn [bind]. replace b with true by (symmetry; apply Hbb; reflexivity). cbn [negb].
      rewrite (each_key_ok _ k ltac:(lia) _ _ fuel (keys_size k letters)) by (rewrite keys_length; fold n; lia).
      rewrite absent_none by exact Hkeys. reflexivity.
    + rewrite C92_no_file; [reflexivity|]. unfold can_open. rewrite Hrd, R. reflexivity.
Qed.
End Main.
