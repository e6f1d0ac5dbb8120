(* Properties C25-C27: Bloom filters. *)
From Verif Require Import Base Bloom_Model Bloom_Spec Bloom_Proofs.
Open Scope N_scope.

Definition ex_params : parameters := Params 1 (2 ^ 64 - 1) 1 (2 ^ 32 - 1) 50 42 3 64.
Definition ex_filter : filter :=
  match new_filter 0 (fun _ _ => 0) ex_params with Ok f => f | _ => Filter [] None 0 0 0 0 0 0 [] end.

(* C25.  Every program that builds filters of one parameter set by insertion,
   union, intersection, difference, assignment and clearing runs without
   undefined behaviour and answers true for every key it has to know. *)
Theorem C25_no_false_negatives : forall fuel rnd prm f0,
  new_filter fuel rnd prm = Ok f0 -> good_size (table_size prm) ->
  forall p, exists f, run f0 p = Ok f /\ forall k, must p k -> contains f k = Ok true.
Proof.
  intros fuel rnd prm f0 E Hg p.
  destruct (new_filter_plain fuel rnd prm f0 E Hg) as (t0 & Hp & Hb & Hc & _).
  destruct (run_ok f0 t0 Hp Hb Hc p) as (f & t & Er & Hpf & Hs & _ & _ & Hbits).
  exists f. split; [exact Er|]. intros k Hm.
  rewrite (contains_ok f t k (proj1 Hpf)), (same_pos f0 f k Hs). f_equal.
  rewrite <- (must_ideal (pos f0) p k Hm). clear -Hbits. induction (pos f0 k) as [|x l IH]; auto.
  cbn [forallb]. now rewrite Hbits, IH.
Qed.
Print Assumptions C25_no_false_negatives.

Example C25_no_false_negatives_ex :
  let p := Assign New (Union (Insert New (str "one")) (Insert (Clear (Insert New (str "two"))) (str "three"))) in
  must p (str "three") /\ (f <- run ex_filter p ;; contains f (str "three")) = Ok true /\
  (f <- run ex_filter p ;; contains f (str "one")) = Ok true /\ (f <- run ex_filter p ;; contains f (str "two")) = Ok false.
Proof. vm_compute. auto. Qed.

(* C25, exactly: the answers are those of a set of positions, each key having
   one position per hash, all below the table size. *)
Theorem C25_exact : forall fuel rnd prm f0,
  new_filter fuel rnd prm = Ok f0 -> good_size (table_size prm) ->
  exists ps : key -> list N,
    (forall k, length (ps k) = length (salt f0) /\ Forall (fun i => i < table_size prm) (ps k)) /\
    forall p, exists f, run f0 p = Ok f /\ inserted_count f = count p mod 2 ^ 32 /\
      forall k, contains f k = Ok (forallb (ideal ps p) (ps k)).
Proof.
  intros fuel rnd prm f0 E Hg.
  destruct (new_filter_plain fuel rnd prm f0 E Hg) as (t0 & Hp & Hb & Hc & Hsz & Hl).
  exists (pos f0). split.
  - intros k. unfold pos. rewrite map_length. split; auto. apply Forall_map, Forall_forall.
    intros s _. pose proof (red_lt (sizes f0) (hsh k s)) as H. rewrite Hsz in *. apply H; [discriminate|].
    repeat constructor. apply Hg.
  - intros p. destruct (run_ok f0 t0 Hp Hb Hc p) as (f & t & Er & Hpf & Hs & _ & Hct & Hbits).
    exists f. split; [exact Er|]. split; [exact Hct|]. intros k.
    rewrite (contains_ok f t k (proj1 Hpf)), (same_pos f0 f k Hs). f_equal.
    clear -Hbits. induction (pos f0 k) as [|x l IH]; auto. cbn [forallb]. now rewrite Hbits, IH.
Qed.
Print Assumptions C25_exact.

Example C25_exact_ex :
  (f <- run ex_filter (Union (Insert (Insert New (str "a")) (str "b")) (Insert New (str "c"))) ;; Ok (inserted_count f)) = Ok 2 /\
  count (Union (Insert (Insert New (str "a")) (str "b")) (Insert New (str "c"))) = 2.
Proof. vm_compute. auto. Qed.

(* construction succeeds, with the requested number of hashes, when the salts
   do not need rand() *)
Theorem C25_construction : forall fuel rnd prm, number_of_hashes prm <= 128 ->
  exists f0, new_filter fuel rnd prm = Ok f0 /\ length (salt f0) = N.to_nat (number_of_hashes prm).
Proof.
  intros fuel rnd prm H. unfold new_filter, generate_unique_salt.
  destruct (N.leb_spec (number_of_hashes prm) 128); [|lia].
  pose proof (mix_salts_ok (u64 (random_seed prm * 2779096485 + 1))
    (firstn (N.to_nat (number_of_hashes prm)) predef_salt)) as Hm.
  apply holds_ex in Hm. destruct Hm as (s & -> & Hl). eexists. split; [reflexivity|].
  cbn [salt]. rewrite Hl. apply firstn_length_le. change (length predef_salt) with 128%nat. lia.
Qed.
Print Assumptions C25_construction.

Example C25_construction_ex :
  match new_filter 0 (fun _ _ => 0) (Params 1 (2 ^ 64 - 1) 1 (2 ^ 32 - 1) 50 42 128 64) with
  | Ok f => length (salt f) = 128%nat /\ length (salt ex_filter) = 3%nat
  | _ => False
  end.
Proof. vm_compute. auto. Qed.

(* the size computed from the parameters is usable when the bounds are
   multiples of 8 *)
Theorem C25_parameters : forall k m prm prm',
  compute_optimal_parameters k m prm = Ok (Some prm') ->
  good_size (minimum_size prm) -> maximum_size prm mod 8 = 0 ->
  good_size (table_size prm') /\ minimum_size prm <= table_size prm' <= maximum_size prm /\
  1 <= number_of_hashes prm' /\ minimum_hashes prm <= number_of_hashes prm' <= maximum_hashes prm.
Proof.
  intros k m prm prm' E [Hg1 Hg2] Hmx. unfold compute_optimal_parameters in E.
  destruct (bad_parameters prm) eqn:Eb; [discriminate|]. unfold bad_parameters in Eb.
  rewrite !orb_false_iff in Eb. destruct Eb as ((((((B1 & B2) & B3) & B4) & B5) & B6) & B7).
  apply N.ltb_ge in B1, B2, B3.
  destruct (_ || _)%bool; [discriminate|]. injection E as <-. cbn [table_size number_of_hashes].
  set (x := u64 _).
  assert (Hx : x mod 8 = 0).
  { unfold x, u64. set (y := Z.to_N m).
    assert (Hy : (y + (if negb (y mod bits_per_char =? 0) then bits_per_char - y mod bits_per_char else 0)) mod 8 = 0).
    { change bits_per_char with 8. pose proof (N.mod_lt y 8 ltac:(lia)).
      pose proof (N.div_mod y 8 ltac:(lia)).
      destruct (N.eqb_spec (y mod 8) 0); cbn [negb].
      - now rewrite N.add_0_r.
      - replace (y + (8 - y mod 8)) with ((y / 8 + 1) * 8) by lia. apply N.mod_mul. lia. }
    set (z := y + _) in *. clearbody z. change (2 ^ 64) with (8 * 2 ^ 61).
    rewrite N.mod_mul_r by (try discriminate; lia).
    rewrite Hy, N.add_0_l, (N.mul_comm 8), N.mod_mul by lia. reflexivity. }
  split; [|split].
  - destruct (N.ltb_spec x (minimum_size prm)); [split; auto|].
    destruct (N.ltb_spec (maximum_size prm) x); split; auto; lia.
  - destruct (N.ltb_spec x (minimum_size prm)); [lia|].
    destruct (N.ltb_spec (maximum_size prm) x); lia.
  - destruct (N.ltb_spec k (minimum_hashes prm)); [lia|].
    destruct (N.ltb_spec (maximum_hashes prm) k); lia.
Qed.
Print Assumptions C25_parameters.

Example C25_parameters_ex :
  match compute_optimal_parameters 4 1001 (Params 8 4096 1 10 50 42 0 0) with
  | Ok (Some prm) => table_size prm = 1008 /\ number_of_hashes prm = 4
  | _ => False
  end.
Proof. vm_compute. auto. Qed.

(* The default bounds are no such multiples: minimum_size 1 can become the
   table size, the table then has no cell and the first insertion writes out of bounds. *)
Definition default_parameters (n : N) : parameters := Params 1 (2 ^ 64 - 1) 1 (2 ^ 32 - 1) n 42 0 0.
Theorem C25_default_bounds_refuted : exists prm f0,
  compute_optimal_parameters 1 0 (default_parameters 1) = Ok (Some prm) /\
  new_filter 0 (fun _ _ => 0) prm = Ok f0 /\ insert f0 (str "key") = UB.
Proof.
  eexists. eexists. split; [reflexivity|]. split; [vm_compute; reflexivity|]. vm_compute. reflexivity.
Qed.
Print Assumptions C25_default_bounds_refuted.

(* a user bound that is no multiple of 8, with a realistic table *)
Theorem C25_clamped_size_refuted : exists prm f0,
  compute_optimal_parameters 3 1000 (Params 1 100 1 10 50 42 0 0) = Ok (Some prm) /\
  new_filter 0 (fun _ _ => 0) prm = Ok f0 /\ insert_all f0 (map (fun c => [ascii_of_nat c]) (seq 0 256)) = UB.
Proof.
  eexists. eexists. split; [reflexivity|]. split; [vm_compute; reflexivity|]. vm_compute. reflexivity.
Qed.
Print Assumptions C25_clamped_size_refuted.

Theorem C25_contains_all : forall fuel rnd prm f0, new_filter fuel rnd prm = Ok f0 ->
  good_size (table_size prm) -> forall p ks, (forall k, In k ks -> must p k) ->
  exists f, run f0 p = Ok f /\ contains_all f ks = Ok (length ks).
Proof.
  intros fuel rnd prm f0 E Hg p ks Hk.
  destruct (C25_no_false_negatives fuel rnd prm f0 E Hg p) as (f & Er & Hf). exists f. split; [exact Er|].
  unfold contains_all.
  assert (H : forall i, contains_scan f true ks i = Ok (i + length ks)%nat).
  { induction ks as [|k ks IH]; intros i; cbn [contains_scan length]; [f_equal; lia|].
    rewrite Hf by (apply Hk; now left). cbn [bind Bool.eqb].
    rewrite IH by (intros; apply Hk; now right). f_equal. lia. }
  apply H.
Qed.
Print Assumptions C25_contains_all.

Example C25_contains_all_ex :
  let p := Insert (Insert New (str "alpha")) (str "beta") in
  (f <- run ex_filter p ;; contains_all f [str "beta"; str "alpha"; str "beta"]) = Ok 3%nat /\
  (f <- run ex_filter p ;; contains_all f [str "beta"; str "gamma"; str "beta"]) = Ok 1%nat.
Proof. vm_compute. auto. Qed.

Definition ex_prog : prog :=
  Union (Insert (Insert New (str "alpha")) (str "beta")) (Insert New (str "a longer key than eight")).
Example C25_ex : (f <- run ex_filter ex_prog ;; contains f (str "beta")) = Ok true /\
  (f <- run ex_filter ex_prog ;; contains f (str "a longer key than eight")) = Ok true /\
  (f <- run ex_filter ex_prog ;; contains f (str "gamma")) = Ok false /\
  (f <- run ex_filter (Clear ex_prog) ;; contains f (str "beta")) = Ok false /\
  good_size (table_size ex_params).
Proof. repeat split; vm_compute; reflexivity. Qed.

(* C26 *)
Theorem C26_incompatible_unchanged : forall op f g,
  salt_count f <> salt_count g \/ tsize f <> tsize g \/ seed f <> seed g -> combine op f g = Ok f.
Proof.
  intros op f g H. unfold combine, compatible.
  destruct (N.eqb_spec (salt_count f) (salt_count g)), (N.eqb_spec (tsize f) (tsize g)), (N.eqb_spec (seed f) (seed g));
    cbn [andb]; try reflexivity. tauto.
Qed.
Print Assumptions C26_incompatible_unchanged.

Example C26_incompatible_ex :
  match new_filter 0 (fun _ _ => 0) (Params 1 (2 ^ 64 - 1) 1 (2 ^ 32 - 1) 50 42 3 128) with
  | Ok g => combine N.lor ex_filter g = Ok ex_filter
  | _ => False
  end.
Proof. vm_compute. reflexivity. Qed.

Theorem C26_union_inter : forall fuel rnd prm f0,
  new_filter fuel rnd prm = Ok f0 -> good_size (table_size prm) ->
  forall p q, exists f g u i,
    run f0 p = Ok f /\ run f0 q = Ok g /\ combine N.lor f g = Ok u /\ combine N.land f g = Ok i /\
    forall k,
      (contains f k = Ok true \/ contains g k = Ok true -> contains u k = Ok true) /\
      (contains i k = Ok true <-> contains f k = Ok true /\ contains g k = Ok true) /\
      (must p k -> must q k -> contains i k = Ok true).
Proof.
  intros fuel rnd prm f0 E Hg p q.
  destruct (C25_exact fuel rnd prm f0 E Hg) as (ps & _ & H).
  destruct (H p) as (f & Ef & _ & Hf). destruct (H q) as (g & Eg & _ & Hg').
  destruct (H (Union p q)) as (u & Eu & _ & Hu). destruct (H (Inter p q)) as (i & Ei & _ & Hi).
  cbn [run] in Eu, Ei. rewrite Ef, Eg in Eu, Ei. cbn [bind] in Eu, Ei.
  exists f, g, u, i. do 4 (split; [auto|]). intros k. rewrite Hf, Hg', Hu, Hi. cbn [ideal].
  assert (Hor : forallb (ideal ps p) (ps k) = true \/ forallb (ideal ps q) (ps k) = true ->
                forallb (fun i => ideal ps p i || ideal ps q i) (ps k) = true).
  { rewrite !forallb_forall. intros [Hx|Hx] x Hin; rewrite (Hx x Hin); auto. apply orb_true_r. }
  assert (Hand : forallb (fun i => ideal ps p i && ideal ps q i) (ps k) = true <->
                 forallb (ideal ps p) (ps k) = true /\ forallb (ideal ps q) (ps k) = true).
  { rewrite !forallb_forall. split.
    - intros Hx. split; intros x Hin; specialize (Hx x Hin); apply andb_prop in Hx; tauto.
    - intros [H1 H2] x Hin. now rewrite (H1 x Hin), (H2 x Hin). }
  split; [|split].
  - intros Hx. f_equal. apply Hor. destruct Hx as [Hx|Hx]; [left|right]; congruence.
  - split.
    + intros Hx. destruct Hand as [Ha _]. destruct Ha as [Ha Hb]; [congruence|]. now rewrite Ha, Hb.
    + intros [Ha Hb]. f_equal. apply Hand. split; congruence.
  - intros Hp Hq. f_equal. apply Hand. split; now apply must_ideal.
Qed.
Print Assumptions C26_union_inter.

Example C26_union_inter_ex :
  let p := Insert (Insert New (str "x")) (str "y") in let q := Insert (Insert New (str "y")) (str "z") in
  (f <- run ex_filter p ;; g <- run ex_filter q ;; u <- combine N.lor f g ;; i <- combine N.land f g ;;
   a <- contains u (str "x") ;; b <- contains i (str "x") ;; c <- contains i (str "y") ;; d <- contains u (str "w") ;; Ok [a; b; c; d])
  = Ok [true; false; true; false].
Proof. vm_compute. reflexivity. Qed.

(* x ^= x empties the filter, and ^= is undone by repeating it *)
Theorem C26_diff : forall fuel rnd prm f0,
  new_filter fuel rnd prm = Ok f0 -> good_size (table_size prm) ->
  forall p q, exists f g, run f0 p = Ok f /\ run f0 (Diff (Diff p q) q) = Ok g /\
    forall k, contains g k = contains f k.
Proof.
  intros fuel rnd prm f0 E Hg p q. destruct (C25_exact fuel rnd prm f0 E Hg) as (ps & _ & H).
  destruct (H p) as (f & Ef & _ & Hf). destruct (H (Diff (Diff p q) q)) as (g & Eg & _ & Hg').
  exists f, g. split; [auto|]. split; [auto|]. intros k. rewrite Hf, Hg'. f_equal. cbn [ideal].
  induction (ps k) as [|x l IH]; auto. cbn [forallb]. rewrite IH. f_equal.
  destruct (ideal ps p x), (ideal ps q x); reflexivity.
Qed.
Print Assumptions C26_diff.

Example C26_diff_ex :
  let p := Insert New (str "x") in let q := Insert New (str "y") in
  (f <- run ex_filter (Diff (Diff p q) q) ;; contains f (str "x")) = Ok true /\
  (f <- run ex_filter (Diff (Diff p q) q) ;; contains f (str "y")) = Ok false /\
  (f <- run ex_filter (Diff p p) ;; contains f (str "x")) = Ok false.
Proof. vm_compute. auto. Qed.

(* operator== decides equality of the whole state *)
Theorem C26_equality : forall fuel rnd prm f0 fuel' rnd' prm' f0',
  new_filter fuel rnd prm = Ok f0 -> good_size (table_size prm) ->
  new_filter fuel' rnd' prm' = Ok f0' -> good_size (table_size prm') ->
  forall p q f g, run f0 p = Ok f -> run f0' q = Ok g ->
  exists b, equal true f g = Ok b /\ (b = true <-> f = g).
Proof.
  intros fuel rnd prm f0 fuel' rnd' prm' f0' E Hg E' Hg' p q f g Ef Eg.
  destruct (new_filter_plain fuel rnd prm f0 E Hg) as (t0 & Hp & Hb & Hc & _).
  destruct (new_filter_plain fuel' rnd' prm' f0' E' Hg') as (t0' & Hp' & Hb' & Hc' & _).
  destruct (run_ok f0 t0 Hp Hb Hc p) as (f1 & t & Er & Hpf & _).
  destruct (run_ok f0' t0' Hp' Hb' Hc' q) as (g1 & u & Er' & Hpg & _).
  rewrite Ef in Er. injection Er as <-. rewrite Eg in Er'. injection Er' as <-.
  now apply (equal_ok f g t u).
Qed.
Print Assumptions C26_equality.

Example C26_equality_ex :
  (f <- run ex_filter (Insert (Insert New (str "x")) (str "y")) ;; g <- run ex_filter (Insert (Insert New (str "y")) (str "x")) ;; equal true f g) = Ok true /\
  (f <- run ex_filter (Insert New (str "x")) ;; g <- run ex_filter (Insert New (str "y")) ;; equal true f g) = Ok false.
Proof. vm_compute. auto. Qed.

(* The copy constructor deletes an uninitialised pointer, so the binary
   operators that return a new filter are undefined for all operands. *)
Theorem C26_copy_refuted : forall op f g, copy_construct f = UB /\ combine_new op f g = UB.
Proof. split; reflexivity. Qed.
Print Assumptions C26_copy_refuted.

Example C26_ex :
  (f <- run ex_filter (Inter (Insert (Insert New (str "alpha")) (str "beta")) (Insert New (str "beta"))) ;;
   contains f (str "beta")) = Ok true /\
  (f <- run ex_filter (Inter (Insert (Insert New (str "alpha")) (str "beta")) (Insert New (str "beta"))) ;;
   contains f (str "alpha")) = Ok false.
Proof. split; vm_compute; reflexivity. Qed.

(* C27 *)
Theorem C27_compression_keeps_keys : forall fuel rnd prm f0,
  new_filter fuel rnd prm = Ok f0 -> good_size (table_size prm) ->
  forall p, halving (table_size prm) p ->
  exists f, crun f0 p = Ok f /\ last (sizes f) 0 = csize (table_size prm) p /\
    forall k, cmust p k -> contains f k = Ok true.
Proof.
  intros fuel rnd prm f0 E Hg p Hh.
  destruct (new_filter_plain fuel rnd prm f0 E Hg) as (t0 & (Hw & _) & _ & _ & Hsz & _).
  assert (Hl : last (sizes f0) 0 = table_size prm) by now rewrite Hsz.
  rewrite <- Hl in *. destruct (crun_ok f0 t0 Hw p Hh) as (f & t & Er & _ & Hls & Hk). eauto.
Qed.
Print Assumptions C27_compression_keeps_keys.

Example C27_keeps_keys_ex :
  let p := CInsert (CCompress (CInsert CNew (str "alpha")) true 45) (str "beta") in
  halving (table_size ex_params) p /\ csize 64 p = 40 /\
  (f <- crun ex_filter p ;; Ok (last (sizes f) 0)) = Ok 40 /\
  (f <- crun ex_filter p ;; contains_all f [str "alpha"; str "beta"]) = Ok 2%nat.
Proof. vm_compute. repeat split; discriminate. Qed.

(* a refused compression changes nothing; an accepted one shrinks the filter and
   keeps every positive answer *)
Theorem C27_single_step : forall fuel rnd prm f0,
  new_filter fuel rnd prm = Ok f0 -> good_size (table_size prm) ->
  forall p f, halving (table_size prm) p -> crun f0 p = Ok f ->
  forall r tg,
  if accepted (csize (table_size prm) p) r tg then
    csize (table_size prm) p <= 2 * new_size tg ->
    exists f', compress r tg f = Ok (Some f') /\ last (sizes f') 0 = new_size tg /\
      new_size tg < last (sizes f) 0 /\
      forall k, contains f k = Ok true -> contains f' k = Ok true
  else compress r tg f = Ok None.
Proof.
  intros fuel rnd prm f0 E Hg p f Hh Er r tg.
  destruct (new_filter_plain fuel rnd prm f0 E Hg) as (t0 & (Hw & _) & _ & _ & Hsz & _).
  assert (Hl : last (sizes f0) 0 = table_size prm) by now rewrite Hsz.
  rewrite <- Hl in *. destruct (crun_ok f0 t0 Hw p Hh) as (f1 & t & Er1 & Hwf & Hls & Hk).
  rewrite Er in Er1. injection Er1 as <-. rewrite <- Hls.
  pose proof (compress_ok f t r tg Hwf) as H. cbv zeta in H.
  destruct (accepted (last (sizes f) 0) r tg) eqn:Ea; auto. intros Hc.
  destruct (N.leb_spec (last (sizes f) 0) (2 * new_size tg)); [|lia].
  destruct H as (t' & f' & E' & Hw' & Hs & _). exists f'. split; [exact E'|].
  split; [rewrite Hs; apply last_last|]. split.
  - unfold accepted in Ea. rewrite !andb_true_iff in Ea. apply N.ltb_lt. tauto.
  - intros k Hc'. destruct (compress_keeps f t r tg f' k Hwf E' Hc') as (_ & _ & Hq). exact Hq.
Qed.
Print Assumptions C27_single_step.

Example C27_single_step_ex :
  accepted 64 true 45 = true /\ accepted 64 false 45 = false /\ accepted 64 true 80 = false /\
  compress true 80 ex_filter = Ok None /\
  match compress true 45 ex_filter with Ok (Some f) => last (sizes f) 0 = 40 | _ => False end.
Proof. vm_compute. repeat split. Qed.

(* every accepted compression to less than half writes beyond the new table *)
Theorem C27_more_than_half_refuted : forall fuel rnd prm f0,
  new_filter fuel rnd prm = Ok f0 -> good_size (table_size prm) ->
  forall tg, accepted (table_size prm) true tg = true -> 2 * new_size tg < table_size prm ->
  compress true tg f0 = UB.
Proof.
  intros fuel rnd prm f0 E Hg tg Ha Hh.
  destruct (new_filter_plain fuel rnd prm f0 E Hg) as (t0 & (Hw & _) & _ & _ & Hsz & _).
  assert (Hl : last (sizes f0) 0 = table_size prm) by now rewrite Hsz.
  pose proof (compress_ok f0 t0 true tg Hw) as H. cbv zeta in H. rewrite Hl, Ha in H.
  destruct (N.leb_spec (table_size prm) (2 * new_size tg)); [lia|exact H].
Qed.
Print Assumptions C27_more_than_half_refuted.

(* after a successful compression clear() and the set operations use the old size *)
Theorem C27_use_after_compress_refuted : forall fuel rnd prm f0,
  new_filter fuel rnd prm = Ok f0 -> good_size (table_size prm) ->
  forall tg f1, compress true tg f0 = Ok (Some f1) ->
  clear f1 = UB /\ forall op g, compatible f1 g = true -> bit_table g <> None -> combine op f1 g = UB.
Proof.
  intros fuel rnd prm f0 E Hg tg f1 Ec.
  destruct (new_filter_plain fuel rnd prm f0 E Hg) as (t0 & (Hw & _ & Hraw) & _ & _ & Hsz & _).
  assert (Hl : last (sizes f0) 0 = table_size prm) by now rewrite Hsz.
  pose proof (compress_ok f0 t0 true tg Hw) as H. cbv zeta in H.
  destruct (accepted (last (sizes f0) 0) true tg) eqn:Ea; [|congruence].
  destruct (N.leb_spec (last (sizes f0) 0) (2 * new_size tg)); [|congruence].
  destruct H as (t' & f' & E' & Hw' & Hs & _ & Hr & _ & _ & _ & _ & Hlen & _).
  rewrite Ec in E'. injection E' as <-.
  unfold accepted in Ea. rewrite !andb_true_iff in Ea. destruct Ea as [_ Ea]. apply N.ltb_lt in Ea.
  pose proof Hw as (_ & _ & _ & Hlast). pose proof Hw' as (Ht' & _).
  assert (Hlt : (length t' < N.to_nat (raw_table_size f1))%nat) by (rewrite Hr; lia).
  split.
  - unfold clear, table. rewrite Ht'. cbn [bind].
    destruct (Nat.ltb_spec (length t') (N.to_nat (raw_table_size f1))); [reflexivity|lia].
  - intros op g Hc Hn. unfold combine, table. rewrite Hc, Ht'.
    destruct (bit_table g) as [u|]; [|congruence]. cbn [bind].
    assert (HU : forall c i s, length s = length t' -> (i + c = N.to_nat (raw_table_size f1))%nat ->
       (i <= length t')%nat ->
       for_up i c (fun i t => a <- rd t i ;; b <- rd u i ;; wr t i (op a b)) s = UB).
    { induction c as [|c IH]; intros i s Hs1 Hk Hi; [lia|]. cbn [for_up].
      destruct (Nat.eq_dec i (length t')) as [->|Hne'].
      - unfold rd at 1. replace (nth_error s (length t')) with (@None N); [reflexivity|].
        symmetry. apply nth_error_None. lia.
      - rewrite (rd_nth0 s) by lia. cbn [bind]. unfold rd.
        destruct (nth_error u i); [|reflexivity]. cbn [bind]. rewrite wr_upd by lia. cbn [bind].
        apply IH; [now rewrite upd_length|lia|lia]. }
    rewrite HU; [reflexivity|auto|lia|lia].
Qed.
Print Assumptions C27_use_after_compress_refuted.

Definition ex_cprog : cprog :=
  CInsert (CCompress (CCompress (CInsert (CInsert CNew (str "alpha")) (str "beta")) true 45) true 20) (str "delta").
Example C27_ex : halving (table_size ex_params) (CCompress (CInsert CNew (str "alpha")) true 45) /\
  accepted 64 true 45 = true /\
  (f <- crun ex_filter (CCompress (CInsert CNew (str "alpha")) true 45) ;; contains f (str "alpha")) = Ok true /\
  (f <- crun ex_filter ex_cprog ;; contains f (str "beta")) = UB.
Proof. repeat split; vm_compute; congruence. Qed.
