From Verif Require Import Base Codec_Tables Codec_Model Codec_Spec Edit_Proofs Codec_Proofs Codec_Proofs2 Bits_Model Bits_Spec.
Local Ltac Zify.zify_post_hook ::= Z.div_mod_to_equations.

(* ---- generic loops ---- *)
Lemma for_up_emit {A} (w n : nat) (g : nat -> list A) (body : nat -> list A -> outcome (list A)) (out : list A) :
  (forall i, i < n -> length (g i) = w) -> w * n <= length out ->
  (forall i pre gap, i < n -> length pre = w * i -> w <= length gap ->
     body i (pre ++ gap) = Ok (pre ++ g i ++ skipn w gap)) ->
  for_up 0 n body out = Ok (concat (map g (seq 0 n)) ++ skipn (w * n) out).
Proof.
  intros Hg Hout Hb. apply holds_eq.
  pose proof (for_up_rule (S := list A) (fun i t => exists pre, t = pre ++ skipn (w * i) out /\
     length pre = w * i /\ pre = concat (map g (seq 0 i)))) as R.
  eapply holds_weaken; [apply R|].
  - intros k t Hk (pre & -> & Hl & Hp). cbn [plus] in Hk.
    assert (Hgap : w <= length (skipn (w * k) out)) by (rewrite skipn_length; nia).
    rewrite (Hb k pre _ ltac:(lia) Hl Hgap). cbn [holds].
    exists (pre ++ g k). rewrite skipn_skipn, app_length, Hl, Hg by lia.
    split; [rewrite <- app_assoc; do 3 f_equal; lia|]. split; [lia|].
    rewrite seq_S, map_app, concat_app. cbn [map concat plus]. now rewrite app_nil_r, <- Hp.
  - exists []. rewrite Nat.mul_0_r. auto.
  - intros t (pre & -> & Hl & ->). reflexivity.
Qed.

Lemma for_up_sum (n : nat) (g : nat -> N) (body : nat -> N -> outcome N) :
  (forall i acc, i < n -> body i acc = Ok (acc + g i)%N) ->
  for_up 0 n body 0%N = Ok (fold_right N.add 0%N (map g (seq 0 n))).
Proof.
  intros Hb. apply holds_eq.
  pose proof (for_up_rule (S := N) (fun i t => t = fold_right N.add 0%N (map g (seq 0 i)))) as R.
  eapply holds_weaken; [apply R|].
  - intros k t Hk ->. cbn [plus] in Hk. rewrite Hb by lia. cbn [holds].
    rewrite seq_S, map_app, fold_right_app. cbn [plus map fold_right].
    generalize (map g (seq 0 k)). intros l. rewrite N.add_0_r. generalize (g k). intros x.
    induction l as [|y l IH]; cbn [fold_right]; [lia|]. rewrite <- IH. lia.
  - reflexivity.
  - intros t ->. reflexivity.
Qed.

Lemma map_seq_nth {A B} (f : A -> B) (d : A) (s : list A) :
  map (fun i => f (nth i s d)) (seq 0 (length s)) = map f s.
Proof.
  rewrite <- (map_map (fun i => nth i s d) f). f_equal.
  induction s as [|x s IH]; auto. cbn [length seq map nth]. f_equal.
  rewrite <- seq_shift, map_map. exact IH.
Qed.

Lemma map2_seq_nth {A B C} (f : A -> B -> C) (d : A) (e : B) (s : list A) (t : list B) : length s = length t ->
  map (fun i => f (nth i s d) (nth i t e)) (seq 0 (length s)) = map (fun p => f (fst p) (snd p)) (combine s t).
Proof.
  revert t; induction s as [|x s IH]; intros [|y t] H; try discriminate; auto.
  cbn [length seq map nth combine fst snd]. f_equal. rewrite <- seq_shift, map_map. apply IH. now injection H.
Qed.

Lemma rd_nth_d {A} (d : A) (s : list A) i : i < length s -> rd s i = Ok (nth i s d).
Proof. intros H. apply rd_nth. now apply nth_error_nth'. Qed.

Lemma wr_2 (pre gap : list ascii) a b k : length pre = 2 * k -> 2 <= length gap ->
  (out <- wr (pre ++ gap) (2 * k) a ;; wr out (2 * k + 1) b) = Ok (pre ++ [a; b] ++ skipn 2 gap).
Proof.
  intros Hl Hg. destruct (list_split2 gap Hg) as (x & y & r & ->). rewrite <- Hl, wr_here. cbn [bind].
  rewrite (app_cons_assoc pre). replace (length pre + 1) with (length (pre ++ [a])) by (rewrite app_length; reflexivity).
  rewrite wr_here. now rewrite <- app_assoc.
Qed.

(* ---- bit views ---- *)
Lemma bits_of_length s : length (bits_of s) = 8 * length s.
Proof. unfold bits_of. induction s as [|c s IH]; auto. cbn [map concat]. rewrite app_length, IH. cbn [length]. simpl. lia. Qed.

Lemma bits_of_app a b : bits_of (a ++ b) = bits_of a ++ bits_of b.
Proof. unfold bits_of. now rewrite map_app, concat_app. Qed.

Lemma bits_of_cons c b : bits_of (c :: b) = bits_of_byte c ++ bits_of b.
Proof. reflexivity. Qed.

Fixpoint list_beq (a b : list bool) : bool :=
  match a, b with
  | [], [] => true
  | x :: a', y :: b' => Bool.eqb x y && list_beq a' b'
  | _, _ => false
  end.
Lemma list_beq_ok a b : list_beq a b = true -> a = b.
Proof.
  revert b; induction a as [|x a IH]; intros [|y b]; simpl; intros H; try discriminate; auto.
  apply andb_prop in H. destruct H as [H1 H2]. apply Bool.eqb_prop in H1. f_equal; auto.
Qed.

Lemma sweep2 (P : ascii -> ascii -> bool) :
  forallb (fun a => forallb (P a) all_bytes) all_bytes = true -> forall a b, P a b = true.
Proof.
  intros H a b. rewrite forallb_forall in H. specialize (H a (in_all_bytes a)).
  rewrite forallb_forall in H. apply H, in_all_bytes.
Qed.

Lemma bits_of_byte_all c : bits_of_byte c = let (b0,b1,b2,b3,b4,b5,b6,b7) := c in [b0;b1;b2;b3;b4;b5;b6;b7].
Proof.
  apply list_beq_ok.
  pose (P := fun c => list_beq (bits_of_byte c) (let (b0,b1,b2,b3,b4,b5,b6,b7) := c in [b0;b1;b2;b3;b4;b5;b6;b7])).
  change (P c = true). apply all_bytes_spec. vm_compute. reflexivity.
Qed.

(* ---- interleave ---- *)
Definition ilv (a b : ascii) : list ascii :=
  match lookup interleave_table (byte b), lookup interleave_table (byte a) with
  | Ok t2, Ok t1 => let v := N.lor (N.shiftl t2 1 mod 65536) t1 in [to_byte v; to_byte (N.shiftr v 8)]
  | _, _ => []
  end.

Lemma interleave_total b : exists t, lookup interleave_table (byte b) = Ok t.
Proof.
  pose (P := fun c => match lookup interleave_table (byte c) with Ok _ => true | _ => false end).
  assert (H : P b = true) by (apply all_bytes_spec; vm_compute; reflexivity).
  unfold P in H. destruct (lookup interleave_table (byte b)); try discriminate. eauto.
Qed.

Lemma bits_of_to_byte v : bits_of_byte (to_byte v) = low_bits 8 v.
Proof.
  unfold bits_of_byte, low_bits, to_byte. rewrite N_ascii_embedding by (apply N.mod_lt; lia).
  apply map_ext_in. intros k Hk. apply in_seq in Hk. change 256%N with (2 ^ 8)%N. apply N.mod_pow2_bits_low. lia.
Qed.

Lemma interleave_entry b : exists t, lookup interleave_table (byte b) = Ok t /\
  low_bits 16 t = alternate (bits_of_byte b) (repeat false 8).
Proof.
  pose (P := fun c => match lookup interleave_table (byte c) with
     Ok t => list_beq (low_bits 16 t) (alternate (bits_of_byte c) (repeat false 8)) | _ => false end).
  assert (H : P b = true) by (apply all_bytes_spec; vm_compute; reflexivity).
  unfold P in H. destruct (lookup interleave_table (byte b)) as [t| |]; try discriminate.
  exists t. split; auto. now apply list_beq_ok.
Qed.

Lemma low_bits16_2 v : bits_of [to_byte v; to_byte (N.shiftr v 8)] = low_bits 16 v.
Proof.
  unfold bits_of. cbn [map concat]. rewrite !bits_of_to_byte, app_nil_r.
  unfold low_bits. change (seq 0 16) with (seq 0 8 ++ map (fun k => k + 8) (seq 0 8)).
  rewrite map_app, map_map. f_equal. apply map_ext. intros k. rewrite N.shiftr_spec by lia. f_equal. lia.
Qed.

Lemma ilv_bits a b : bits_of (ilv a b) = alternate (bits_of_byte a) (bits_of_byte b).
Proof.
  unfold ilv. destruct (interleave_entry a) as (t1 & -> & E1). destruct (interleave_entry b) as (t2 & -> & E2).
  cbv zeta. rewrite low_bits16_2.
  rewrite bits_of_byte_all in E1, E2. rewrite !bits_of_byte_all. destruct a, b.
  unfold low_bits in *. cbn [seq map alternate repeat] in *.
  injection E1; clear E1; intros. injection E2; clear E2; intros.
  assert (Lo : forall k, (k < 16)%N -> N.testbit (N.lor (N.shiftl t2 1 mod 65536) t1) k =
      (if (k =? 0)%N then false else N.testbit t2 (k - 1)) || N.testbit t1 k).
  { intros k Hk. rewrite N.lor_spec. f_equal. change 65536%N with (2 ^ 16)%N.
    rewrite N.mod_pow2_bits_low by exact Hk. destruct (N.eqb_spec k 0) as [->|Hn].
    - now rewrite N.shiftl_spec_low by lia.
    - now rewrite N.shiftl_spec_high' by lia. }
  rewrite !Lo by lia. simpl N.of_nat in *. cbn [N.eqb N.sub Pos.eqb Pos.pred_N Pos.sub_mask Pos.pred_mask Pos.double_mask Pos.succ_double_mask Pos.double_pred_mask Pos.pred_double].
  repeat match goal with H : N.testbit ?t ?k = _ |- _ => rewrite ?H; clear H end.
  now rewrite !orb_false_r.
Qed.

Lemma alternate_app a b c d : length a = length b -> alternate (a ++ c) (b ++ d) = alternate a b ++ alternate c d.
Proof.
  revert b; induction a as [|x a IH]; intros [|y b] H; try discriminate; auto.
  cbn [app alternate]. f_equal. f_equal. apply IH. now injection H.
Qed.

Lemma ilv_length a b : length (ilv a b) = 2.
Proof. unfold ilv. destruct (interleave_total a) as (t & ->). destruct (interleave_total b) as (u & ->). reflexivity. Qed.

Lemma interleave_ok s1 s2 out : length s1 = length s2 -> 2 * length s1 <= length out ->
  exists t, twoway_bitwise_interleave s1 s2 out = Ok (true, t ++ skipn (2 * length s1) out) /\
    length t = 2 * length s1 /\ bits_of t = alternate (bits_of s1) (bits_of s2).
Proof.
  intros Hl Hout. unfold twoway_bitwise_interleave. rewrite Hl, Nat.eqb_refl. cbn [negb]. rewrite <- Hl.
  rewrite (for_up_emit 2 (length s1) (fun i => ilv (nth i s1 zero) (nth i s2 zero))).
  - cbn [bind]. rewrite (map2_seq_nth ilv) by exact Hl. eexists. split; [reflexivity|].
    clear Hout. revert s2 Hl. induction s1 as [|a s1 IH]; intros [|b s2] Hl; try discriminate; [auto|].
    injection Hl as Hl. destruct (IH s2 Hl) as [H1 H2].
    cbn [combine map concat fst snd]. split.
    + rewrite app_length, ilv_length, H1. simpl. lia.
    + rewrite bits_of_app, ilv_bits, H2, !bits_of_cons. symmetry. apply alternate_app. reflexivity.
  - intros; apply ilv_length.
  - exact Hout.
  - intros i pre gap Hi Hp Hg. rewrite (rd_nth_d zero s2) by lia. cbn [bind].
    destruct (interleave_total (nth i s2 zero)) as (t2 & E2). rewrite E2. cbn [bind].
    rewrite (rd_nth_d zero s1) by lia. cbn [bind].
    destruct (interleave_total (nth i s1 zero)) as (t1 & E1). rewrite E1. cbn [bind]. cbv zeta.
    rewrite wr_2 by assumption. unfold ilv. now rewrite E1, E2.
Qed.

Lemma alternate_inj a b c d : length a = length b -> length c = length d ->
  alternate a b = alternate c d -> a = c /\ b = d.
Proof.
  revert b c d; induction a as [|x a IH]; intros [|y b] [|z c] [|w d] H1 H2 E; try discriminate; auto.
  injection E as -> -> E. destruct (IH b c d) as [-> ->]; auto.
Qed.

Lemma bits_of_byte_inj a b : bits_of_byte a = bits_of_byte b -> a = b.
Proof. rewrite !bits_of_byte_all. destruct a, b. intros H. congruence. Qed.

Lemma bits_of_inj a b : bits_of a = bits_of b -> a = b.
Proof.
  revert b; induction a as [|x a IH]; intros [|y b] E; auto.
  - discriminate.
  - discriminate.
  - rewrite !bits_of_cons in E.
    assert (H : bits_of_byte x = bits_of_byte y /\ bits_of a = bits_of b).
    { change (bits_of_byte x) with (map (fun k => N.testbit (N_of_ascii x) (N.of_nat k)) (seq 0 8)) in *.
      change (bits_of_byte y) with (map (fun k => N.testbit (N_of_ascii y) (N.of_nat k)) (seq 0 8)) in *.
      set (u := map _ (seq 0 8)) in *. set (v := map (fun k => N.testbit (N_of_ascii y) (N.of_nat k)) (seq 0 8)) in *.
      assert (Hu : length u = length v) by reflexivity. clearbody u v.
      split.
      - apply (f_equal (firstn (length u))) in E. rewrite firstn_app_len in E. rewrite Hu, firstn_app_len in E. exact E.
      - apply (f_equal (skipn (length u))) in E. rewrite skipn_app_len in E. rewrite Hu, skipn_app_len in E. exact E. }
    destruct H as [H1 H2]. f_equal; [now apply bits_of_byte_inj|auto].
Qed.

(* string version overflows its buffer *)
Lemma interleave_str_ub s1 s2 out : length s1 = length s2 -> s1 <> [] ->
  twoway_bitwise_interleave_str s1 s2 out = UB.
Proof.
  intros Hl Hne. unfold twoway_bitwise_interleave_str, twoway_bitwise_interleave.
  rewrite Hl, Nat.eqb_refl. cbn [negb].
  set (o := resize out (length s2)).
  assert (Ho : length o = length s2) by apply resize_length. clearbody o.
  match goal with |- bind (for_up 0 _ ?b _) _ = _ => set (body := b) end.
  assert (G : forall n i t, i + n = length s2 -> length t = length s2 -> length s2 < 2 * (i + n) -> n > 0 ->
     for_up i n body t = UB).
  { induction n as [|n IH]; intros i t Hi Ht Hx Hn; [lia|]. cbn [for_up].
    unfold body at 1.
    rewrite (rd_nth_d zero s2) by lia. cbn [bind].
    destruct (interleave_total (nth i s2 zero)) as (t2 & ->). cbn [bind].
    rewrite (rd_nth_d zero s1) by lia. cbn [bind].
    destruct (interleave_total (nth i s1 zero)) as (t1 & ->). cbn [bind]. cbv zeta.
    unfold wr at 1. destruct (Nat.ltb_spec (2 * i) (length t)); [|reflexivity]. cbn [bind].
    unfold wr at 1. rewrite upd_length.
    destruct (Nat.ltb_spec (2 * i + 1) (length t)); [|reflexivity]. cbn [bind].
    apply IH; rewrite ?upd_length; lia. }
  rewrite G; auto; destruct s1; [congruence|simpl in Hl; lia|congruence|simpl in Hl; lia].
Qed.

(* ---- n-way tables ---- *)
Lemma nway_ok n i m : In n [2;4;8]%N -> i < 256 ->
  exists v, nth_error (create_nway_interleave_table n) i = Some v /\
  N.testbit v (N.of_nat m) = (if (m mod N.to_nat n =? 0) && (m / N.to_nat n <? 8)
                   then N.testbit (N.of_nat i) (N.of_nat (m / N.to_nat n)) else false).
Proof.
  intros Hn Hi. exists (nway_entry n (N.of_nat i)). split.
  { unfold create_nway_interleave_table. rewrite nth_error_map.
    assert (E : nth_error (seq 0 256) i = Some i).
    { rewrite (nth_error_nth' _ 0) by (rewrite seq_length; exact Hi). now rewrite seq_nth by exact Hi. }
    now rewrite E. }
  assert (F : forall n, In n [2;4;8]%N ->
    forallb (fun i => (nway_entry n (N.of_nat i) <? 2 ^ 64)%N &&
      forallb (fun m => Bool.eqb (N.testbit (nway_entry n (N.of_nat i)) (N.of_nat m))
        (if (m mod N.to_nat n =? 0) && (m / N.to_nat n <? 8)
         then N.testbit (N.of_nat i) (N.of_nat (m / N.to_nat n)) else false)) (seq 0 64)) (seq 0 256) = true).
  { intros k [<-|[<-|[<-|[]]]]; vm_compute; reflexivity. }
  specialize (F n Hn). rewrite forallb_forall in F. specialize (F i ltac:(apply in_seq; lia)).
  apply andb_prop in F. destruct F as [Fb F].
  destruct (Nat.lt_ge_cases m 64) as [Hm|Hm].
  - rewrite forallb_forall in F. specialize (F m ltac:(apply in_seq; lia)). now apply Bool.eqb_prop in F.
  - assert (Hm8 : (m / N.to_nat n <? 8) = false).
    { apply Nat.ltb_ge. destruct Hn as [<-|[<-|[<-|[]]]].
      - change (N.to_nat 2) with 2. lia.
      - change (N.to_nat 4) with 4. lia.
      - change (N.to_nat 8) with 8. lia. }
    rewrite Hm8, andb_false_r. apply N.ltb_lt in Fb.
    rewrite <- (N.mod_small (nway_entry n (N.of_nat i)) (2 ^ 64)) by exact Fb.
    apply N.mod_pow2_bits_high. lia.
Qed.

(* ---- bitwise transform ---- *)
Definition bool_op (o : bitwise_operation) (a b : bool) : bool :=
  match o with eAND => a && b | eOR => a || b | eXOR => xorb a b end.

Lemma combine_map_same {A B C} (f : A -> B) (g : A -> C) l : combine (map f l) (map g l) = map (fun x => (f x, g x)) l.
Proof. induction l; simpl; congruence. Qed.

Lemma op_bits o a b : bits_of_byte (to_byte (apply_op o (byte a) (byte b)))
  = map (fun p => bool_op o (fst p) (snd p)) (combine (bits_of_byte a) (bits_of_byte b)).
Proof.
  rewrite bits_of_to_byte. unfold low_bits, bits_of_byte, byte. rewrite combine_map_same, map_map.
  apply map_ext. intros k. cbn [fst snd]. destruct o; cbn [apply_op bool_op].
  - apply N.land_spec.
  - apply N.lor_spec.
  - apply N.lxor_spec.
Qed.

Lemma combine_app {A B} (a c : list A) (b d : list B) : length a = length b ->
  combine (a ++ c) (b ++ d) = combine a b ++ combine c d.
Proof.
  revert b; induction a as [|x a IH]; intros [|y b] H; try discriminate; auto.
  cbn [app combine]. f_equal. apply IH. now injection H.
Qed.

Lemma wr_1 {A} (pre gap : list A) a k : length pre = 1 * k -> 1 <= length gap ->
  wr (pre ++ gap) k a = Ok (pre ++ [a] ++ skipn 1 gap).
Proof.
  intros Hl Hg. destruct gap as [|x r]; [simpl in Hg; lia|]. rewrite Nat.mul_1_l in Hl. rewrite <- Hl, wr_here. reflexivity.
Qed.

Lemma bitwise_transform_ok o s1 s2 out : length s1 <= length s2 -> length s1 <= length out ->
  exists t, bitwise_transform o s1 s2 out = Ok (t ++ skipn (length s1) out) /\ length t = length s1 /\
    bits_of t = map (fun p => bool_op o (fst p) (snd p)) (combine (bits_of s1) (bits_of s2)).
Proof.
  intros Hl Hout. unfold bitwise_transform.
  rewrite (for_up_emit 1 (length s1)
     (fun i => [to_byte (apply_op o (byte (nth i s1 zero)) (byte (nth i s2 zero)))])).
  - rewrite Nat.mul_1_l. eexists. split; [reflexivity|].
    clear Hout out. revert s2 Hl. induction s1 as [|a s1 IH]; intros s2 Hl; [auto|].
    destruct s2 as [|b s2]; [simpl in Hl; lia|]. specialize (IH s2 ltac:(simpl in Hl; lia)).
    cbn [length seq map concat]. rewrite <- seq_shift, map_map. cbn [nth].
    destruct IH as [H1 H2]. split.
    + rewrite app_length, H1. reflexivity.
    + rewrite bits_of_app, H2, !bits_of_cons, combine_app by reflexivity. rewrite map_app. f_equal.
      rewrite <- op_bits.
      unfold bits_of. cbn [map concat]. apply app_nil_r.
  - reflexivity.
  - lia.
  - intros i pre gap Hi Hp Hg. rewrite (rd_nth_d zero s1), (rd_nth_d zero s2) by lia. cbn [bind].
    now apply wr_1.
Qed.

(* ---- counting ---- *)
Lemma hbc_byte c : high_bit_count_byte (byte c) = Ok (N.of_nat (ones_in (bits_of_byte c))).
Proof.
  apply okN_is_true.
  pose (P := fun c => okN_is (high_bit_count_byte (byte c)) (N.of_nat (ones_in (bits_of_byte c)))).
  change (P c = true). apply all_bytes_spec. vm_compute. reflexivity.
Qed.

Lemma ones_app a b : ones_in (a ++ b) = ones_in a + ones_in b.
Proof. unfold ones_in. now rewrite filter_app, app_length. Qed.

Lemma high_bit_count_ok s : high_bit_count s = Ok (N.of_nat (ones_in (bits_of s))).
Proof.
  unfold high_bit_count.
  rewrite (for_up_sum _ (fun i => N.of_nat (ones_in (bits_of_byte (nth i s zero))))).
  - rewrite (map_seq_nth (fun c => N.of_nat (ones_in (bits_of_byte c)))). f_equal.
    induction s as [|c s IH]; auto. rewrite bits_of_cons, ones_app. cbn [map fold_right]. rewrite IH. lia.
  - intros i acc Hi. rewrite (rd_nth_d zero) by exact Hi. cbn [bind]. now rewrite hbc_byte.
Qed.

Lemma map_seq_shift {A} (f : nat -> A) n : forall k m, map f (seq (n + m) k) = map (fun j => f (n + j)) (seq m k).
Proof.
  induction k as [|k IH]; intros m; auto. cbn [seq map]. f_equal.
  specialize (IH (S m)). rewrite Nat.add_succ_r in IH. exact IH.
Qed.

Lemma low_bits_app n k v : low_bits (n + k) v = low_bits n v ++ map (fun j => N.testbit v (N.of_nat (n + j))) (seq 0 k).
Proof.
  unfold low_bits. rewrite seq_app, map_app. f_equal. cbn [plus].
  pose proof (map_seq_shift (fun j => N.testbit v (N.of_nat j)) n k 0) as H. rewrite Nat.add_0_r in H. exact H.
Qed.

Lemma low_bits8_byte v : (v < 256)%N -> low_bits 8 v = bits_of_byte (ascii_of_N v).
Proof. intros H. unfold low_bits, bits_of_byte. now rewrite N_ascii_embedding. Qed.

Lemma high_bit_count_int_ok w v : high_bit_count_int w v = Ok (N.of_nat (ones_in (low_bits (8 * w) v))).
Proof.
  unfold high_bit_count_int.
  rewrite (for_up_sum _ (fun k => N.of_nat (ones_in (low_bits 8 (N.shiftr v (8 * N.of_nat k)))))).
  - f_equal. induction w as [|w IH]; auto.
    rewrite seq_S, map_app, fold_right_app. cbn [map fold_right plus].
    replace (8 * S w) with (8 * w + 8) by lia. rewrite low_bits_app, ones_app, Nat2N.inj_add, <- IH.
    rewrite N.add_0_r.
    replace (map (fun j => N.testbit v (N.of_nat (8 * w + j))) (seq 0 8)) with (low_bits 8 (N.shiftr v (8 * N.of_nat w))).
    + generalize (N.of_nat (ones_in (low_bits 8 (N.shiftr v (8 * N.of_nat w))))).
      generalize (map (fun k => N.of_nat (ones_in (low_bits 8 (N.shiftr v (8 * N.of_nat k))))) (seq 0 w)).
      intros l x. clear. induction l as [|y l IH]; cbn [fold_right]; [lia|]. rewrite IH. lia.
    + unfold low_bits. apply map_ext. intros j. rewrite N.shiftr_spec by lia. f_equal. lia.
  - intros i acc Hi. set (u := N.shiftr v (8 * N.of_nat i)).
    assert (Hu : (u mod 256 < 256)%N) by (apply N.mod_lt; lia).
    rewrite <- (N_ascii_embedding (u mod 256)) by exact Hu.
    change (N_of_ascii (ascii_of_N (u mod 256))) with (byte (ascii_of_N (u mod 256))).
    rewrite hbc_byte. cbn [bind]. rewrite <- low_bits8_byte by exact Hu.
    do 4 f_equal. unfold low_bits. apply map_ext_in. intros k Hk. apply in_seq in Hk.
    change 256%N with (2 ^ 8)%N. apply N.mod_pow2_bits_low. lia.
Qed.

Lemma xor_count a b : high_bit_count_byte (N.land (N.lxor (byte a) (byte b)) 255)
  = Ok (N.of_nat (differing (bits_of_byte a) (bits_of_byte b))).
Proof.
  rewrite land255.
  assert (Hu : (N.lxor (byte a) (byte b) mod 256 < 256)%N) by (apply N.mod_lt; lia).
  rewrite <- (N_ascii_embedding (N.lxor (byte a) (byte b) mod 256)) by exact Hu.
  change (N_of_ascii (ascii_of_N (N.lxor (byte a) (byte b) mod 256))) with (byte (to_byte (N.lxor (byte a) (byte b)))).
  rewrite hbc_byte. do 2 f_equal. pose proof (op_bits eXOR a b) as H. cbn [apply_op] in H. rewrite H.
  unfold ones_in, differing. cbn [bool_op]. generalize (combine (bits_of_byte a) (bits_of_byte b)).
  intros l. induction l as [|p l IH]; auto. cbn [map filter]. destruct (xorb (fst p) (snd p)); simpl; congruence.
Qed.

Lemma differing_app a b c d : length a = length b -> differing (a ++ c) (b ++ d) = differing a b + differing c d.
Proof. intros H. unfold differing. now rewrite combine_app, filter_app, app_length by exact H. Qed.

Lemma hamming_ok s1 s2 : length s1 = length s2 ->
  hamming_distance s1 s2 = Ok (N.of_nat (differing (bits_of s1) (bits_of s2))).
Proof.
  intros Hl. unfold hamming_distance. rewrite Hl, Nat.eqb_refl. cbn [negb]. rewrite <- Hl.
  rewrite (for_up_sum _ (fun i => N.of_nat (differing (bits_of_byte (nth i s1 zero)) (bits_of_byte (nth i s2 zero))))).
  - f_equal. rewrite (map2_seq_nth (fun a b => N.of_nat (differing (bits_of_byte a) (bits_of_byte b)))) by exact Hl.
    revert s2 Hl. induction s1 as [|a s1 IH]; intros [|b s2] Hl; try discriminate; auto.
    rewrite !bits_of_cons, differing_app by reflexivity. injection Hl as Hl.
    cbn [combine map fold_right fst snd]. rewrite IH by exact Hl. lia.
  - intros i acc Hi. rewrite (rd_nth_d zero s1), (rd_nth_d zero s2) by lia. cbn [bind]. now rewrite xor_count.
Qed.

Lemma differing_zero a b : length a = length b -> differing a b = 0 -> a = b.
Proof.
  revert b; induction a as [|x a IH]; intros [|y b] H E; try discriminate; auto.
  injection H as H. unfold differing in *. cbn [combine filter fst snd] in E.
  destruct (xorb x y) eqn:Ex; [discriminate|]. assert (x = y) by (destruct x, y; simpl in Ex; congruence). subst. f_equal. auto.
Qed.
Lemma differing_refl a : differing a a = 0.
Proof. unfold differing. induction a as [|x a IH]; auto. cbn [combine filter fst snd]. now rewrite xorb_nilpotent. Qed.
Lemma differing_sym a b : differing a b = differing b a.
Proof.
  revert b; induction a as [|x a IH]; intros [|y b]; auto. unfold differing in *. cbn [combine filter fst snd].
  rewrite (xorb_comm x y). specialize (IH b). destruct (xorb y x); simpl; congruence.
Qed.
Lemma differing_triangle a b c : length a = length b -> length b = length c ->
  differing a c <= differing a b + differing b c.
Proof.
  revert b c; induction a as [|x a IH]; intros [|y b] [|z c] H1 H2; try discriminate; auto.
  injection H1 as H1. injection H2 as H2. specialize (IH b c H1 H2).
  unfold differing in *. cbn [combine filter fst snd].
  destruct x, y, z; cbn [xorb length]; lia.
Qed.

(* ---- addressing ---- *)
Lemma shiftr3 i : Nat.shiftr i 3 = i / 8.
Proof. now rewrite Nat.shiftr_div_pow2. Qed.
Lemma land7 i : Nat.land i 7 = i mod 8.
Proof. change 7 with (Nat.ones 3). now rewrite Nat.land_ones. Qed.

Lemma split_at_byte s i : i < 8 * length s ->
  exists a c b, s = a ++ c :: b /\ length a = i / 8 /\ i = length (bits_of a) + i mod 8 /\ i mod 8 < 8.
Proof.
  intros H. assert (Hq : i / 8 < length s) by lia.
  destruct (nth_error s (i / 8)) as [c|] eqn:Ec; [|apply nth_error_None in Ec; lia].
  exists (firstn (i / 8) s), c, (skipn (S (i / 8)) s). split; [|split; [|split]].
  - rewrite <- (skipn_nth_cons _ _ _ Ec). symmetry. apply firstn_skipn.
  - rewrite firstn_length. lia.
  - rewrite bits_of_length, firstn_length. lia.
  - lia.
Qed.

Lemma upd_app_r {A} (a b : list A) k v : upd (a ++ b) (length a + k) v = a ++ upd b k v.
Proof. induction a as [|x a IH]; auto. cbn [length plus app upd]. now rewrite IH. Qed.
Lemma upd_app_l {A} (a b : list A) k v : k < length a -> upd (a ++ b) k v = upd a k v ++ b.
Proof.
  revert k; induction a as [|x a IH]; intros k H; [simpl in H; lia|].
  destruct k as [|k]; auto. cbn [app upd]. rewrite IH; auto. simpl in H. lia.
Qed.

Definition sweep_index (P : ascii -> nat -> bool) :
  forallb (fun c => forallb (P c) (seq 0 8)) all_bytes = true -> forall c r, r < 8 -> P c r = true.
Proof.
  intros H c r Hr. rewrite forallb_forall in H. specialize (H c (in_all_bytes c)).
  rewrite forallb_forall in H. apply H, in_seq. lia.
Qed.

Lemma mask_state c r : r < 8 ->
  exists m, rd bit_mask r = Ok m /\ nth_error (bits_of_byte c) r = Some (negb (N.land (byte c) m =? 0)%N).
Proof.
  intros Hr.
  pose (P := fun c r => match rd bit_mask r, nth_error (bits_of_byte c) r with
    | Ok m, Some b => Bool.eqb b (negb (N.land (byte c) m =? 0)%N) | _, _ => false end).
  assert (H : P c r = true) by (apply sweep_index; auto; vm_compute; reflexivity).
  unfold P in H. destruct (rd bit_mask r) as [m| |]; try discriminate.
  destruct (nth_error (bits_of_byte c) r); try discriminate. apply Bool.eqb_prop in H. exists m. split; congruence.
Qed.

Lemma mask_high c r : r < 8 ->
  exists m, rd bit_mask r = Ok m /\ bits_of_byte (to_byte (N.lor (byte c) m)) = upd (bits_of_byte c) r true.
Proof.
  intros Hr.
  pose (P := fun c r => match rd bit_mask r with
    | Ok m => list_beq (bits_of_byte (to_byte (N.lor (byte c) m))) (upd (bits_of_byte c) r true) | _ => false end).
  assert (H : P c r = true) by (apply sweep_index; auto; vm_compute; reflexivity).
  unfold P in H. destruct (rd bit_mask r) as [m| |]; try discriminate. exists m. split; auto. now apply list_beq_ok.
Qed.

Lemma mask_low c r : r < 8 ->
  exists m, rd bit_mask_low r = Ok m /\ bits_of_byte (to_byte (N.land (byte c) m)) = upd (bits_of_byte c) r false.
Proof.
  intros Hr.
  pose (P := fun c r => match rd bit_mask_low r with
    | Ok m => list_beq (bits_of_byte (to_byte (N.land (byte c) m))) (upd (bits_of_byte c) r false) | _ => false end).
  assert (H : P c r = true) by (apply sweep_index; auto; vm_compute; reflexivity).
  unfold P in H. destruct (rd bit_mask_low r) as [m| |]; try discriminate. exists m. split; auto. now apply list_beq_ok.
Qed.

Lemma bit_state_ok i s : i < 8 * length s ->
  exists b, bit_state i s = Ok b /\ nth_error (bits_of s) i = Some b.
Proof.
  intros H. destruct (split_at_byte s i H) as (a & c & b & -> & Ha & Hi & Hr).
  unfold bit_state. rewrite shiftr3, land7, <- Ha, rd_here. cbn [bind].
  destruct (mask_state c (i mod 8) Hr) as (m & -> & E). cbn [bind]. eexists. split; [reflexivity|].
  clear Ha. set (r := i mod 8) in *. clearbody r. subst i.
  rewrite bits_of_app, bits_of_cons, nth_error_app2 by lia.
  rewrite nth_error_app1 by (change (length (bits_of_byte c)) with 8; lia).
  replace (length (bits_of a) + r - length (bits_of a)) with r by lia. exact E.
Qed.

Lemma set_bit_high_ok i s : i < 8 * length s ->
  exists t, set_bit_high i s = Ok t /\ bits_of t = upd (bits_of s) i true /\ length t = length s.
Proof.
  intros H. destruct (split_at_byte s i H) as (a & c & b & -> & Ha & Hi & Hr).
  unfold set_bit_high. rewrite shiftr3, land7, <- Ha, rd_here. cbn [bind].
  destruct (mask_high c (i mod 8) Hr) as (m & -> & E). cbn [bind]. rewrite wr_here.
  eexists. split; [reflexivity|]. split; [|rewrite !app_length; reflexivity].
  rewrite !bits_of_app, !bits_of_cons, E.
  clear Ha. set (r := i mod 8) in *. clearbody r. subst i.
  rewrite upd_app_r, upd_app_l; [reflexivity|exact Hr].
Qed.

Lemma set_bit_low_ok i s : i < 8 * length s ->
  exists t, set_bit_low i s = Ok t /\ bits_of t = upd (bits_of s) i false /\ length t = length s.
Proof.
  intros H. destruct (split_at_byte s i H) as (a & c & b & -> & Ha & Hi & Hr).
  unfold set_bit_low. rewrite shiftr3, land7, <- Ha, rd_here. cbn [bind].
  destruct (mask_low c (i mod 8) Hr) as (m & -> & E). cbn [bind]. rewrite wr_here.
  eexists. split; [reflexivity|]. split; [|rewrite !app_length; reflexivity].
  rewrite !bits_of_app, !bits_of_cons, E.
  clear Ha. set (r := i mod 8) in *. clearbody r. subst i.
  rewrite upd_app_r, upd_app_l; [reflexivity|exact Hr].
Qed.

Lemma bit_out_of_range i s : 8 * length s <= i ->
  bit_state i s = UB /\ set_bit_high i s = UB /\ set_bit_low i s = UB.
Proof.
  intros H. unfold bit_state, set_bit_high, set_bit_low. rewrite shiftr3.
  assert (E : rd s (i / 8) = UB) by (apply rd_ub; lia). rewrite E. auto.
Qed.

Lemma hde_diverges {A} (eqb : A -> A -> bool) s1 s2 fuel : length s1 = length s2 -> s1 <> [] ->
  hamming_distance_elementwise eqb fuel s1 s2 = OutOfFuel.
Proof.
  intros Hl Hne. unfold hamming_distance_elementwise. rewrite Hl, Nat.eqb_refl. cbn [negb].
  generalize 0%N. induction fuel as [|f IH]; intros d; auto.
  cbn [loop]. unfold hde_step at 1. destruct s1 as [|a s1]; [congruence|]. destruct s2 as [|b s2]; [discriminate|].
  cbn [length Nat.eqb rd nth_error bind]. apply IH.
Qed.
