(* Proofs about the names and lengths of types. *)
From Verif Require Import Base Num_Model Num_Spec Num_Proofs Num_Proofs2 Tname_Model Tname_Spec.
From Coq Require Import Lia.
Local Open Scope nat_scope.

(* ---------- names ---------- *)
Lemma size_ok n : (Z.of_nat n < 2 ^ 64)%Z -> exists d, format_unsigned (Z.of_nat n) = Ok d /\ canonical d (Z.of_nat n).
Proof.
  intros H. assert (F := format_unsigned_ok (Z.of_nat n) ltac:(lia)). apply holds_ex in F. destruct F as (d & E & C & _). eauto.
Qed.

Lemma name_pair_total t : sized t -> exists s, type_name_pair t = Ok s.
Proof.
  induction t as [s|n|a IHa b IHb|t IH n|k t IH]; cbn [sized type_name_pair]; intros H; eauto.
  - destruct H as [Ha Hb]. destruct (IHa Ha) as (x & ->). destruct (IHb Hb) as (y & ->). cbn [bind]. eauto.
  - destruct H as [H _]. destruct (size_ok n H) as (d & -> & _). cbn [bind]. eauto.
Qed.
Lemma name_total t : sized t -> exists s, type_name t = Ok s.
Proof. destruct t; cbn [type_name]; intros H; eauto using name_pair_total. Qed.

Lemma flat_written t : flat t -> sized t -> exists s, type_name_pair t = Ok s /\ written t s.
Proof.
  induction 1 as [s|s n|a b Ha IHa Hb IHb]; cbn [sized type_name_pair]; intros H.
  - eexists. split; [reflexivity|constructor].
  - destruct H as [H _]. destruct (size_ok n H) as (d & -> & C). cbn [bind type_name_0]. eexists. split; [reflexivity|]. constructor; [constructor|exact C].
  - destruct H as [H1 H2]. destruct (IHa H1) as (x & -> & Wx). destruct (IHb H2) as (y & -> & Wy). cbn [bind]. eexists. split; [reflexivity|]. now constructor.
Qed.
Lemma flat_name t : flat t -> type_name t = type_name_pair t.
Proof. now destruct 1. Qed.
Lemma named_written t : named t -> sized t -> exists s, type_name t = Ok s /\ written t s.
Proof.
  intros [F|(k & s & ->)] H; [rewrite flat_name by exact F; now apply flat_written|].
  cbn [type_name type_name_0]. eexists. split; [reflexivity|]. destruct k; cbn [container].
  - apply (w_vector (Scalar s)); constructor.
  - apply (w_deque (Scalar s)); constructor.
  - apply (w_list (Scalar s)); constructor.
  - apply (w_set (Scalar s)); constructor.
  - apply (w_multiset (Scalar s)); constructor.
Qed.

(* ---------- reading names ---------- *)
Lemma span (P : ascii -> Prop) : forall a b x y, Forall P a -> Forall P b ->
  (forall c, hd_error x = Some c -> ~ P c) -> (forall c, hd_error y = Some c -> ~ P c) -> a ++ x = b ++ y -> a = b /\ x = y.
Proof.
  induction a as [|c a IH]; intros [|d b] x y Ha Hb Hx Hy E; cbn in E.
  - auto.
  - exfalso. inversion Hb; subst. now apply (Hx d).
  - exfalso. inversion Ha; subst. now apply (Hy c).
  - injection E as -> E. inversion Ha; inversion Hb; subst. destruct (IH b x y) as [-> ->]; auto.
Qed.

Definition letter (c : ascii) : Prop := (97 <= N_of_ascii c <= 122 \/ N_of_ascii c = 32 \/ N_of_ascii c = 58)%N.
Definition letterb (c : ascii) : bool := let n := N_of_ascii c in (((97 <=? n) && (n <=? 122)) || (n =? 32) || (n =? 58))%N.
Lemma letters s : forallb letterb s = true -> Forall letter s.
Proof.
  intros H. apply Forall_forall. intros c Hc. rewrite forallb_forall in H. specialize (H c Hc). unfold letterb in H. unfold letter.
  apply orb_true_iff in H. destruct H as [H|H]; [apply orb_true_iff in H; destruct H as [H|H]; [apply andb_true_iff in H; destruct H as [H1 H2]|]|].
  - left. split; now apply N.leb_le.
  - right. left. now apply N.eqb_eq.
  - right. right. now apply N.eqb_eq.
Qed.
Lemma registered_letters s : Forall letter (registered s).
Proof. apply letters. now destruct s. Qed.
Lemma registered_inj s u : registered s = registered u -> s = u.
Proof. destruct s, u; intros E; try reflexivity; discriminate E. Qed.
Lemma container_inj k l : container k = container l -> k = l.
Proof. destruct k, l; intros E; try reflexivity; discriminate E. Qed.

Definition closes (r : list ascii) : Prop := forall c, hd_error r = Some c -> c = ","%char \/ c = ">"%char.
Lemma closes_letter r : closes r -> forall c, hd_error r = Some c -> ~ letter c.
Proof. intros H c E. destruct (H c E) as [->| ->]; unfold letter; cbn; lia. Qed.
Lemma other_letter c r : letterb c = false -> forall d, hd_error (c :: r) = Some d -> ~ letter d.
Proof.
  intros H d E. injection E as <-. intros L. unfold letterb in H. unfold letter in L. apply orb_false_iff in H. destruct H as [H H3]. apply orb_false_iff in H. destruct H as [H1 H2].
  apply N.eqb_neq in H2, H3. destruct L as [[L1 L2]|[L|L]]; try lia.
Qed.
Lemma other_digit c r : c = "]"%char -> forall d, hd_error (c :: r) = Some d -> ~ is_digit d.
Proof. intros -> d E. injection E as <-. unfold is_digit. cbn. lia. Qed.
Lemma canonical_nat d n : canonical d (Z.of_nat n) -> Forall is_digit d /\ Z.of_nat n = dec_value d.
Proof. intros (ds & [_ D] & _ & [(_ & -> & E)|(L & _)]); [auto|lia]. Qed.

Lemma flat_read : forall t, flat t -> forall u x y r r', flat u -> written t x -> written u y -> closes r -> closes r' ->
  x ++ r = y ++ r' -> t = u /\ r = r'.
Proof.
  assert (Pl : Forall letter (str "std::pair")) by (apply letters; reflexivity).
  assert (NP : forall s, registered s <> str "std::pair") by (intros []; discriminate).
  induction 1 as [s|s n|a b Ha IHa Hb IHb]; intros u x y r r' Hu Wx Wy Cr Cr' E.
  - inversion Wx; subst. destruct Hu as [v|v m|c d Hc Hd]; inversion Wy; subst; clear Wx Wy.
    + apply (span letter) in E; eauto using registered_letters, closes_letter. destruct E as [E ->]. apply registered_inj in E. now subst.
    + match goal with W : written (Scalar v) _ |- _ => inversion W; subst; clear W end. rewrite <- app_assoc in E.
      apply (span letter) in E; eauto using registered_letters, closes_letter.
      * destruct E as [_ ->]. exfalso. destruct (Cr "["%char eq_refl); discriminate.
      * now apply other_letter.
    + exfalso. change (str "std::pair<") with (str "std::pair" ++ str "<") in E. rewrite <- !app_assoc in E.
      apply (span letter) in E; eauto using registered_letters, closes_letter.
      * destruct E as [E _]. now apply NP in E.
      * now apply other_letter.
  - inversion Wx as [| |t' n' x1 d W C| | | | |]; subst. inversion W; subst; clear Wx W. rewrite <- !app_assoc in E.
    destruct Hu as [v|v m|c e Hc Hd].
    + inversion Wy; subst. apply (span letter) in E; eauto using registered_letters, closes_letter.
      * destruct E as [_ <-]. exfalso. destruct (Cr' "["%char eq_refl); discriminate.
      * now apply other_letter.
    + inversion Wy as [| |t' n' x1 d' W C'| | | | |]; subst. inversion W; subst; clear Wy W. rewrite <- !app_assoc in E.
      apply (span letter) in E; try (now apply other_letter); auto using registered_letters. destruct E as [E1 E2]. apply registered_inj in E1. subst v.
      cbn [str String.list_ascii_of_string app] in E2. injection E2 as E2.
      destruct (canonical_nat _ _ C) as [D1 V1], (canonical_nat _ _ C') as [D2 V2].
      apply (span is_digit) in E2; try (now apply other_digit); auto. destruct E2 as [-> E2]. injection E2 as ->. split; [|reflexivity]. f_equal. lia.
    + exfalso. inversion Wy; subst. change (str "std::pair<") with (str "std::pair" ++ str "<") in E. rewrite <- !app_assoc in E.
      apply (span letter) in E; try (now apply other_letter); auto using registered_letters. destruct E as [E _]. now apply NP in E.
  - inversion Wx as [|a' b' x1 x2 W1 W2| | | | | |]; subst. change (str "std::pair<") with (str "std::pair" ++ str "<") in E. rewrite <- !app_assoc in E.
    destruct Hu as [v|v m|c e Hc Hd].
    + exfalso. inversion Wy; subst. apply (span letter) in E; eauto using registered_letters, closes_letter; [|now apply other_letter].
      destruct E as [E _]. now apply eq_sym, NP in E.
    + exfalso. inversion Wy as [| |t' n' x3 d' W C'| | | | |]; subst. inversion W; subst. rewrite <- !app_assoc in E.
      apply (span letter) in E; try (now apply other_letter); auto using registered_letters. destruct E as [E _]. now apply eq_sym, NP in E.
    + inversion Wy as [|a' b' y1 y2 W3 W4| | | | | |]; subst. change (str "std::pair<") with (str "std::pair" ++ str "<") in E. rewrite <- !app_assoc in E.
      do 2 apply app_inv_head in E.
      apply (IHa c x1 y1 _ _ Hc W1 W3) in E; [|intros k K; injection K as <-; auto|intros k K; injection K as <-; auto]. destruct E as [-> E2].
      apply app_inv_head in E2.
      apply (IHb e x2 y2 _ _ Hd W2 W4) in E2; [|intros k K; injection K as <-; auto|intros k K; injection K as <-; auto]. destruct E2 as [-> E3].
      apply app_inv_head in E3. now subst.
Qed.

Lemma container_written k s x : written (Container k (Scalar s)) x -> x = container k ++ str "<" ++ registered s ++ str ">".
Proof. intros W. destruct k; inversion W as [| | |t y W'|t y W'|t y W'|t y W'|t y W']; subst; inversion W'; subst; reflexivity. Qed.

Lemma flat_container t k s x : flat t -> written t x -> written (Container k (Scalar s)) x -> False.
Proof.
  intros F W C. apply container_written in C.
  assert (Lk : Forall letter (container k)) by (apply letters; now destruct k).
  assert (X : exists p r, x = p ++ r /\ Forall letter p /\ (p = str "std::pair" \/ forall c, hd_error r = Some c -> c = "["%char) /\ (forall c, hd_error r = Some c -> ~ letter c)).
  { destruct F as [v|v n|a b Ha Hb]; inversion W; subst.
    - exists (registered v), []. rewrite app_nil_r. repeat split; auto using registered_letters; [right|]; intros c K; discriminate.
    - match goal with W : written (Scalar v) _ |- _ => inversion W; subst end.
      eexists (registered v), _. split; [reflexivity|]. repeat split; auto using registered_letters; [right; intros c K; now injection K as <-|now apply other_letter].
    - eexists (str "std::pair"), (str "<" ++ _). split; [reflexivity|]. split; [apply letters; reflexivity|]. split; [now left|now apply other_letter]. }
  destruct X as (p & r & E & Lp & X & Y). rewrite C in E. apply (span letter) in E; auto; [|now apply other_letter].
  destruct E as [<- <-]. destruct X as [X|X]; [destruct k; discriminate X|]. specialize (X "<"%char eq_refl). discriminate.
Qed.

Lemma named_unique t u x : named t -> named u -> written t x -> written u x -> t = u.
Proof.
  intros [Ft|(k & s & ->)] [Fu|(l & v & ->)] W1 W2.
  - destruct (flat_read t Ft u x x [] [] Fu W1 W2) as [E _]; auto; intros c K; discriminate.
  - exfalso. eapply flat_container; eauto.
  - exfalso. eapply flat_container; eauto.
  - apply container_written in W1, W2. rewrite W1 in W2. clear W1.
    apply (span letter) in W2; try (now apply other_letter); try (apply letters; now destruct k); try (apply letters; now destruct l).
    destruct W2 as [E1 E2]. apply container_inj in E1. apply app_inv_head, app_inv_tail, registered_inj in E2. now subst.
Qed.

(* ---------- lengths ---------- *)
Lemma canonical_length s v : canonical s v -> exists n, length s = n + (if (v <? 0)%Z then 1 else 0) /\
  (Z.abs v < 10 ^ Z.of_nat n)%Z /\ (n = 1 \/ (10 ^ Z.of_nat (n - 1) <= Z.abs v)%Z).
Proof.
  intros (ds & [N D] & H & V). exists (length ds). assert (B := dec_bounds ds D).
  assert (L : length ds = 1 \/ (10 ^ Z.of_nat (length ds - 1) <= dec_value ds)%Z).
  { destruct H as [->|H]; [now left|]. destruct ds as [|c ds]; [easy|]. right. cbn [length]. replace (S (length ds) - 1) with (length ds) by lia. now apply dec_lower. }
  destruct V as [(P & -> & ->)|(P & -> & ->)].
  - destruct (Z.ltb_spec (dec_value ds) 0); [lia|]. rewrite Z.abs_eq by lia. repeat split; auto; lia.
  - destruct (Z.ltb_spec (- dec_value ds) 0); [|lia]. rewrite Z.abs_opp, Z.abs_eq by lia. cbn [length]. repeat split; auto; lia.
Qed.

Lemma string_canonical s v : in_type s v -> exists x, to_string s v = Ok x /\ canonical x v.
Proof.
  assert (U : (0 <= v < 2 ^ 64)%Z -> exists x, format_unsigned v = Ok x /\ canonical x v).
  { intros H. assert (F := format_unsigned_ok v ltac:(lia)). apply holds_ex in F. destruct F as (d & E & C & _). eauto. }
  assert (G : forall T, lo T = (- hi T - 1)%Z -> (0 < hi T < 10 ^ 19)%Z -> (lo T <= v <= hi T)%Z -> exists x, format_signed T v = Ok x /\ canonical x v).
  { intros T H1 H2 H3. assert (F := format_signed_ok T v H1 H2 H3). apply holds_ex in F. destruct F as (d & E & C & _). eauto. }
  destruct s; cbn [in_type to_string]; intros H; try easy; [| | | |apply U; lia..]; apply G; cbn [lo hi t_short t_int t_long t_llong]; lia.
Qed.

Lemma digits_bound n k v : (Z.abs v < 10 ^ Z.of_nat k)%Z -> 1 <= k -> (n = 1 \/ (10 ^ Z.of_nat (n - 1) <= Z.abs v)%Z) -> n <= k.
Proof.
  intros H K [->|L]; [lia|]. assert (10 ^ Z.of_nat (n - 1) < 10 ^ Z.of_nat k)%Z by lia.
  apply Z.pow_lt_mono_r_iff in H0; lia.
Qed.
