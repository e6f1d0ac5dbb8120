From Verif Require Import Base Num_Spec Split_Model Regex_Spec Regex_Model.
Local Open Scope nat_scope.

(* ---- split_regex ---- *)
Lemma split_regex_ok len ms mode : forall out n,
  split_regex len ms mode out n = (out ++ map (fun m => sub_match len m mode) ms, n + length ms).
Proof.
  induction ms as [|m ms IH]; intros out n; cbn [split_regex map length].
  - rewrite app_nil_r, Nat.add_0_r. reflexivity.
  - rewrite IH, <- app_assoc. cbn [app]. f_equal. lia.
Qed.
Lemma split_regex_n_ok len ms cnt mode : forall out n, n < cnt \/ n = 0 ->
  let k := Nat.max 1 cnt - n in
  split_regex_n len ms cnt mode out n = (out ++ map (fun m => sub_match len m mode) (firstn k ms), n + Nat.min k (length ms)).
Proof.
  induction ms as [|m ms IH]; intros out n H k; cbn [split_regex_n].
  - rewrite firstn_nil, Nat.min_0_r, Nat.add_0_r. cbn. now rewrite app_nil_r.
  - cbv zeta. destruct (Nat.leb_spec cnt (S n)) as [L|L].
    + replace k with 1 by (subst k; lia). cbn. f_equal. lia.
    + rewrite IH by lia. replace k with (S (Nat.max 1 cnt - S n)) by (subst k; lia). cbn [firstn map length]. rewrite <- app_assoc. cbn [app]. f_equal. lia.
Qed.

(* ---- matching ---- *)
Lemma x_empty s : matches Empty s <-> s = [].
Proof. split; [intros H; inversion H; auto|intros ->; constructor]. Qed.
Lemma x_class rs s : matches (Class rs) s <-> exists c, s = [c] /\ Exists (fun r => fst r <= nat_of_ascii c <= snd r) rs.
Proof. split; [intros H; inversion H; subst; eauto|intros (c & -> & H); now constructor]. Qed.
Lemma x_seq a b s : matches (Seq a b) s <-> exists u v, s = u ++ v /\ matches a u /\ matches b v.
Proof. split; [intros H; inversion H; subst; eauto|intros (u & v & -> & H & K); now constructor]. Qed.
Lemma x_alt a b s : matches (Alt a b) s <-> matches a s \/ matches b s.
Proof. split; [intros H; inversion H; subst; eauto|intros [H|H]; [now apply m_left|now apply m_right]]. Qed.
Lemma x_star a s : matches (Star a) s <-> exists l, s = concat l /\ Forall (matches a) l.
Proof.
  split.
  - intros H. remember (Star a) as r eqn:E. induction H; try discriminate; injection E as ->.
    + exists []. auto.
    + destruct (IHmatches2 eq_refl) as (l & -> & F). exists (u :: l). auto.
  - intros (l & -> & F). induction F as [|u l H F IH]; cbn; [apply m_none|now apply m_more].
Qed.
Lemma x_seq_empty a s : matches (Seq a Empty) s <-> matches a s.
Proof.
  rewrite x_seq. split.
  - intros (u & v & -> & H & K). apply x_empty in K. subst. now rewrite app_nil_r.
  - intros H. exists s, []. rewrite app_nil_r. split; [auto|]. split; [auto|constructor].
Qed.
Lemma se1 a s : matches (Seq a Empty) s -> matches a s.
Proof. apply x_seq_empty. Qed.
Lemma se2 a s : matches a s -> matches (Seq a Empty) s.
Proof. apply x_seq_empty. Qed.
Definition fits (rs : list (nat * nat)) (c : ascii) : Prop := Exists (fun r => fst r <= nat_of_ascii c <= snd r) rs.
Lemma x_star_class rs s : matches (Star (Class rs)) s <-> Forall (fits rs) s.
Proof.
  rewrite x_star. split.
  - intros (l & -> & F). induction F as [|u l H F IH]; cbn; [constructor|]. apply x_class in H. destruct H as (c & -> & H). now constructor.
  - intros F. exists (map (fun c => [c]) s). split.
    + clear F. induction s as [|c s IH]; cbn; [auto|now rewrite <- IH].
    + induction F as [|c s H F IH]; cbn; constructor; auto. now constructor.
Qed.
Lemma x_plus_class rs s : matches (Seq (Class rs) (Star (Class rs))) s <-> some (fits rs) s.
Proof.
  rewrite x_seq. split.
  - intros (u & v & -> & H & K). apply x_class in H. destruct H as (c & -> & H). apply x_star_class in K. split; [discriminate|]. now constructor.
  - intros [N F]. destruct F as [|c s H F]; [congruence|]. exists [c], s. split; [auto|]. split; [now constructor|now apply x_star_class].
Qed.
Lemma x_one c s : matches (Class [(nat_of_ascii c, nat_of_ascii c)]) s <-> s = [c].
Proof.
  rewrite x_class. split.
  - intros (d & -> & H). inversion H as [? ? K|? ? K]; subst; [|inversion K]. cbn in K. f_equal.
    rewrite <- (ascii_nat_embedding c), <- (ascii_nat_embedding d). f_equal. lia.
  - intros ->. exists c. split; [auto|]. constructor. cbn. lia.
Qed.
Lemma fits_ext rs (p : ascii -> Prop) s : (forall c, fits rs c <-> p c) -> (Forall (fits rs) s <-> Forall p s) /\ (some (fits rs) s <-> some p s).
Proof.
  intros H. assert (K : Forall (fits rs) s <-> Forall p s) by (split; apply Forall_impl; intros c; apply H). split; [auto|]. unfold some. now rewrite K.
Qed.
Lemma digit_nat c : is_digit c <-> 48 <= nat_of_ascii c <= 57.
Proof. unfold is_digit, nat_of_ascii. lia. Qed.
Lemma eq_code c d : c = d <-> nat_of_ascii c = nat_of_ascii d.
Proof. split; [now intros ->|]. intros H. rewrite <- (ascii_nat_embedding c), <- (ascii_nat_embedding d). now f_equal. Qed.

Lemma fits_digit c : fits [(48, 57)] c <-> is_digit c.
Proof. unfold fits. rewrite Exists_cons, Exists_nil, digit_nat. cbn [fst snd]. tauto. Qed.
Lemma fits_02 c : fits [(48, 50)] c -> is_digit c.
Proof. unfold fits. rewrite Exists_cons, Exists_nil, digit_nat. cbn [fst snd]. lia. Qed.
Lemma fits_letter c : fits [(97, 122); (65, 90)] c <-> letter c.
Proof. unfold fits, letter. rewrite !Exists_cons, Exists_nil. cbn [fst snd]. tauto. Qed.

Lemma some_digits s : matches (Seq (Class [(48,57)]) (Star (Class [(48,57)]))) s <-> some is_digit s.
Proof. rewrite x_plus_class. apply (fits_ext [(48,57)] is_digit s fits_digit). Qed.

(* --- decision by derivatives --- *)
Definition fitsb (rs : list (nat * nat)) (c : ascii) : bool :=
  existsb (fun r => (fst r <=? nat_of_ascii c) && (nat_of_ascii c <=? snd r)) rs.
Lemma fitsb_ok rs c : fitsb rs c = true <-> fits rs c.
Proof.
  unfold fitsb, fits. rewrite existsb_exists, Exists_exists. split; intros (r & I & H); exists r; (split; [auto|]).
  - apply andb_true_iff in H. rewrite !Nat.leb_le in H. auto.
  - apply andb_true_iff. rewrite !Nat.leb_le. auto.
Qed.
Fixpoint nullable (r : re) : bool :=
  match r with
  | Empty => true | Class _ => false | Seq a b => nullable a && nullable b | Alt a b => nullable a || nullable b | Star _ => true
  end.
Definition never : re := Class [].
Definition seq' (a b : re) : re := match a with Class [] => never | Empty => b | _ => Seq a b end.
Definition alt' (a b : re) : re := match a, b with Class [], _ => b | _, Class [] => a | _, _ => Alt a b end.
Fixpoint deriv (c : ascii) (r : re) : re :=
  match r with
  | Empty => never
  | Class rs => if fitsb rs c then Empty else never
  | Seq a b => if nullable a then alt' (seq' (deriv c a) b) (deriv c b) else seq' (deriv c a) b
  | Alt a b => alt' (deriv c a) (deriv c b)
  | Star a => seq' (deriv c a) (Star a)
  end.
Fixpoint matchb (r : re) (s : list ascii) : bool := match s with [] => nullable r | c :: s => matchb (deriv c r) s end.

Lemma never_no s : ~ matches never s.
Proof. intros H. apply x_class in H. destruct H as (c & _ & H). inversion H. Qed.
Lemma seq'_ok a b s : matches (seq' a b) s <-> matches (Seq a b) s.
Proof.
  destruct a; cbn [seq']; try tauto.
  - rewrite x_seq. split; [intros H; exists [], s; split; [auto|]; split; [constructor|auto]|]. intros (u & v & -> & H & K). apply x_empty in H. now subst.
  - destruct rs; [|tauto]. rewrite x_seq. split; [intros H; now apply never_no in H|]. intros (u & v & _ & H & _). now apply never_no in H.
Qed.
Lemma alt'_ok a b s : matches (alt' a b) s <-> matches a s \/ matches b s.
Proof.
  assert (N : forall s, matches (Class []) s <-> False) by (intros; split; [apply never_no|easy]).
  destruct a as [|[|]| | |], b as [|[|]| | |]; cbn [alt']; rewrite ?x_alt, ?N; tauto.
Qed.
Lemma nullable_ok r : nullable r = true <-> matches r [].
Proof.
  induction r as [|rs|a IHa b IHb|a IHa b IHb|a IHa]; cbn [nullable].
  - split; [constructor|auto].
  - split; [discriminate|]. intros H. apply x_class in H. destruct H as (c & H & _). discriminate.
  - rewrite andb_true_iff, IHa, IHb, x_seq. split.
    + intros [H K]. exists [], []. auto.
    + intros (u & v & E & H & K). symmetry in E. apply app_eq_nil in E. destruct E as [-> ->]. auto.
  - rewrite orb_true_iff, IHa, IHb, x_alt. tauto.
  - split; [constructor|auto].
Qed.
Lemma deriv_ok c r : forall s, matches (deriv c r) s <-> matches r (c :: s).
Proof.
  induction r as [|rs|a IHa b IHb|a IHa b IHb|a IHa]; intros s; cbn [deriv].
  - split; [intros H; now apply never_no in H|]. rewrite x_empty. discriminate.
  - destruct (fitsb rs c) eqn:E.
    + rewrite x_empty. rewrite x_class. split; [intros ->; exists c; split; [auto|now apply fitsb_ok]|]. intros (d & K & _). congruence.
    + split; [intros H; now apply never_no in H|]. rewrite x_class. intros (d & K & H). injection K as -> ->. apply fitsb_ok in H. congruence.
  - assert (K : matches (Seq (deriv c a) b) s <-> exists u v, c :: s = (c :: u) ++ v /\ matches a (c :: u) /\ matches b v).
    { rewrite x_seq. split; intros (u & v & E & H & L); exists u, v.
      - subst. split; [auto|]. split; [now apply IHa|auto].
      - injection E as ->. split; [auto|]. split; [now apply IHa|auto]. }
    assert (M : matches (Seq a b) (c :: s) <-> matches (Seq (deriv c a) b) s \/ (matches a [] /\ matches b (c :: s))).
    { rewrite K, x_seq. split.
      - intros ([|d u] & v & E & H & L); [cbn in E; subst; auto|]. injection E as <- ->. left. exists u, v. auto.
      - intros [(u & v & E & H & L)|[H L]]; [exists (c :: u), v; auto|exists [], (c :: s); auto]. }
    destruct (nullable a) eqn:E.
    + rewrite alt'_ok, seq'_ok, IHb, M. apply nullable_ok in E. tauto.
    + rewrite seq'_ok, M. assert (~ matches a []) by (rewrite <- nullable_ok; congruence). tauto.
  - rewrite alt'_ok, IHa, IHb, x_alt. tauto.
  - rewrite seq'_ok, x_seq. split.
    + intros (u & v & -> & H & K). apply IHa in H. rewrite app_comm_cons. now apply m_more.
    + intros H. apply x_star in H. destruct H as (l & E & F). induction F as [|w l H F IH]; [discriminate|]. destruct w as [|d w]; [auto|].
      cbn in E. injection E as <- ->. exists w, (concat l). split; [auto|]. split; [now apply IHa|]. apply x_star. eauto.
Qed.
Lemma matchb_ok s : forall r, matchb r s = true <-> matches r s.
Proof.
  induction s as [|c s IH]; intros r; cbn [matchb]; [apply nullable_ok|]. rewrite IH. apply deriv_ok.
Qed.

(* ---- the shapes used in the predefined expressions ---- *)
Lemma x_char_seq c b s n : n = nat_of_ascii c -> matches (Seq (Class [(n, n)]) b) s <-> exists v, s = c :: v /\ matches b v.
Proof.
  intros ->. rewrite x_seq. split.
  - intros (u & v & -> & H & K). apply x_one in H. subst. cbn. eauto.
  - intros (v & -> & K). exists [c], v. split; [auto|]. split; [now apply x_one|auto].
Qed.
Lemma x_char c s n : n = nat_of_ascii c -> matches (Class [(n, n)]) s <-> s = [c].
Proof. intros ->. apply x_one. Qed.
Lemma x_opt a s : matches (Alt a Empty) s <-> s = [] \/ matches a s.
Proof. rewrite x_alt, x_empty. tauto. Qed.
Lemma x_times rs m s : matches (times m (Class rs)) s <-> Forall (fits rs) s /\ length s = m.
Proof.
  revert s. induction m as [|m IH]; intros s; cbn [times].
  - rewrite x_empty. split; [intros ->; auto|]. intros [_ H]. now destruct s.
  - rewrite x_seq. split.
    + intros (u & v & -> & H & K). apply x_class in H. destruct H as (c & -> & H). apply IH in K. destruct K as [K L]. cbn. split; [now constructor|lia].
    + intros [F L]. destruct F as [|c s H F]; [discriminate|]. exists [c], s. split; [auto|]. split; [now constructor|]. apply IH. split; [auto|]. cbn in L. lia.
Qed.
Lemma x_upto rs m s : matches (upto m (Class rs)) s <-> Forall (fits rs) s /\ length s <= m.
Proof.
  revert s. induction m as [|m IH]; intros s; cbn [upto].
  - rewrite x_empty. split; [intros ->; auto|]. intros [_ H]. destruct s; [auto|cbn in H; lia].
  - unfold Opt. rewrite x_opt, x_seq. split.
    + intros [->|(u & v & -> & H & K)]; [cbn; split; [constructor|lia]|]. apply x_class in H. destruct H as (c & -> & H). apply IH in K. destruct K as [K L]. cbn. split; [now constructor|lia].
    + intros [F L]. destruct F as [|c s H F]; [auto|]. right. exists [c], s. split; [auto|]. split; [now constructor|]. apply IH. split; [auto|]. cbn in L. lia.
Qed.
Lemma x_between rs m k s : matches (Seq (times m (Class rs)) (upto k (Class rs))) s <-> Forall (fits rs) s /\ m <= length s <= m + k.
Proof.
  rewrite x_seq. split.
  - intros (u & v & -> & H & K). apply x_times in H. apply x_upto in K. destruct H as [H L], K as [K M]. rewrite app_length. split; [apply Forall_app; auto|lia].
  - intros [F L]. exists (firstn m s), (skipn m s). rewrite firstn_skipn. rewrite <- (firstn_skipn m s) in F. apply Forall_app in F. destruct F as [F G]. split; [auto|].
    rewrite x_times, x_upto, firstn_length, skipn_length. repeat split; auto; lia.
Qed.

(* --- ip_expression --- *)
Definition long_number : re := Seq (Star (Class [(48,50)])) (Seq (Plus (Class [(48,57)])) (Seq (Plus (Class [(48,57)])) Empty)).
Lemma x_long_number s : matches long_number s <-> Forall is_digit s /\ 2 <= length s.
Proof.
  unfold long_number, Plus. rewrite x_seq. split.
  - intros (u & v & -> & H & K). apply x_star_class in H. apply x_seq in K. destruct K as (w & z & -> & K & M). apply se1 in M. apply some_digits in K, M.
    destruct K as [K1 K2], M as [M1 M2]. split.
    + apply Forall_app. split; [eapply Forall_impl; [apply fits_02|exact H]|]. now apply Forall_app.
    + destruct w, z; try congruence. rewrite !app_length. cbn. lia.
  - intros [F L]. destruct s as [|a s]; [cbn in L; lia|]. destruct s as [|b s]; [cbn in L; lia|].
    inversion F as [|? ? A B]; subst. exists [], (a :: b :: s). split; [auto|]. split; [constructor|]. apply x_seq. exists [a], (b :: s). split; [auto|].
    rewrite x_seq_empty, !some_digits. split; split; try discriminate; auto.
Qed.
Lemma ip_shape : of_text ip_expression =
  Seq (Seq long_number (Seq (Class [(46,46)]) (Seq long_number (Seq (Class [(46,46)]) (Seq long_number (Seq (Class [(46,46)]) (Seq long_number Empty))))))) Empty.
Proof. vm_compute. reflexivity. Qed.
Lemma ip_ok s : matches (of_text ip_expression) s <-> four_numbers s.
Proof.
  rewrite ip_shape, x_seq_empty. unfold four_numbers.
  assert (D : forall b v, matches (Seq (Class [(46,46)]) b) v <-> exists w, v = "."%char :: w /\ matches b w) by (intros; now apply x_char_seq).
  split.
  - intros H. apply x_seq in H. destruct H as (a & v & -> & A & H). apply D in H. destruct H as (w & -> & H).
    apply x_seq in H. destruct H as (b & v & -> & B & H). apply D in H. destruct H as (w & -> & H).
    apply x_seq in H. destruct H as (c & v & -> & C & H). apply D in H. destruct H as (w & -> & H).
    apply se1 in H. apply x_long_number in A, B, C, H. exists a, b, c, w. split; [auto|]. repeat constructor; tauto.
  - intros (a & b & c & d & -> & F). rewrite !Forall_cons_iff in F. destruct F as (A & B & C & E & _).
    apply x_long_number in A, B, C, E.
    apply x_seq. eexists _, _. split; [reflexivity|]. split; [auto|]. apply D. eexists. split; [reflexivity|].
    apply x_seq. eexists _, _. split; [reflexivity|]. split; [auto|]. apply D. eexists. split; [reflexivity|].
    apply x_seq. eexists _, _. split; [reflexivity|]. split; [auto|]. apply D. eexists. split; [reflexivity|]. now apply se2.
Qed.

(* --- ieee754_expression --- *)
Definition sign_class : re := Class [(45,45); (43,43)].
Lemma x_two a b n m s : n = nat_of_ascii a -> m = nat_of_ascii b -> matches (Class [(n,n); (m,m)]) s <-> exists c, s = [c] /\ In c [a; b].
Proof.
  intros -> ->. rewrite x_class. split; intros (c & -> & H); exists c; (split; [auto|]); rewrite ?Exists_cons, ?Exists_nil in *; cbn [fst snd In] in *; rewrite !(eq_code _ c) in *; lia.
Qed.
Definition digits_re : re := Plus (Class [(48,57)]).
Lemma ieee_shape : of_text ieee754_expression =
  Seq (Seq (Alt sign_class Empty)
    (Seq (Alt (Seq (Alt (Seq (Class [(46,46)]) (Seq digits_re Empty)) (Seq digits_re (Seq (Class [(46,46)]) (Seq digits_re Empty))))
                   (Seq (Alt (Seq (Class [(101,101); (69,69)]) (Seq sign_class (Seq digits_re Empty))) Empty) Empty))
              (Seq digits_re Empty)) Empty)) Empty.
Proof. vm_compute. reflexivity. Qed.
Lemma x_digits_re s : matches digits_re s <-> some is_digit s.
Proof. apply some_digits. Qed.
Lemma x_sign_class s : matches sign_class s <-> exists c, s = [c] /\ In c (str "-+").
Proof. apply (x_two "-"%char "+"%char); reflexivity. Qed.
Lemma x_fraction s : matches (Alt (Seq (Class [(46,46)]) (Seq digits_re Empty)) (Seq digits_re (Seq (Class [(46,46)]) (Seq digits_re Empty)))) s <->
  exists i f, s = i ++ "."%char :: f /\ Forall is_digit i /\ some is_digit f.
Proof.
  assert (D : forall v, matches (Seq (Class [(46,46)]) (Seq digits_re Empty)) v <-> exists w, v = "."%char :: w /\ some is_digit w).
  { intros. rewrite (x_char_seq "."%char) by reflexivity. split; intros (w & -> & H); exists w; (split; [auto|]); [apply se1 in H; now apply x_digits_re|apply se2; now apply x_digits_re]. }
  rewrite x_alt, D, x_seq. split.
  - intros [(w & -> & H)|(u & v & -> & H & K)].
    + exists [], w. auto.
    + apply D in K. destruct K as (w & -> & K). apply x_digits_re in H. destruct H as [_ H]. exists u, w. auto.
  - intros (i & f & -> & H & K). destruct i as [|c i]; [left; exists f; auto|]. right. exists (c :: i), ("."%char :: f). split; [auto|]. split.
    + apply x_digits_re. split; [discriminate|auto].
    + apply D. eauto.
Qed.
Lemma x_exponent s : matches (Alt (Seq (Class [(101,101); (69,69)]) (Seq sign_class (Seq digits_re Empty))) Empty) s <-> s = [] \/ signed_exponent s.
Proof.
  rewrite x_opt. apply or_iff_compat_l. rewrite x_seq. unfold signed_exponent. split.
  - intros (u & v & -> & H & K). apply (x_two "e"%char "E"%char) in H; [|reflexivity|reflexivity]. destruct H as (e & -> & H).
    apply x_seq in K. destruct K as (w & z & -> & K & M). apply x_sign_class in K. destruct K as (sg & -> & K). apply se1 in M. apply x_digits_re in M. exists e, sg, z. auto.
  - intros (e & sg & ds & -> & H & K & M). exists [e], (sg :: ds). split; [auto|]. split; [apply (x_two "e"%char "E"%char); eauto|].
    apply x_seq. exists [sg], ds. split; [auto|]. split; [apply x_sign_class; eauto|]. apply se2; now apply x_digits_re.
Qed.
Lemma ieee_ok s : matches (of_text ieee754_expression) s <-> decimal_number s.
Proof.
  rewrite ieee_shape, x_seq_empty, x_seq. unfold decimal_number.
  assert (Sg : forall u, matches (Alt sign_class Empty) u <-> In u [[]; str "-"; str "+"]).
  { intros u. rewrite x_opt, x_sign_class. cbn. split; [intros [->|(c & -> & [<-|[<-|[]]])]; auto|].
    intros [<-|[<-|[<-|[]]]]; [auto|right..]; eexists; split; [reflexivity|auto|reflexivity|auto]. }
  split; intros (u & v & -> & H & K); exists u, v; (split; [auto|]); (split; [now apply Sg|]).
  - apply se1 in K. apply x_alt in K. destruct K as [K|K].
    + right. apply x_seq in K. destruct K as (w & x & -> & K & M). apply x_fraction in K. destruct K as (i & f & -> & A & B). apply se1 in M. apply x_exponent in M.
      exists i, f, x. rewrite <- app_assoc. cbn. auto.
    + left. apply se1 in K; now apply x_digits_re in K.
  - apply se2; apply x_alt. destruct K as [K|(i & f & x & -> & A & B & M)].
    + right. apply se2; now apply x_digits_re.
    + left. apply x_seq. exists (i ++ "."%char :: f), x. split; [now rewrite <- app_assoc|]. split; [apply x_fraction; eauto|]. apply se2; now apply x_exponent.
Qed.

(* --- dotted quads and domain names --- *)
Definition short_number : re := Seq (times 1 (Class [(48,57)])) (upto 2 (Class [(48,57)])).
Lemma x_short s : matches short_number s <-> digit_run 1 3 s.
Proof. unfold short_number, digit_run. rewrite x_between. pose proof (proj1 (fits_ext [(48,57)] is_digit s fits_digit)) as E. rewrite E. reflexivity. Qed.
Definition dotted (a : re) : re := Seq a (Seq (Class [(46,46)]) Empty).
Lemma x_dotted a s : matches (dotted a) s <-> exists u, s = u ++ ["."%char] /\ matches a u.
Proof.
  unfold dotted. rewrite x_seq. split.
  - intros (u & v & -> & H & K). apply se1 in K. apply (x_char "."%char) in K; [|reflexivity]. subst. eauto.
  - intros (u & -> & H). exists u, ["."%char]. split; [auto|]. split; [auto|]. apply se2. now apply (x_char "."%char).
Qed.
Lemma x_seq_assoc a b c s : matches (Seq (Seq a b) c) s <-> matches (Seq a (Seq b c)) s.
Proof.
  split; intros H; apply x_seq in H; destruct H as (u & v & -> & H & K).
  - apply x_seq in H. destruct H as (w & x & -> & H & M). rewrite <- app_assoc. constructor; [auto|now constructor].
  - apply x_seq in K. destruct K as (w & x & -> & K & M). rewrite app_assoc. constructor; [now constructor|auto].
Qed.
Lemma x_quad b s : matches (Seq (times 3 (dotted short_number)) (Seq short_number b)) s <-> exists q v, s = q ++ v /\ dotted_quad q /\ matches b v.
Proof.
  rewrite x_seq. unfold dotted_quad. cbn [times]. split.
  - intros (u & v & -> & H & K).
    apply x_seq in H. destruct H as (u1 & v1 & -> & A & H). apply x_dotted in A. destruct A as (a & -> & A).
    apply x_seq in H. destruct H as (u2 & v2 & -> & B & H). apply x_dotted in B. destruct B as (c & -> & B).
    apply se1 in H. apply x_dotted in H. destruct H as (d & -> & C).
    apply x_seq in K. destruct K as (e & w & -> & K & M). apply x_short in A, B, C, K.
    exists (a ++ "."%char :: c ++ "."%char :: d ++ "."%char :: e), w. split; [repeat (rewrite <- ?app_assoc; cbn [app]); reflexivity|]. split; [|auto]. exists a, c, d, e. auto 10.
  - intros (q & v & -> & (a & c & d & e & -> & F) & H). rewrite !Forall_cons_iff in F. destruct F as (A & B & C & E & _).
    exists (a ++ "."%char :: c ++ "."%char :: d ++ ["."%char]), (e ++ v). split; [repeat (rewrite <- ?app_assoc; cbn [app]); reflexivity|]. split.
    + apply x_seq. exists (a ++ ["."%char]), (c ++ "."%char :: d ++ ["."%char]). split; [rewrite <- app_assoc; reflexivity|]. split; [apply x_dotted; exists a; split; [auto|now apply x_short]|].
      apply x_seq. exists (c ++ ["."%char]), (d ++ ["."%char]). split; [rewrite <- app_assoc; reflexivity|]. split; [apply x_dotted; exists c; split; [auto|now apply x_short]|].
      apply se2; apply x_dotted. exists d. split; [auto|now apply x_short].
    + constructor; [now apply x_short|auto].
Qed.
Definition tld : re := Seq (times 2 (Class [(97,122); (65,90)])) (upto 2 (Class [(97,122); (65,90)])).
Lemma x_tld s : matches tld s <-> Forall letter s /\ 2 <= length s <= 4.
Proof. unfold tld. rewrite x_between. rewrite (proj1 (fits_ext _ letter s fits_letter)). reflexivity. Qed.
Definition domain_re (rs : list (nat * nat)) : re := Seq (Plus (dotted (Plus (Class rs)))) tld.
Lemma x_domain rs p s : (forall c, fits rs c <-> p c) -> matches (domain_re rs) s <-> domain_name p s.
Proof.
  intros P. unfold domain_re, domain_name.
  assert (L : forall l, matches (dotted (Plus (Class rs))) l <-> exists u, l = u ++ ["."%char] /\ some p u).
  { intros l. rewrite x_dotted. split; intros (u & -> & H); exists u; (split; [auto|]).
    - unfold Plus in H. rewrite x_plus_class in H. now apply (fits_ext rs p u P).
    - unfold Plus. rewrite x_plus_class. now apply (fits_ext rs p u P). }
  assert (M : forall l, matches (Plus (dotted (Plus (Class rs)))) l <-> exists ls, l = concat (map (fun l => l ++ ["."%char]) ls) /\ ls <> [] /\ Forall (some p) ls).
  { intros l. unfold Plus at 1. rewrite x_seq. split.
    - intros (u & v & -> & H & K). apply L in H. destruct H as (a & -> & H). apply x_star in K. destruct K as (ls & -> & F).
      assert (X : exists ms, ls = map (fun l => l ++ ["."%char]) ms /\ Forall (some p) ms).
      { induction F as [|w ls W F IH]; [exists []; auto|]. destruct IH as (ms & -> & IH). apply L in W. destruct W as (x & -> & W). exists (x :: ms). auto. }
      destruct X as (ms & -> & X). exists (a :: ms). split; [auto|]. split; [discriminate|auto].
    - intros (ls & -> & N & F). destruct F as [|a ls H F]; [congruence|]. exists (a ++ ["."%char]), (concat (map (fun l => l ++ ["."%char]) ls)). split; [auto|]. split; [apply L; eauto|].
      apply x_star. eexists. split; [reflexivity|]. apply Forall_map. eapply Forall_impl; [|exact F]. intros b B. apply L. eauto. }
  rewrite x_seq. split.
  - intros (u & v & -> & H & K). apply M in H. destruct H as (ls & -> & N & F). apply x_tld in K. exists ls, v. tauto.
  - intros (ls & t & -> & N & F & T). eexists _, t. split; [reflexivity|]. split; [apply M; eauto|]. now apply x_tld.
Qed.

(* --- email_expression --- *)
Definition mail_class : list (nat * nat) := [(97,122); (65,90); (48,57); (95,95); (45,45); (46,46)].
Definition label_class : list (nat * nat) := [(97,122); (65,90); (48,57); (95,95); (45,45)].
Lemma one_range (c d : ascii) n : n = nat_of_ascii d -> n <= nat_of_ascii c <= n <-> c = d.
Proof. intros ->. rewrite eq_code. lia. Qed.
Lemma fits_mail c : fits mail_class c <-> word_char c \/ c = "-"%char \/ c = "."%char.
Proof.
  unfold fits, mail_class, word_char, letter. rewrite !Exists_cons, Exists_nil. cbn [fst snd]. rewrite digit_nat.
  rewrite (one_range c "_"%char), (one_range c "-"%char), (one_range c "."%char) by reflexivity. tauto.
Qed.
Lemma fits_label c : fits label_class c <-> word_char c \/ c = "-"%char.
Proof.
  unfold fits, label_class, word_char, letter. rewrite !Exists_cons, Exists_nil. cbn [fst snd]. rewrite digit_nat.
  rewrite (one_range c "_"%char), (one_range c "-"%char) by reflexivity. tauto.
Qed.
Lemma email_shape : of_text email_expression =
  Seq (Seq (Plus (Class mail_class)) Empty) (Seq (Class [(64,64)]) (Seq
   (Alt (Seq (Seq (Class [(91,91)]) (Seq (times 3 (dotted short_number)) (Seq short_number (Seq (Class [(93,93)]) Empty)))) Empty)
        (Seq (Seq (Plus (dotted (Plus (Class label_class)))) Empty) (Seq (Seq tld Empty) Empty))) Empty)).
Proof. vm_compute. reflexivity. Qed.
Lemma x_seq_ext a a' b b' s : (forall s, matches a s <-> matches a' s) -> (forall s, matches b s <-> matches b' s) -> matches (Seq a b) s <-> matches (Seq a' b') s.
Proof. intros A B. rewrite !x_seq. split; intros (u & v & E & H & K); exists u, v; (split; [auto|]); (split; [now apply A|now apply B]). Qed.
Lemma email_ok s : matches (of_text email_expression) s <-> email_address s.
Proof.
  rewrite email_shape, x_seq. unfold email_address.
  assert (D : forall d, matches (Seq (Alt (Seq (Seq (Class [(91,91)]) (Seq (times 3 (dotted short_number)) (Seq short_number (Seq (Class [(93,93)]) Empty)))) Empty)
        (Seq (Seq (Plus (dotted (Plus (Class label_class)))) Empty) (Seq (Seq tld Empty) Empty))) Empty) d <->
     (exists q, d = "["%char :: q ++ ["]"%char] /\ dotted_quad q) \/ domain_name (fun c => word_char c \/ c = "-"%char) d).
  { intros d. rewrite x_seq_empty, x_alt, x_seq_empty. apply Morphisms_Prop.or_iff_morphism.
    - rewrite (x_char_seq "["%char) by reflexivity. split.
      + intros (v & -> & H). apply x_quad in H. destruct H as (q & w & -> & Q & H). apply se1 in H. apply (x_char "]"%char) in H; [|reflexivity]. subst. eauto.
      + intros (q & -> & Q). eexists. split; [reflexivity|]. apply x_quad. exists q, ["]"%char]. split; [auto|]. split; [auto|]. apply se2. now apply (x_char "]"%char).
    - rewrite <- (x_domain label_class) by apply fits_label. apply x_seq_ext; intros; [apply x_seq_empty|]. now rewrite !x_seq_empty. }
  split.
  - intros (u & v & -> & H & K). apply se1 in H. unfold Plus in H. apply x_plus_class in H.
    apply (x_char_seq "@"%char) in K; [|reflexivity]. destruct K as (w & -> & K). apply D in K. exists u, w. split; [auto|]. split; [|auto]. now apply (fits_ext _ _ u fits_mail).
  - intros (l & d & -> & H & K). exists l, ("@"%char :: d). split; [auto|]. split.
    + apply se2. unfold Plus. apply x_plus_class. now apply (fits_ext _ _ l fits_mail).
    + apply (x_char_seq "@"%char); [reflexivity|]. exists d. split; [auto|]. now apply D.
Qed.

(* --- uri_expression --- *)
Definition host_class : list (nat * nat) := [(45,45); (97,122); (65,90); (48,57)].
Definition path_class : list (nat * nat) := host_class ++ map (fun c => (nat_of_ascii c, nat_of_ascii c)) (str "._?,+&amp;%$#=~\").
Lemma fits_host c : fits host_class c <-> host_char c.
Proof.
  unfold fits, host_class, host_char, letter. rewrite !Exists_cons, Exists_nil. cbn [fst snd]. rewrite digit_nat.
  rewrite (one_range c "-"%char) by reflexivity. tauto.
Qed.
Lemma fits_path c : fits path_class c <-> path_char c.
Proof.
  unfold path_class, fits. rewrite Exists_app. fold (fits host_class c). rewrite fits_host. unfold path_char.
  assert (E : Exists (fun r => fst r <= nat_of_ascii c <= snd r) (map (fun c => (nat_of_ascii c, nat_of_ascii c)) (str "._?,+&amp;%$#=~\")) <-> In c (str "._?,+&amp;%$#=~\")).
  { generalize (str "._?,+&amp;%$#=~\"). intros l. rewrite Exists_exists. split.
    - intros (r & I & H). apply in_map_iff in I. destruct I as (d & <- & I). cbn [fst snd] in H. replace c with d; [auto|]. apply eq_code. lia.
    - intros I. exists (nat_of_ascii c, nat_of_ascii c). split; [now apply (in_map (fun c => (nat_of_ascii c, nat_of_ascii c)))|cbn; lia]. }
  rewrite E. cbn [str In]. split.
  - intros [H|H]; [auto|]. assert (W : c = "a"%char \/ c = "m"%char \/ c = "p"%char \/ In c (str "._?,+&;%$#=~\")) by (cbn in *; intuition).
    destruct W as [->|[->|[->|W]]]; [left; left; left; cbn; lia..|auto].
  - intros [H|H]; [auto|]. right. cbn in *. intuition.
Qed.
Definition host_re : re :=
  Alt (Seq (Seq (Alt (Class [(91,91)]) Empty) (Seq (times 3 (dotted short_number)) (Seq short_number (Seq (Alt (Class [(93,93)]) Empty) Empty)))) Empty)
      (Seq (Seq (Plus (dotted (Plus (Class host_class)))) (Seq tld Empty)) Empty).
Definition segment_re : re := Seq (Class [(47,47)]) (Seq (Plus (Class path_class)) Empty).
Definition word_re (w : list ascii) (r : re) : re := fold_right (fun c r => Seq (Class [(nat_of_ascii c, nat_of_ascii c)]) r) r w.
Lemma x_word w r s : matches (word_re w r) s <-> exists v, s = w ++ v /\ matches r v.
Proof.
  revert s. induction w as [|c w IH]; intros s; cbn [word_re fold_right].
  - split; [intros H; exists s; auto|]. intros (v & -> & H). auto.
  - rewrite (x_char_seq c) by reflexivity. fold (word_re w r). split.
    + intros (v & -> & H). apply IH in H. destruct H as (x & -> & H). exists x. auto.
    + intros (v & -> & H). eexists. split; [reflexivity|]. apply IH. eauto.
Qed.
Definition scheme_re : re := Alt (word_re (str "http") (Seq (Alt (Class [(115,115)]) Empty) Empty)) (word_re (str "ftp") Empty).
Lemma uri_shape : of_text uri_expression =
  Seq (Seq scheme_re (word_re (str "://") (Seq host_re (Seq (Alt (Seq (Class [(58,58)]) (Seq digits_re Empty)) Empty)
    (Seq (Star segment_re) (Seq (Alt (Class [(47,47)]) Empty) Empty)))))) Empty.
Proof. vm_compute. reflexivity. Qed.
Lemma x_opt_char c n s : n = nat_of_ascii c -> matches (Alt (Class [(n,n)]) Empty) s <-> In s [[]; [c]].
Proof. intros E. rewrite x_opt, (x_char c) by exact E. cbn. intuition. Qed.
Lemma x_scheme s : matches scheme_re s <-> In s [str "http"; str "https"; str "ftp"].
Proof.
  unfold scheme_re. rewrite x_alt, !x_word. split.
  - intros [(v & -> & H)|(v & -> & H)].
    + apply se1 in H. apply (x_opt_char "s"%char) in H; [|reflexivity]. destruct H as [<-|[<-|[]]]; cbn; auto.
    + apply x_empty in H. subst. cbn; auto.
  - intros [<-|[<-|[<-|[]]]]; [left; exists []|left; exists (str "s")|right; exists []]; (split; [reflexivity|]).
    + apply se2; apply x_opt. auto.
    + apply se2. apply (x_opt_char "s"%char); cbn; auto.
    + constructor.
Qed.
Lemma x_host s : matches host_re s <->
  (exists o q c, s = o ++ q ++ c /\ In o [[]; str "["] /\ dotted_quad q /\ In c [[]; str "]"]) \/ domain_name host_char s.
Proof.
  unfold host_re. rewrite x_alt, !x_seq_empty. apply Morphisms_Prop.or_iff_morphism.
  - rewrite x_seq. split.
    + intros (u & v & -> & H & K). apply (x_opt_char "["%char) in H; [|reflexivity]. apply x_quad in K. destruct K as (q & w & -> & Q & K). apply se1 in K. apply (x_opt_char "]"%char) in K; [|reflexivity].
      exists u, q, w. auto.
    + intros (o & q & c & -> & O & Q & C). eexists _, _. split; [reflexivity|]. split; [now apply (x_opt_char "["%char)|]. apply x_quad. exists q, c. split; [auto|]. split; [auto|]. apply se2. now apply (x_opt_char "]"%char).
  - rewrite <- (x_domain host_class) by apply fits_host. apply x_seq_ext; intros; [tauto|]. apply x_seq_empty.
Qed.
Lemma x_segments s : matches (Star segment_re) s <-> exists segments, s = concat (map (cons "/"%char) segments) /\ Forall (some path_char) segments.
Proof.
  assert (G : forall u, matches segment_re u <-> exists v, u = "/"%char :: v /\ some path_char v).
  { intros u. unfold segment_re. rewrite (x_char_seq "/"%char) by reflexivity. split; intros (v & -> & H); exists v; (split; [auto|]).
    - apply se1 in H. unfold Plus in H. apply x_plus_class in H. now apply (fits_ext _ _ v fits_path).
    - apply se2. unfold Plus. apply x_plus_class. now apply (fits_ext _ _ v fits_path). }
  rewrite x_star. split.
  - intros (l & -> & F). induction F as [|u l H F IH]; [exists []; auto|]. destruct IH as (m & E & IH). apply G in H. destruct H as (v & -> & H). exists (v :: m). cbn [concat map]. rewrite E. auto.
  - intros (l & -> & F). eexists. split; [reflexivity|]. apply Forall_map. eapply Forall_impl; [|exact F]. intros v V. apply G. eauto.
Qed.
Lemma uri_ok s : matches (of_text uri_expression) s <-> uri s.
Proof.
  rewrite uri_shape, x_seq_empty, x_seq. unfold uri. split.
  - intros (u & v & -> & H & K). apply x_scheme in H. apply x_word in K. destruct K as (w & -> & K).
    apply x_seq in K. destruct K as (h & w2 & -> & K & M). apply x_host in K.
    apply x_seq in M. destruct M as (p & w3 & -> & P & M). apply x_opt in P.
    apply x_seq in M. destruct M as (g & w4 & -> & G & M). apply x_segments in G. apply se1 in M. apply (x_opt_char "/"%char) in M; [|reflexivity].
    exists u, h, p, g, w4. split; [auto|]. split; [auto|]. split; [auto|]. split; [|auto].
    destruct P as [P|P]; [auto|]. right. apply (x_char_seq ":"%char) in P; [|reflexivity]. destruct P as (ds & -> & P). apply se1 in P. apply x_digits_re in P. eauto.
  - intros (u & h & p & g & w & -> & U & Hh & P & G & W). eexists _, _. split; [reflexivity|]. split; [now apply x_scheme|]. apply x_word. eexists. split; [reflexivity|].
    constructor; [now apply x_host|]. constructor.
    + apply x_opt. destruct P as [P|(ds & -> & P)]; [auto|]. right. apply (x_char_seq ":"%char); [reflexivity|]. exists ds. split; [auto|]. apply se2; now apply x_digits_re.
    + constructor; [now apply x_segments|]. apply se2. now apply (x_opt_char "/"%char).
Qed.
