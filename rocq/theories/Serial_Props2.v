(* C130, C131: what the readers of the serializer example report about any buffer. *)
From Verif Require Import Base Binary_Model Binary_Spec Binary_Proofs Binary_Proofs2 Binary_Proofs3 Binary_Proofs4 Binary_Props2
  Num_Model Serial_Model Serial_Spec Serial_Proofs Serial_Props.
Local Open Scope nat_scope.

(* the record read counts as equal to the one expected *)
Definition agrees (same : list ascii -> list ascii -> bool) (got p : person) : Prop :=
  p_id got = p_id p /\ p_name got = p_name p /\ p_age got = p_age p /\ p_is_insane got = p_is_insane p /\
  same (p_weight got) (p_weight p) = true /\ same (p_height got) (p_height p) = true.

Lemma same_bytes_iff a b : same_bytes a b = true <-> a = b.
Proof. unfold same_bytes. destruct (list_eq_dec ascii_dec a b); intuition discriminate. Qed.
Lemma person_eqb_iff same p q : person_eqb same p q = true <-> agrees same p q.
Proof. unfold person_eqb, agrees. rewrite !andb_true_iff, !same_bytes_iff. tauto. Qed.

Lemma person_restorable : restorable person_ty = true /\ no_append person_ty = true.
Proof. split; reflexivity. Qed.
(* a proper beginning of a record cannot be read *)
Lemma short_person le q p st more : shaped p -> steady st -> ahead st ++ more = image le p -> more <> [] ->
  exists v st', read le true no_class person_ty q st = Ok (false, v, st').
Proof.
  intros Hp St A Hm. pose proof (read_safe le true no_class person_ty (or_intror eq_refl) q st St) as S.
  destruct (read le true no_class person_ty q st) as [[[b v] st']| |] eqn:E; cbn in S; try contradiction.
  destruct b; [|eauto]. exfalso.
  destruct (read_sound le true no_class person_ty q st v st' eq_refl (or_intror eq_refl) St E) as (Hv & rest & Ha & _).
  pose proof (start_steady (image le p)) as Ss. rewrite Ha in A. rewrite <- app_assoc in A.
  assert (E1 : read le true no_class person_ty q (start (image le p)) = Ok (true, v, advance (start (image le p)) (length (enc le person_ty v)))).
  { apply (read_ok le true no_class person_ty v q _ (rest ++ more)); auto; try (now right).
    rewrite (room_flat le no_class person_ty true) by auto. unfold free. cbn [start cur buf]. rewrite <- A, !app_length. lia. }
  rewrite (read_person le q p (start (image le p)) []) in E1 by (auto; now rewrite app_nil_r).
  injection E1 as Ev _. rewrite <- Ev in A. rewrite person_enc in A. apply (f_equal (@length ascii)) in A. rewrite !app_length in A.
  destruct more; [congruence|]. cbn [length] in A. lia.
Qed.
Lemma read_one le same c q p ps i st got rest : shaped got -> steady st -> ahead st = image le got ++ rest ->
  let st' := advance st (length (image le got)) in
  steady st' /\ ahead st' = rest /\
  read_people le same c q (p :: ps) i st = if person_eqb same got p then read_people le same c got ps (S i) st' else Ok (Differs i).
Proof.
  intros Hs St A st'. split; [|split].
  - apply advance_steady; auto. pose proof (ahead_length st). rewrite A, app_length in *. lia.
  - apply (ahead_step st _ _ A).
  - cbn [read_people]. rewrite (read_person le _ got st rest Hs St A). cbn [bind negb]. rewrite person_back. now destruct (person_eqb same got p).
Qed.
Lemma read_agreeing le same c : forall gots ps, Forall2 (agrees same) gots ps -> Forall shaped gots -> forall q i st rest more, steady st ->
  ahead st = images le gots ++ rest ->
  exists q' st', steady st' /\ ahead st' = rest /\ read_people le same c q (ps ++ more) i st = read_people le same c q' more (i + length ps) st'.
Proof.
  induction 1 as [|got p gots ps Ha _ IH]; intros Hs q i st rest more St A.
  - exists q, st. cbn. rewrite Nat.add_0_r. auto.
  - inversion Hs; subst. change (images le (got :: gots)) with (image le got ++ images le gots) in A. rewrite <- app_assoc in A.
    destruct (read_one le same c q p (ps ++ more) i st got _ ltac:(auto) St A) as (S1 & A1 & E). cbn [app]. rewrite E.
    rewrite (proj2 (person_eqb_iff same got p) Ha). destruct (IH ltac:(auto) got (S i) _ rest more S1 A1) as (q' & st' & S2 & A2 & E2).
    exists q', st'. rewrite E2. cbn [length]. rewrite Nat.add_succ_r. auto.
Qed.

(* What is found when the buffer holds records gots and then rest, and ps are expected: Done if
   they agree; the first that does not agree; or the first that is not there completely. *)
Theorem C130_checked : forall le same clears p_in gots rest ps, Forall shaped gots ->
  let found := read_people le same clears p_in ps 0 (start (images le gots ++ rest)) in
  (Forall2 (agrees same) gots ps -> found = Ok Done) /\
  (forall g1 got g2 p1 p p2, gots = g1 ++ got :: g2 -> ps = p1 ++ p :: p2 -> Forall2 (agrees same) g1 p1 -> ~ agrees same got p ->
     found = Ok (Differs (length p1))) /\
  (forall p1 p p2 broken more, ps = p1 ++ p :: p2 -> Forall2 (agrees same) gots p1 -> shaped broken -> rest ++ more = image le broken -> more <> [] ->
     found = Ok (Could_not_read (length p1))).
Proof.
  intros le same c q gots rest ps Hs found. pose proof (start_steady (images le gots ++ rest)) as St. split; [|split].
  - intros H. destruct (read_agreeing le same c gots ps H Hs q 0 _ rest [] St eq_refl) as (q' & st' & _ & _ & E).
    rewrite app_nil_r in E. unfold found. rewrite E. reflexivity.
  - intros g1 got g2 p1 p p2 -> -> H Hn. apply Forall_app in Hs as [H1 H2]. inversion H2; subst.
    assert (A : ahead (start (images le (g1 ++ got :: g2) ++ rest)) = images le g1 ++ image le got ++ images le g2 ++ rest).
    { unfold ahead. cbn [start cur buf skipn]. unfold images. rewrite map_app, concat_app. cbn [map concat]. now rewrite <- !app_assoc. }
    destruct (read_agreeing le same c g1 p1 H H1 q 0 _ _ (p :: p2) St A) as (q' & st' & S1 & A1 & E). unfold found. rewrite E. cbn [Nat.add].
    destruct (read_one le same c q' p p2 (length p1) st' got _ ltac:(auto) S1 A1) as (_ & _ & ->).
    destruct (person_eqb same got p) eqn:Eq; [|reflexivity]. apply person_eqb_iff in Eq. contradiction.
  - intros p1 p p2 broken more -> H Hb Hr Hm.
    destruct (read_agreeing le same c gots p1 H Hs q 0 _ rest (p :: p2) St eq_refl) as (q' & st' & S1 & A1 & E). unfold found. rewrite E. cbn [Nat.add].
    rewrite <- A1 in Hr. destruct (short_person le (person_val (if c then cleared else q')) broken st' more Hb S1 Hr Hm) as (v & st2 & E2).
    cbn [read_people]. now rewrite E2.
Qed.
Print Assumptions C130_checked.

Example C130_checked_example :
  read_people true eqb_bytes false cleared [ann; bo; ann] 0 (start (images true [ann; bo] ++ firstn 20 (image true ann))) = Ok (Could_not_read 2) /\
  read_people true eqb_bytes false cleared [ann; ann] 0 (start (images true [ann; bo])) = Ok (Differs 1) /\
  read_people true eqb_bytes true cleared [ann; Person (p_id bo) (p_name bo) (p_age bo) (p_height bo) (p_weight bo) (str "n")] 0 (start (images true [ann; bo])) = Ok (Differs 1).
Proof. repeat split; vm_compute; reflexivity. Qed.

(* a number for which there are not enough bytes is refused, whatever they are *)
Theorem C131_short : forall parse w st, wf st -> (N.of_nat (length (buf st) - cur st) < w)%N -> read_number parse w st = Ok (None, st).
Proof.
  intros parse w st W H. unfold read_number. rewrite C70_read_text by exact W. destruct W as (_ & Hl & _).
  destruct (N.leb_spec (N.of_nat (cur st) + w) (N.of_nat (length (buf st)))); [lia|]. reflexivity.
Qed.
Print Assumptions C131_short.

Example C131_short_example : read_number (parse_signed t_int n_int) 4 (start (str "123")) = Ok (None, start (str "123")) /\
  read_number (parse_signed t_int n_int) 3 (start (str "123")) = Ok (Some 123%Z, St (str "123") 3 3 []).
Proof. split; vm_compute; reflexivity. Qed.
