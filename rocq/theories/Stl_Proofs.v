(* Insertion into the standard containers. *)
From Coq Require Import Sorting.Permutation Sorting.Sorted.
From Verif Require Import Base Stl_Spec Parse_Spec Split_Model Parse_Model IO_Model IO_Spec Parse_Proofs IO_Proofs Stl_Model.
Local Open Scope nat_scope.

Section Sets.
Context {T : Type}.
Variable lt : T -> T -> bool.
Hypothesis SW : strict_weak lt.

Lemma lt_irr x : lt x x = false. Proof. apply SW. Qed.
Lemma lt_trans x y z : lt x y = true -> lt y z = true -> lt x z = true. Proof. apply SW. Qed.
Lemma lt_asym x y : lt x y = true -> lt y x = false.
Proof. intros H. destruct (lt y x) eqn:E; auto. pose proof (lt_trans _ _ _ H E). rewrite lt_irr in H0. discriminate. Qed.
Lemma eqv_refl x : equivalent lt x x = true. Proof. unfold equivalent. rewrite lt_irr. reflexivity. Qed.
Lemma eqv_sym x y : equivalent lt x y = equivalent lt y x. Proof. apply andb_comm. Qed.
Lemma eqv_iff x y : equivalent lt x y = true <-> lt x y = false /\ lt y x = false.
Proof. unfold equivalent. destruct (lt x y), (lt y x); cbn; intuition discriminate. Qed.
Lemma eqv_trans x y z : equivalent lt x y = true -> equivalent lt y z = true -> equivalent lt x z = true.
Proof. rewrite !eqv_iff. intros [A B] [C D]. destruct SW as (_ & _ & W). eauto. Qed.
(* an element equivalent to another compares as it does *)
Lemma eqv_lt x y z : equivalent lt x y = true -> lt x z = lt y z.
Proof.
  intros E. destruct (lt x z) eqn:A, (lt y z) eqn:B; auto; exfalso.
  - destruct (lt z y) eqn:C. { apply eqv_iff in E. rewrite (lt_trans _ _ _ A C) in E. destruct E; discriminate. }
    assert (equivalent lt y z = true) by (apply eqv_iff; auto). pose proof (eqv_trans _ _ _ E H) as F. apply eqv_iff in F. destruct F; congruence.
  - destruct (lt z x) eqn:C. { apply eqv_iff in E. rewrite (lt_trans _ _ _ B C) in E. destruct E; discriminate. }
    assert (equivalent lt x z = true) by (apply eqv_iff; auto). rewrite eqv_sym in E. pose proof (eqv_trans _ _ _ E H) as F. apply eqv_iff in F. destruct F; congruence.
Qed.
Lemma eqv_lt2 x y z : equivalent lt x y = true -> lt z x = lt z y.
Proof.
  intros E. destruct (lt z x) eqn:A, (lt z y) eqn:B; auto; exfalso.
  - destruct (lt y z) eqn:C. { apply eqv_iff in E. rewrite (lt_trans _ _ _ C A) in E. destruct E; discriminate. }
    assert (equivalent lt y z = true) by (apply eqv_iff; auto). pose proof (eqv_trans _ _ _ E H) as F. apply eqv_iff in F. destruct F; congruence.
  - destruct (lt x z) eqn:C. { apply eqv_iff in E. rewrite (lt_trans _ _ _ C B) in E. destruct E; discriminate. }
    assert (equivalent lt x z = true) by (apply eqv_iff; auto). rewrite eqv_sym in E. pose proof (eqv_trans _ _ _ E H) as F. apply eqv_iff in F. destruct F; congruence.
Qed.

(* --- sets --- *)
Lemma set_insert_in c x : ascending lt c -> forall y,
  In y (set_insert lt c x) <-> In y c \/ (y = x /\ forall z, In z c -> equivalent lt x z = false).
Proof.
  induction 1 as [|a c Hc IH Ha]; intros y; cbn [set_insert].
  - cbn. intuition congruence.
  - rewrite Forall_forall in Ha. destruct (lt x a) eqn:A; [|destruct (lt a x) eqn:B].
    + cbn [In]. split; [|intuition congruence]. intros [<-|H]; [|auto]. right. split; [auto|].
      intros z Hz. apply not_true_is_false. intros E. apply eqv_iff in E. destruct E as [E1 E2].
      destruct Hz as [<-|Hz]; [congruence|]. rewrite (lt_trans _ _ _ A (Ha z Hz)) in E1. discriminate.
    + cbn [In]. rewrite IH. split.
      * intros [H|[H|[-> H]]]; auto. right. split; [auto|]. intros z [<-|Hz]; auto.
        apply not_true_is_false. intros E. apply eqv_iff in E. destruct E; congruence.
      * intros [[H|H]|[-> H]]; [auto|auto|]. right; right. split; [auto|]. intros z Hz. apply H. now right.
    + cbn [In]. split; [auto|]. intros [H|[-> H]]; [auto|]. specialize (H a (or_introl eq_refl)).
      unfold equivalent in H. rewrite A, B in H. discriminate.
Qed.
Lemma set_insert_asc c x : ascending lt c -> ascending lt (set_insert lt c x).
Proof.
  unfold ascending. induction 1 as [|a c Hc IH Ha]; cbn [set_insert].
  - repeat constructor.
  - destruct (lt x a) eqn:A; [|destruct (lt a x) eqn:B].
    + constructor; [constructor; auto|]. constructor; [auto|]. revert Ha. apply Forall_impl. intros z. now apply lt_trans.
    + constructor; [exact IH|]. rewrite Forall_forall in *. intros z Hz. apply set_insert_in in Hz; [|exact Hc].
      destruct Hz as [Hz|[-> _]]; auto.
    + now constructor.
Qed.
Lemma first_exists l z : In z l -> exists y, first_of_its_kind lt l y /\ equivalent lt y z = true.
Proof.
  induction l as [|a l IH]; intros H; [easy|]. destruct (equivalent lt a z) eqn:E.
  - exists a. split; [|auto]. exists [], l. auto.
  - destruct H as [->|H]; [rewrite eqv_refl in E; discriminate|]. destruct (IH H) as (y & (p & q & -> & F) & G). exists y. split; [|auto].
    exists (a :: p), q. split; [reflexivity|]. constructor; [|auto]. apply not_true_is_false. intros K. rewrite eqv_sym in K.
    rewrite (eqv_trans _ _ _ K G) in E. discriminate.
Qed.
Lemma first_snoc l v x : first_of_its_kind lt (l ++ [v]) x <->
  first_of_its_kind lt l x \/ (x = v /\ Forall (fun y => equivalent lt v y = false) l).
Proof.
  split.
  - intros (a & b & E & F). destruct b as [|w b] using rev_ind.
    + apply app_inj_tail in E. destruct E as [-> ->]. auto.
    + clear IHb. rewrite app_comm_cons, app_assoc in E. apply app_inj_tail in E. destruct E as [-> ->]. left. exists a, b. auto.
  - intros [(a & b & -> & F)|[-> F]].
    + exists a, (b ++ [v]). rewrite <- app_assoc. auto.
    + exists l, []. auto.
Qed.
Lemma first_in l x : first_of_its_kind lt l x -> In x l.
Proof. intros (a & b & -> & _). apply in_or_app. right. now left. Qed.
Lemma first_self c : ascending lt c -> forall x, In x c <-> first_of_its_kind lt c x.
Proof.
  unfold ascending. induction 1 as [|a c Hc IH Ha]; intros x; (split; [|now apply first_in]).
  - easy.
  - intros [<-|H]; [exists [], c; auto|]. rewrite Forall_forall in Ha. pose proof (Ha x H) as Hx. apply IH in H.
    destruct H as (p & q & -> & F). exists (a :: p), q. split; [reflexivity|]. constructor; [|auto].
    unfold equivalent. rewrite Hx. apply andb_false_r.
Qed.
Lemma set_step c vs c' v : set_with lt c vs c' -> set_with lt c (vs ++ [v]) (set_insert lt c' v).
Proof.
  intros [A B]. split; [now apply set_insert_asc|]. intros x. rewrite set_insert_in by auto. rewrite app_assoc, first_snoc, B.
  assert (K : (forall z, In z c' -> equivalent lt v z = false) <-> Forall (fun y => equivalent lt v y = false) (c ++ vs)).
  { rewrite Forall_forall. split; intros H z Hz.
    - apply not_true_is_false. intros E. destruct (first_exists _ _ Hz) as (y & F & G). apply B, H in F.
      rewrite eqv_sym in G. rewrite (eqv_trans _ _ _ E G) in F. discriminate.
    - apply H. apply B, first_in in Hz. exact Hz. }
  now rewrite K.
Qed.
Lemma set_all c vs : ascending lt c -> set_with lt c vs (fold_left (set_insert lt) vs c).
Proof.
  intros H. induction vs as [|v vs IH] using rev_ind.
  - cbn. split; [auto|]. rewrite app_nil_r. now apply first_self.
  - rewrite fold_left_app. cbn [fold_left]. now apply set_step.
Qed.
Lemma ascending_nodup c : ascending lt c -> NoDup c.
Proof.
  unfold ascending. induction 1 as [|a c Hc IH Ha]; constructor; auto. intros H. rewrite Forall_forall in Ha.
  specialize (Ha a H). rewrite lt_irr in Ha. discriminate.
Qed.
Lemma ascending_ext c c' : ascending lt c -> ascending lt c' -> (forall x, In x c <-> In x c') -> c = c'.
Proof.
  unfold ascending. intros H. revert c'. induction H as [|a c Hc IH Ha]; intros c' H' E.
  - destruct c' as [|b c']; [auto|]. exfalso. now apply (proj2 (E b)); left.
  - destruct H' as [|b c' Hc' Hb]; [exfalso; now apply (proj1 (E a)); left|]. rewrite Forall_forall in *.
    assert (a = b).
    { destruct (proj1 (E a) (or_introl eq_refl)) as [H|H]; [auto|]. destruct (proj2 (E b) (or_introl eq_refl)) as [K|K]; [auto|].
      pose proof (lt_trans _ _ _ (Ha b K) (Hb a H)) as L. rewrite lt_irr in L. discriminate. }
    subst b. f_equal. apply IH; [auto|]. intros x. split; intros H.
    + destruct (proj1 (E x) (or_intror H)) as [<-|K]; [|auto]. specialize (Ha a H). rewrite lt_irr in Ha. discriminate.
    + destruct (proj2 (E x) (or_intror H)) as [<-|K]; [|auto]. specialize (Hb a H). rewrite lt_irr in Hb. discriminate.
Qed.
Lemma set_insert_len c x : length c <= length (set_insert lt c x).
Proof. induction c as [|a c IH]; cbn [set_insert]; [cbn; lia|]. destruct (lt x a); [cbn; lia|]. destruct (lt a x); cbn [length] in *; lia. Qed.

(* --- multisets --- *)
Lemma mins_perm c x : Permutation (multiset_insert lt c x) (c ++ [x]).
Proof.
  induction c as [|a c IH]; cbn [multiset_insert]; [auto|]. destruct (lt x a).
  - apply (Permutation_app_comm [x]).
  - cbn. now constructor.
Qed.
Lemma mins_order c x : in_order lt c -> in_order lt (multiset_insert lt c x).
Proof.
  unfold in_order. induction 1 as [|a c Hc IH Ha]; cbn [multiset_insert]; [repeat constructor|]. destruct (lt x a) eqn:A.
  - constructor; [constructor; auto|]. rewrite Forall_forall in *. intros z [<-|Hz]; [now apply lt_asym|].
    specialize (Ha z Hz). apply not_true_is_false. intros K. rewrite (lt_trans _ _ _ K A) in Ha. discriminate.
  - constructor; [auto|]. rewrite Forall_forall in *. intros z Hz. apply (Permutation_in _ (mins_perm c x)) in Hz.
    apply in_app_or in Hz. destruct Hz as [Hz|[<-|[]]]; auto.
Qed.
Lemma mins_filter c x y : in_order lt c -> filter (equivalent lt y) (multiset_insert lt c x) = filter (equivalent lt y) (c ++ [x]).
Proof.
  unfold in_order. induction 1 as [|a c Hc IH Ha]; cbn [multiset_insert]; [auto|]. destruct (lt x a) eqn:A.
  - cbn [app]. destruct (equivalent lt y x) eqn:E.
    + assert (N : filter (equivalent lt y) (a :: c) = []).
      { rewrite Forall_forall in Ha. assert (forall z, In z (a :: c) -> equivalent lt y z = false) as K.
        { intros z Hz. apply not_true_is_false. intros F. rewrite eqv_sym in E. pose proof (eqv_trans _ _ _ E F) as G. 
          destruct Hz as [<-|Hz]; [apply eqv_iff in G; destruct G; congruence|]. specialize (Ha z Hz).
          rewrite (eqv_lt _ _ _ G) in A. congruence. }
        clear -K. induction (a :: c) as [|z l IH]; [auto|]. cbn. rewrite (K z) by now left. apply IH. intros w Hw. apply K. now right. }
      change (a :: c ++ [x]) with ((a :: c) ++ [x]). rewrite filter_app, N. cbn [app]. change (x :: a :: c) with ([x] ++ (a :: c)). rewrite filter_app, N.
      cbn [app]. rewrite app_nil_r. reflexivity.
    + change (a :: c ++ [x]) with ((a :: c) ++ [x]). change (x :: a :: c) with ([x] ++ (a :: c)). rewrite !filter_app. cbn [filter]. rewrite E. cbn. now rewrite app_nil_r.
  - cbn [app filter]. rewrite IH. reflexivity.
Qed.
Lemma multiset_all c vs : in_order lt c -> multiset_with lt c vs (fold_left (multiset_insert lt) vs c).
Proof.
  intros H. induction vs as [|v vs IH] using rev_ind.
  - cbn. split; [auto|]. rewrite app_nil_r. auto.
  - rewrite fold_left_app. cbn [fold_left]. destruct IH as (A & B & C). split; [now apply mins_order|]. split.
    + rewrite mins_perm, app_assoc. now apply Permutation_app_tail.
    + intros x. rewrite mins_filter, app_assoc, !filter_app by auto. now rewrite C, filter_app.
Qed.
Lemma mins_len c x : length (multiset_insert lt c x) = S (length c).
Proof. rewrite (Permutation_length (mins_perm c x)), app_length. cbn. lia. Qed.
(* an ordered multiset is determined by its classes *)
Lemma in_order_ext c c' : in_order lt c -> in_order lt c' ->
  (forall x, filter (equivalent lt x) c = filter (equivalent lt x) c') -> c = c'.
Proof.
  unfold in_order. intros H. revert c'. induction H as [|a c Hc IH Ha]; intros c' H' E.
  - destruct c' as [|b c']; [auto|]. specialize (E b). cbn in E. rewrite eqv_refl in E. discriminate.
  - destruct H' as [|b c' Hc' Hb]; [specialize (E a); cbn in E; rewrite eqv_refl in E; discriminate|]. rewrite Forall_forall in *.
    assert (In1 : forall z l1 l2, (forall x, filter (equivalent lt x) l1 = filter (equivalent lt x) l2) -> In z l1 -> In z l2).
    { intros z l1 l2 F Hz. specialize (F z). assert (In z (filter (equivalent lt z) l1)) as K by (apply filter_In; split; [auto|apply eqv_refl]).
      rewrite F in K. apply filter_In in K. tauto. }
    assert (Q : equivalent lt a b = true).
    { apply eqv_iff. split.
      - destruct (In1 a (a :: c) (b :: c') E (or_introl eq_refl)) as [<-|K]; [apply lt_irr|]. auto.
      - destruct (In1 b (b :: c') (a :: c) (fun x => eq_sym (E x)) (or_introl eq_refl)) as [<-|K]; [apply lt_irr|]. auto. }
    assert (a = b).
    { specialize (E a). cbn [filter] in E. rewrite eqv_refl, Q in E. congruence. }
    subst b. f_equal. apply IH; [auto|]. intros x. specialize (E x). cbn [filter] in E. destruct (equivalent lt x a); congruence.
Qed.
End Sets.

(* --- the others --- *)
Lemma queue_all {T} (vs c : list T) : fold_left queue_push vs c = c ++ vs.
Proof. revert c. induction vs as [|v vs IH]; intros c; cbn [fold_left]; [now rewrite app_nil_r|]. rewrite IH. unfold queue_push. now rewrite <- app_assoc. Qed.
Lemma stack_all {T} (vs c : list T) : fold_left stack_push vs c = rev vs ++ c.
Proof. revert c. induction vs as [|v vs IH]; intros c; cbn [fold_left rev]; [auto|]. rewrite IH. unfold stack_push. now rewrite <- app_assoc. Qed.
Lemma pq_all {T} (vs c : list T) : Permutation (fold_left pq_push vs c) (c ++ vs).
Proof.
  change (@pq_push T) with (@stack_push T). rewrite stack_all. rewrite Permutation_app_comm. apply Permutation_app_head.
  symmetry. apply Permutation_rev.
Qed.
Lemma drains_iff {T} (lt : T -> T -> bool) bag out :
  drains lt bag out <-> Permutation bag out /\ StronglySorted (fun a b => lt a b = false) out.
Proof.
  split.
  - induction 1 as [|bag x others out P H D [IH1 IH2]]; [split; constructor|]. split.
    + rewrite P. now constructor.
    + constructor; [auto|]. rewrite Forall_forall. intros y Hy. apply H. now apply (Permutation_in _ (Permutation_sym IH1)).
  - intros [P S]. revert bag P. induction S as [|x out S IH F]; intros bag P.
    + apply Permutation_sym, Permutation_nil in P. subst. constructor.
    + rewrite Forall_forall in F. apply (drain_pop lt bag x out out); auto.
Qed.
(* the greatest element can always be found *)
Lemma drains_exists {T} (lt : T -> T -> bool) bag : strict_weak lt -> exists out, drains lt bag out.
Proof.
  intros SW. exists (rev (fold_left (multiset_insert lt) bag [])). apply drains_iff.
  destruct (multiset_all lt SW [] bag ltac:(constructor)) as (A & B & _). cbn in B. split.
  - rewrite <- Permutation_rev. now symmetry.
  - revert A. unfold in_order. generalize (fold_left (multiset_insert lt) bag []). clear. intros l. induction 1 as [|a l S IH F]; cbn [rev]; [constructor|].
    rewrite Forall_forall in F. assert (G : forall l1 : list T, StronglySorted (fun a b => lt a b = false) l1 -> (forall y, In y l1 -> lt y a = false) ->
      StronglySorted (fun a b => lt a b = false) (l1 ++ [a])).
    { clear. induction 1 as [|b l S IH F]; intros H; cbn; [repeat constructor|]. constructor.
      - apply IH. intros y Hy. apply H. now right.
      - rewrite Forall_forall in *. intros z Hz. apply in_app_or in Hz. destruct Hz as [Hz|[<-|[]]]; [auto|]. apply H. now left. }
    apply G; [exact IH|]. intros y Hy. apply in_rev in Hy. auto.
Qed.

(* --- text files --- *)
Lemma load_into_ok {T C} (add : C -> T -> C) (conv : list ascii -> option T) s ls vs b c : lines_of s ls -> values_of conv ls vs b ->
  exists n st, load_into add conv (Stream s true) c = Ok (b, n, fold_left add vs c, st) /\
    n = length vs + (if b then 0 else 1) /\ (b = true -> n = length ls /\ st = Stream [] false).
Proof.
  intros H Hv. unfold load_into. cbn [good negb rest].
  match goal with |- context [loop _ ?f _] => set (body := f) end.
  assert (G : forall s ls, lines_of s ls -> forall vs fuel k c, length s < fuel -> values_of conv ls vs b ->
    exists n st, loop fuel body (Stream s true, k, c) = Ok (b, n, fold_left add vs c, st) /\
      n = k + length vs + (if b then 0 else 1) /\ (b = true -> n = k + length ls /\ st = Stream [] false)).
  { clear s ls H vs c Hv. induction 1 as [|l Hn Hl|l s ls Hl _ IH]; intros vs fuel k c Hf Hv; (destruct fuel as [|fuel]; [lia|]); cbn [loop]; unfold body at 1.
    - inversion Hv; subst. exists k, (Stream [] false). cbn. rewrite !Nat.add_0_r. auto.
    - rewrite getline_rest by auto. cbn [bind]. inversion Hv as [|? ? E|? v ? vs' ? E Hr]; subst; rewrite E; cbn [bind].
      + exists (S k), (Stream [] true). split; [reflexivity|]. split; [cbn; lia|discriminate].
      + inversion Hr; subst. destruct fuel as [|fuel]; [destruct l; [congruence|cbn in Hf; lia]|]. cbn [loop]. unfold body at 1.
        exists (S k), (Stream [] false). cbn. split; [reflexivity|]. split; [lia|]. rewrite Nat.add_1_r. auto.
    - rewrite getline_more by auto. cbn [bind]. inversion Hv as [|? ? E|? v ? vs' ? E Hr]; subst; rewrite E; cbn [bind].
      + exists (S k), (Stream s true). split; [reflexivity|]. split; [cbn; lia|discriminate].
      + destruct (IH vs' fuel (S k) (add c v) ltac:(rewrite app_length in Hf; cbn in Hf; lia) Hr) as (n & st & E1 & E2 & E3).
        exists n, st. rewrite E1. split; [reflexivity|]. split; [cbn [length]; lia|]. intros Hb. destruct (E3 Hb) as [-> ->]. cbn [length]. split; [lia|auto]. }
  destruct (G s ls H vs (S (length s)) 0 c ltac:(lia) Hv) as (n & st & E1 & E2 & E3). exists n, st. auto.
Qed.
Lemma ifstream_ok fs n : ifstream fs n = if can_open fs n then Stream (contents fs n) true else Stream [] false.
Proof. reflexivity. Qed.
Lemma write_to_file_ok {T} (show : T -> list ascii) fs n xs d :
  match write_to_file show fs n xs d with
  | (k, fs') => if f_write fs n then k = length xs /\ file_is fs fs' n (concat (map (fun x => show x ++ d) xs)) else k = 0 /\ fs' = fs
  end.
Proof.
  unfold write_to_file. pose proof (write_file_ok fs n (concat (map (fun x => show x ++ d) xs))) as W. unfold write_file in W.
  destruct (f_write fs n) eqn:E.
  - rewrite (open_out_ok _ _ E) in *. cbn [negb]. unfold write_to_text_file. rewrite write_items_ok. cbn [app plus]. split; [auto|]. apply W.
  - rewrite (open_out_no _ _ E) in *. cbn [negb]. auto.
Qed.
