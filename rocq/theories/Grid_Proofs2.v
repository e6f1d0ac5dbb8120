From Verif Require Import Base Split_Model Split_Spec Split_Proofs Split_Proofs2 Parse_Spec Grid_Spec Grid_Model Grid_Rep Grid_Proofs.
Local Open Scope nat_scope.

(* ------------------------------------------------------------------ *)
(* conversions up to the first failure *)
Fixpoint run {A T} (conv : A -> option T) (xs : list A) : bool * list T :=
  match xs with
  | [] => (true, [])
  | x :: xs => match conv x with None => (false, []) | Some v => (fst (run conv xs), v :: snd (run conv xs)) end
  end.
Lemma run_taken {A T} (conv : A -> option T) xs : taken conv xs (fst (run conv xs)) (snd (run conv xs)).
Proof.
  induction xs as [|x xs (d & r & E1 & E2 & E3)]; cbn [run].
  - exists [], []. cbn. auto.
  - destruct (conv x) as [v|] eqn:Ev; cbn [fst snd].
    + exists (x :: d), r. rewrite E1 at 1. cbn [map app]. rewrite Ev, E2. auto.
    + exists [], (x :: xs). cbn. eauto 6.
Qed.
Lemma taken_fun {A T} (conv : A -> option T) xs ok vs ok' vs' : taken conv xs ok vs -> taken conv xs ok' vs' -> ok = ok' /\ vs = vs'.
Proof.
  enough (G : taken conv xs ok' vs' -> run conv xs = (ok', vs')).
  { assert (G' : taken conv xs ok vs -> run conv xs = (ok, vs)); [clear G|intros H H'; rewrite (G' H) in G; specialize (G H'); injection G; auto].
    revert ok vs. induction xs as [|x xs IH]; intros ok vs ([|y d] & r & E1 & E2 & E3); cbn in *; try discriminate.
    - subst r. destruct vs; [|discriminate]. destruct ok; [reflexivity|]. destruct E3 as (? & ? & ? & _). discriminate.
    - subst r. destruct vs; [|discriminate]. destruct ok; [discriminate|]. destruct E3 as (x' & r' & E & Ec). injection E as <- <-. now rewrite Ec.
    - injection E1 as <- ->. destruct vs as [|v vs]; [discriminate|]. injection E2 as Ex E2. rewrite Ex.
      rewrite (IH ok vs); [reflexivity|]. exists d, r. auto. }
  revert ok' vs'. induction xs as [|x xs IH]; intros ok0 vs0 ([|y d] & r & E1 & E2 & E3); cbn in *; try discriminate.
  - subst r. destruct vs0; [|discriminate]. destruct ok0; [reflexivity|]. destruct E3 as (? & ? & ? & _). discriminate.
  - subst r. destruct vs0; [|discriminate]. destruct ok0; [discriminate|]. destruct E3 as (x' & r' & E & Ec). injection E as <- <-. now rewrite Ec.
  - injection E1 as <- ->. destruct vs0 as [|v vs0]; [discriminate|]. injection E2 as Ex E2. rewrite Ex.
    rewrite (IH ok0 vs0); [reflexivity|]. exists d, r. auto.
Qed.

Lemma slice_length {A} (l : list A) a b : a <= b -> b <= length l -> length (slice l a b) = b - a.
Proof. intros. unfold slice. rewrite firstn_length, skipn_length. lia. Qed.
Lemma slice_nth {A} (l : list A) a b j : b <= length l -> forall x, nth_error (slice l a b) j = Some x -> nth_error l (a + j) = Some x.
Proof.
  intros Hb x H. assert (Hj : j < b - a).
  { pose proof (nth_error_some_lt _ _ _ H) as L. unfold slice in L. rewrite firstn_length in L. lia. }
  unfold slice in H. rewrite nth_error_firstn, nth_error_skipn, (proj2 (Nat.ltb_lt _ _) Hj) in H. exact H.
Qed.
Lemma slice_all {A} (l : list A) : slice l 0 (length l) = l.
Proof. unfold slice. rewrite Nat.sub_0_r. apply firstn_all. Qed.
Lemma slice_map {A B} (f : A -> B) l a b : slice (map f l) a b = map f (slice l a b).
Proof. unfold slice. now rewrite skipn_map, firstn_map. Qed.

Lemma fold_map {A B S} (f : S -> B -> S) (h : A -> B) l : forall st, fold_left (fun st x => f st (h x)) l st = fold_left f (map h l) st.
Proof. induction l; intros; cbn; auto. Qed.

Section RowOps.
Context {T : Type}.
Variables (buf : list ascii) (g : grid) (rw : row_type) (r : list tok).
Hypothesis Hrow : is_row g rw r.

Lemma row_tok j t : nth_error r j = Some t -> row_token g rw (N.of_nat j) = Ok t.
Proof. destruct Hrow as (_ & _ & _ & H). apply H. Qed.
Lemma row_sz : r_size rw = N.of_nat (length r).
Proof. apply Hrow. Qed.

Lemma parse_with_index_ok (convs : list (list ascii -> option T)) : forall cols ts, length cols = length convs ->
  Forall2 (fun c t => nth_error r c = Some t) cols ts ->
  exists ok vs, parse_with_index buf g rw (map N.of_nat cols) convs = Ok (ok, vs) /\
    taken (fun p => fst p (snd p)) (combine convs (map (sub buf) ts)) ok vs.
Proof.
  induction convs as [|f convs IH]; intros [|c cols] ts Hl Hf; try discriminate; inversion Hf as [|? t ? ts' Ht Hts]; subst; cbn [map parse_with_index].
  - exists true, []. split; [reflexivity|]. exists [], []. cbn. auto.
  - rewrite (row_tok _ _ Ht). cbn [bind combine map]. injection Hl as Hl.
    destruct (IH cols ts' Hl Hts) as (ok & vs & E & Hv). destruct (f (sub buf t)) as [v|] eqn:Ef.
    + rewrite E. cbn [bind]. exists ok, (v :: vs). split; [reflexivity|].
      destruct Hv as (d & rest & E1 & E2 & E3). exists ((f, sub buf t) :: d), rest. rewrite E1. cbn [map app fst snd]. rewrite Ef, E2. auto.
    + exists false, []. split; [reflexivity|]. exists [], ((f, sub buf t) :: combine convs (map (sub buf) ts')). cbn. eauto 6.
Qed.

Lemma firstn_forall2 n : n <= length r -> Forall2 (fun c t => nth_error r c = Some t) (seq 0 n) (firstn n r).
Proof.
  induction n as [|n IH]; intros Hn; [constructor|]. rewrite seq_S. destruct (nth_error r n) as [t|] eqn:E; [|apply nth_error_None in E; lia].
  rewrite (firstn_S_nth _ _ _ E). apply Forall2_app; [apply IH; lia|]. cbn. repeat constructor. exact E.
Qed.
Lemma parse_row_ok (convs : list (list ascii -> option T)) : length convs <= length r ->
  exists ok vs, parse_row buf g rw convs = Ok (ok, vs) /\
    taken (fun p => fst p (snd p)) (combine convs (map (sub buf) r)) ok vs.
Proof.
  intros Hl. destruct (parse_with_index_ok convs (seq 0 (length convs)) (firstn (length convs) r)) as (ok & vs & E & Hv).
  - apply seq_length.
  - now apply firstn_forall2.
  - exists ok, vs. split; [exact E|]. rewrite <- firstn_map in Hv. rewrite <- combine_firstn_l in Hv. exact Hv.
Qed.

Lemma valid_cols a b : validate_column_range rw (N.of_nat a, N.of_nat b) = (a <=? b) && (b <=? length r).
Proof.
  unfold validate_column_range. rewrite row_sz. cbn [fst snd].
  destruct (N.ltb_spec (N.of_nat (length r)) (N.of_nat a)), (N.ltb_spec (N.of_nat (length r)) (N.of_nat b)), (N.ltb_spec (N.of_nat b) (N.of_nat a)),
    (Nat.leb_spec a b), (Nat.leb_spec b (length r)); cbn; auto; lia.
Qed.

Lemma parse_range_ok (conv : list ascii -> option T) a b sq : a <= b -> b <= length r ->
  exists ok vs, parse_range conv buf g rw (N.of_nat a, N.of_nat b) sq = Ok (ok, sq ++ vs) /\
    taken conv (map (sub buf) (slice r a b)) ok vs.
Proof.
  intros Hab Hb. exists (fst (run conv (map (sub buf) (slice r a b)))), (snd (run conv (map (sub buf) (slice r a b)))).
  split; [|apply run_taken]. unfold parse_range. rewrite valid_cols, (proj2 (Nat.leb_le _ _) Hab), (proj2 (Nat.leb_le _ _) Hb). cbn [negb andb fst snd].
  match goal with |- loop _ ?f _ = _ => set (body := f) end.
  assert (G : forall l i fuel sq, i + length l = b -> (forall j t, nth_error l j = Some t -> nth_error r (i + j) = Some t) -> length l < fuel ->
    loop fuel body (N.of_nat i, sq) = Ok (fst (run conv (map (sub buf) l)), sq ++ snd (run conv (map (sub buf) l)))).
  { induction l as [|t l IH]; intros i fuel sq0 Hi Hn Hf; (destruct fuel as [|fuel]; [lia|]); cbn [loop]; unfold body at 1.
    - cbn [length] in Hi. rewrite (proj2 (N.eqb_eq _ _)) by lia. cbn. now rewrite app_nil_r.
    - cbn [length] in Hi. rewrite (proj2 (N.eqb_neq _ _)) by lia. pose proof (Hn 0 t eq_refl) as H0. rewrite Nat.add_0_r in H0.
      rewrite (row_tok _ _ H0). cbn [bind map run]. destruct (conv (sub buf t)) as [v|]; cbn [fst snd].
      + replace (N.of_nat i + 1)%N with (N.of_nat (S i)) by lia. rewrite IH.
        * now rewrite <- app_assoc.
        * lia.
        * intros j t' Hj. replace (S i + j) with (i + S j) by lia. apply Hn. exact Hj.
        * cbn [length] in Hf. lia.
      + now rewrite app_nil_r. }
  apply G.
  - rewrite slice_length; lia.
  - intros j t. apply slice_nth. exact Hb.
  - rewrite slice_length by lia. lia.
Qed.
Lemma parse_range_bad (conv : list ascii -> option T) a b sq : b < a \/ length r < b ->
  parse_range conv buf g rw (N.of_nat a, N.of_nat b) sq = Ok (false, sq).
Proof.
  intros H. unfold parse_range. rewrite valid_cols. destruct (Nat.leb_spec a b), (Nat.leb_spec b (length r)); cbn; auto; lia.
Qed.
Lemma all_cols : col_range rw 0 (2 ^ 32 - 1) = (N.of_nat 0, N.of_nat (length r)).
Proof. unfold col_range. rewrite N.eqb_refl, row_sz. cbn [negb]. destruct Hrow as (_ & _ & Hs & _). unfold small in Hs. now rewrite u32_small. Qed.
Lemma parse_all_ok (conv : list ascii -> option T) sq :
  exists ok vs, parse_all conv buf g rw sq = Ok (ok, sq ++ vs) /\ taken conv (map (sub buf) r) ok vs.
Proof.
  unfold parse_all. rewrite all_cols. destruct (parse_range_ok conv 0 (length r) sq) as (ok & vs & E & Hv); try lia.
  rewrite slice_all in Hv. eauto.
Qed.

Lemma parse_n_ok (conv : list ascii -> option T) n sq :
  exists (ok : bool) vs, parse_n conv buf g rw (N.of_nat n) sq = Ok ((if ok then N.of_nat (Nat.min n (length r)) else 0%N), sq ++ vs) /\
    taken conv (map (sub buf) (firstn n r)) ok vs.
Proof.
  exists (fst (run conv (map (sub buf) (firstn n r)))), (snd (run conv (map (sub buf) (firstn n r)))).
  split; [|apply run_taken]. unfold parse_n. destruct n as [|n]; [cbn; now rewrite app_nil_r|].
  rewrite (proj2 (N.eqb_neq _ _)) by lia. rewrite row_sz.
  match goal with |- loop _ ?f _ = _ => set (body := f) end.
  assert (G : forall l i fuel sq, i + length l = length r -> i < S n -> (forall j t, nth_error l j = Some t -> nth_error r (i + j) = Some t) -> length l < fuel ->
    loop fuel body (N.of_nat i, sq) =
      Ok ((if fst (run conv (map (sub buf) (firstn (S n - i) l))) then N.of_nat (Nat.min (S n) (length r)) else 0%N),
          sq ++ snd (run conv (map (sub buf) (firstn (S n - i) l))))).
  { induction l as [|t l IH]; intros i fuel sq0 Hi Hin Hn Hf; (destruct fuel as [|fuel]; [lia|]); cbn [loop]; unfold body at 1.
    - cbn [length] in Hi. rewrite (proj2 (N.eqb_eq _ _)) by lia. rewrite firstn_nil. cbn [run map fst snd]. rewrite app_nil_r. do 2 f_equal. lia.
    - cbn [length] in Hi. rewrite (proj2 (N.eqb_neq _ _)) by lia. pose proof (Hn 0 t eq_refl) as H0. rewrite Nat.add_0_r in H0.
      rewrite (row_tok _ _ H0). cbn [bind]. replace (S n - i) with (S (n - i)) by lia. cbn [firstn map run].
      destruct (conv (sub buf t)) as [v|]; cbn [fst snd]; [|now rewrite app_nil_r].
      replace (N.of_nat i + 1)%N with (N.of_nat (S i)) by lia. destruct (N.eqb_spec (N.of_nat (S n)) (N.of_nat (S i))) as [E|E].
      + replace (n - i) with 0 by lia. cbn [firstn map run fst snd]. do 2 f_equal. lia.
      + rewrite IH.
        * replace (S n - S i) with (n - i) by lia. now rewrite <- app_assoc.
        * lia.
        * lia.
        * intros j t' Hj. replace (S i + j) with (i + S j) by lia. apply Hn. exact Hj.
        * cbn [length] in Hf. lia. }
  change 0%N with (N.of_nat 0) at 1. rewrite (G r); auto; lia.
Qed.

Lemma parse_checked_ok (conv : list ascii -> option T) sq :
  exists vs, parse_checked conv buf g rw sq = Ok (sq ++ vs) /\ converted conv (map (sub buf) r) vs.
Proof.
  unfold parse_checked. rewrite (row_loop _ _ _ (fun sq t => match conv (sub buf t) with Some v => sq ++ [v] | None => sq end) sq Hrow).
  enough (G : forall l sq, exists vs, fold_left (fun sq t => match conv (sub buf t) with Some v => sq ++ [v] | None => sq end) l sq = sq ++ vs /\
    converted conv (map (sub buf) l) vs) by (destruct (G r sq) as (vs & E & H); exists vs; split; [f_equal; exact E|exact H]).
  induction l as [|t l IH]; intros sq0; cbn [fold_left map].
  - exists []. rewrite app_nil_r. split; [reflexivity|constructor].
  - destruct (conv (sub buf t)) as [v|] eqn:E.
    + destruct (IH (sq0 ++ [v])) as (vs & E' & H). exists (v :: vs). rewrite E', <- app_assoc. split; [reflexivity|now constructor].
    + destruct (IH sq0) as (vs & E' & H). exists vs. rewrite E'. split; [reflexivity|now constructor].
Qed.

Lemma for_each_column_ok (f : T -> tok -> T) a b x : a <= b -> b <= length r ->
  for_each_column f g rw (N.of_nat a, N.of_nat b) x = Ok (N.of_nat (b - a), fold_left f (slice r a b) x).
Proof.
  intros Hab Hb. unfold for_each_column. rewrite valid_cols, (proj2 (Nat.leb_le _ _) Hab), (proj2 (Nat.leb_le _ _) Hb). cbn [negb andb fst snd].
  unfold for_range. rewrite !Nat2N.id. replace (b - a) with (length (slice r a b)) at 1 by (apply slice_length; lia).
  rewrite (for_up_fold _ (fun '(n, x) t => ((n + 1)%N, f x t)) (slice r a b)).
  - f_equal. rewrite <- (slice_length r a b) by lia. generalize (slice r a b) as l. intros l.
    enough (G : forall n x, fold_left (fun '(n, x) t => ((n + 1)%N, f x t)) l (n, x) = ((n + N.of_nat (length l))%N, fold_left f l x)) by (rewrite G; reflexivity).
    induction l as [|t l IH]; intros n x0; cbn [fold_left length]; [f_equal; lia|]. rewrite IH. f_equal. lia.
  - intros j t [n x0] Hj. rewrite (row_tok _ _ (slice_nth r a b j Hb t Hj)). reflexivity.
Qed.
Lemma for_each_column_bad (f : T -> tok -> T) a b x : b < a \/ length r < b ->
  for_each_column f g rw (N.of_nat a, N.of_nat b) x = Ok (0%N, x).
Proof.
  intros H. unfold for_each_column. rewrite valid_cols. destruct (Nat.leb_spec a b), (Nat.leb_spec b (length r)); cbn; auto; lia.
Qed.
End RowOps.

Section RowText.
Variables (buf : list ascii) (g : grid) (rw : row_type) (r : list tok).
Hypothesis Hrow : is_row g rw r.
Hypothesis Hin : Forall (fun t => fst t <= snd t /\ snd t <= length buf) r.

Lemma raw_length_ok : raw_length g rw = Ok (length (concat (map (sub buf) r))).
Proof.
  unfold raw_length. rewrite (row_loop _ _ _ (fun n t => n + (snd t - fst t)) 0 Hrow). f_equal.
  enough (G : forall n, fold_left (fun n t => n + (snd t - fst t)) r n = n + length (concat (map (sub buf) r))) by apply G.
  generalize Hin. clear. induction 1 as [|t l [H1 H2] _ IH]; intros n; cbn [fold_left map concat]; [cbn; lia|].
  rewrite IH by now inversion Hin. rewrite app_length. destruct t as [a b]. cbn [fst snd] in *. rewrite (sub_length buf a b) by assumption. lia.
Qed.
Lemma row_range_ok : exists a b, nth_error r 0 = Some a /\ nth_error r (length r - 1) = Some b /\ row_range g rw = Ok (fst a, snd b).
Proof.
  destruct Hrow as (H1 & H2 & _ & H4). destruct r as [|a l] eqn:El; [congruence|].
  destruct (nth_error (a :: l) (length (a :: l) - 1)) as [b|] eqn:E; [|apply nth_error_None in E; cbn in E; lia].
  exists a, b. split; [reflexivity|]. split; [reflexivity|]. unfold row_range. change 0%N with (N.of_nat 0) at 1. rewrite (H4 0 a eq_refl). cbn [bind].
  rewrite H1, (proj2 (N.eqb_neq _ _)) by (cbn; lia). replace (N.of_nat (length (a :: l)) - 1)%N with (N.of_nat (length (a :: l) - 1)) by (cbn [length]; lia).
  rewrite (H4 _ _ E). reflexivity.
Qed.
Lemma as_string_ok : as_string buf g rw = Ok (concat (map (sub buf) r)).
Proof.
  unfold as_string. destruct row_range_ok as (a & b & _ & _ & E). rewrite E. cbn [bind].
  rewrite (row_loop _ _ _ (fun s t => s ++ sub buf t) [] Hrow). f_equal.
  enough (G : forall s, fold_left (fun s t => s ++ sub buf t) r s = s ++ concat (map (sub buf) r)) by apply G.
  clear Hrow Hin a b E. induction r as [|t l IH]; intros s; cbn [fold_left map concat]; [now rewrite app_nil_r|]. now rewrite IH, app_assoc.
Qed.
End RowText.

(* ------------------------------------------------------------------ *)
(* rows of the grid *)
Section Cols.
Context {T : Type}.
Variables (buf : list ascii) (g : grid) (rs : list (list tok)).
Hypothesis Hg : represents g rs.

Lemma small_rows : small (length rs).
Proof.
  destruct Hg as (_ & _ & H3 & H4). eapply small_le; [|exact H4]. clear H4 Hg. induction H3 as [|r l Hr _ IH]; cbn; [lia|].
  rewrite app_length. destruct r; [congruence|cbn; lia].
Qed.
Lemma all_rows_ok : all_rows g = (N.of_nat 0, N.of_nat (length rs)).
Proof. unfold all_rows. rewrite (row_count_ok _ _ Hg). pose proof small_rows as H. unfold small in H. now rewrite u32_small. Qed.
Lemma valid_rows a b : row_range_invalid g (N.of_nat a, N.of_nat b) = negb ((a <=? b) && (b <=? length rs)).
Proof.
  unfold row_range_invalid. rewrite (row_count_ok _ _ Hg). cbn [fst snd].
  destruct (N.ltb_spec (N.of_nat (length rs)) (N.of_nat a)), (N.ltb_spec (N.of_nat (length rs)) (N.of_nat b)), (N.ltb_spec (N.of_nat b) (N.of_nat a)),
    (Nat.leb_spec a b), (Nat.leb_spec b (length rs)); cbn; auto; lia.
Qed.
Lemma rows_loop {S} (body : N -> S -> outcome S) (f : nat -> S -> list tok -> S) a b st : a <= b -> b <= length rs ->
  (forall i r st, nth_error rs i = Some r -> body (N.of_nat i) st = Ok (f i st r)) ->
  for_range (N.of_nat a) (N.of_nat b) body st = Ok (foldi f a (slice rs a b) st).
Proof.
  intros Hab Hb H. unfold for_range. rewrite !Nat2N.id. rewrite <- (slice_length rs a b) by lia.
  apply for_up_foldi. intros j r st' Hj. apply H. now apply (slice_nth rs a b j Hb).
Qed.
(* reading column c of row i *)
Lemma cell_at i r c : nth_error rs i = Some r ->
  exists ix, at_ (rows g) (N.of_nat i) = Ok ix /\ token_count ix = N.of_nat (length r) /\
    forall t, nth_error r c = Some t -> at_ (tokens g) (fst ix + N.of_nat c) = Ok t.
Proof.
  intros Hi. destruct (row_at _ _ _ _ Hg Hi) as (base & E1 & E2 & _ & _ & _ & E3 & _).
  eexists. rewrite at_nat. split; [exact E1|]. split; [exact E2|]. intros t Ht. cbn [fst]. rewrite <- Nat2N.inj_add, at_nat. now apply E3.
Qed.

Lemma column_fold {S} (f : S -> tok -> S) c l : forall k st,
  foldi (fun _ st (r : list tok) => match nth_error r c with Some t => f st t | None => st end) k l st = fold_left f (column l c) st.
Proof. induction l as [|r l IH]; intros k st; cbn [foldi column]; [reflexivity|]. rewrite IH. destruct (nth_error r c); reflexivity. Qed.
Lemma column_loop {S} (body : N -> S -> outcome S) (f : S -> tok -> S) a b c st : a <= b -> b <= length rs ->
  (forall i r st, nth_error rs i = Some r -> body (N.of_nat i) st = Ok (match nth_error r c with Some t => f st t | None => st end)) ->
  for_range (N.of_nat a) (N.of_nat b) body st = Ok (fold_left f (column (slice rs a b) c) st).
Proof.
  intros Hab Hb H. rewrite (rows_loop body (fun _ st r => match nth_error r c with Some t => f st t | None => st end) a b st Hab Hb H).
  f_equal. apply column_fold.
Qed.
Lemma column_map {A B} (h : A -> B) l c : column (map (map h) l) c = map h (column l c).
Proof. induction l as [|r l IH]; cbn [map column]; [reflexivity|]. rewrite nth_error_map. destruct (nth_error r c); cbn; now rewrite IH. Qed.

Lemma extract_column_ok (conv : list ascii -> option T) a b c out : (N.of_nat c <= max_c g)%N -> a <= b -> b <= length rs ->
  exists ok vs, extract_column conv buf g (N.of_nat a, N.of_nat b) (N.of_nat c) out = Ok (true, (negb ok, out ++ vs)) /\
    taken conv (map (sub buf) (column (slice rs a b) c)) ok vs.
Proof.
  intros Hc Hab Hb. set (col := column (slice rs a b) c).
  exists (fst (run conv (map (sub buf) col))), (snd (run conv (map (sub buf) col))). split; [|apply run_taken].
  unfold extract_column. rewrite (proj2 (N.ltb_ge _ _) Hc), valid_rows, (proj2 (Nat.leb_le _ _) Hab), (proj2 (Nat.leb_le _ _) Hb). cbn [negb andb fst snd].
  rewrite (column_loop _ (fun '(thrown, out) t => if thrown : bool then (thrown, out) else
     match conv (sub buf t) with Some v => (false, out ++ [v]) | None => (true, out) end) a b c (false, out) Hab Hb).
  - cbn [bind]. do 2 f_equal. fold col. generalize col as l. clear. intros l.
    assert (G1 : forall l out, fold_left (fun '(thrown, out) t => if thrown : bool then (thrown, out) else
      match conv (sub buf t) with Some v => (false, out ++ [v]) | None => (true, out) end) l (true, out) = (true, out)) by (induction l0; intros; cbn; auto).
    revert out. induction l as [|t l IH]; intros out; cbn [fold_left map run]; [cbn; now rewrite app_nil_r|].
    destruct (conv (sub buf t)) as [v|]; cbn [fst snd]; [rewrite IH; now rewrite <- app_assoc|]. rewrite G1. cbn. now rewrite app_nil_r.
  - intros i r [thrown o] Hi. destruct thrown; [destruct (nth_error r c); reflexivity|]. destruct (cell_at i r c Hi) as (ix & -> & E & Ht). cbn [bind]. rewrite E.
    destruct (nth_error r c) as [t|] eqn:En.
    + pose proof (nth_error_some_lt _ _ _ En). rewrite (proj2 (N.ltb_lt _ _)) by lia. rewrite (Ht _ eq_refl). cbn [bind].
      destruct (conv (sub buf t)); reflexivity.
    + apply nth_error_None in En. rewrite (proj2 (N.ltb_ge _ _)) by lia. reflexivity.
Qed.
Lemma extract_column_checked_ok (conv : list ascii -> option T) a b c out : (N.of_nat c <= max_c g)%N -> a <= b -> b <= length rs ->
  exists vs, extract_column_checked conv buf g (N.of_nat a, N.of_nat b) (N.of_nat c) out = Ok (true, out ++ vs) /\
    converted conv (map (sub buf) (column (slice rs a b) c)) vs.
Proof.
  intros Hc Hab Hb. unfold extract_column_checked. rewrite (proj2 (N.ltb_ge _ _) Hc), valid_rows, (proj2 (Nat.leb_le _ _) Hab), (proj2 (Nat.leb_le _ _) Hb). cbn [negb andb fst snd].
  rewrite (column_loop _ (fun out t => match conv (sub buf t) with Some v => out ++ [v] | None => out end) a b c out Hab Hb).
  - cbn [bind]. generalize (column (slice rs a b) c) as l. intros l. clear. revert out.
    induction l as [|t l IH]; intros out; cbn [fold_left map].
    + exists []. rewrite app_nil_r. split; [reflexivity|constructor].
    + destruct (conv (sub buf t)) as [v|] eqn:E.
      * destruct (IH (out ++ [v])) as (vs & E' & H). exists (v :: vs). rewrite E', <- app_assoc. split; [reflexivity|now constructor].
      * destruct (IH out) as (vs & E' & H). exists vs. rewrite E'. split; [reflexivity|now constructor].
  - intros i r o Hi. destruct (cell_at i r c Hi) as (ix & -> & E & Ht). cbn [bind]. rewrite E.
    destruct (nth_error r c) as [t|] eqn:En.
    + pose proof (nth_error_some_lt _ _ _ En). rewrite (proj2 (N.ltb_lt _ _)) by lia. rewrite (Ht _ eq_refl). reflexivity.
    + apply nth_error_None in En. rewrite (proj2 (N.ltb_ge _ _)) by lia. reflexivity.
Qed.
Lemma extract_bad (conv : list ascii -> option T) a b c out : (max_c g < N.of_nat c)%N \/ b < a \/ length rs < b ->
  extract_column conv buf g (N.of_nat a, N.of_nat b) (N.of_nat c) out = Ok (false, (false, out)) /\
  extract_column_checked conv buf g (N.of_nat a, N.of_nat b) (N.of_nat c) out = Ok (false, out).
Proof.
  intros H. unfold extract_column, extract_column_checked. rewrite valid_rows.
  destruct (N.ltb_spec (max_c g) (N.of_nat c)); [auto|]. destruct (Nat.leb_spec a b), (Nat.leb_spec b (length rs)); cbn; auto; lia.
Qed.

(* several columns at once *)
Lemma extract_columns_ok a b (cols : list nat) outs : length outs = length cols ->
  (forall c, In c cols -> (N.of_nat c <= max_c g)%N) -> a <= b -> b <= length rs ->
  extract_columns buf g (N.of_nat a, N.of_nat b) (map N.of_nat cols) outs =
    Ok (true, map (fun p => fst p ++ map (sub buf) (column (filter (fun r => forallb (fun c => c <? length r) cols) (slice rs a b)) (snd p))) (combine outs cols)).
Proof.
  intros Hl Hc Hab Hb. unfold extract_columns.
  assert (Ex : existsb (fun i => (max_c g <? i)%N) (map N.of_nat cols) = false).
  { destruct (existsb _ _) eqn:E; [|reflexivity]. apply existsb_exists in E as (i & Hi & Hlt). apply in_map_iff in Hi as (c & <- & Hi).
    apply N.ltb_lt in Hlt. specialize (Hc c Hi). lia. }
  rewrite Ex, valid_rows, (proj2 (Nat.leb_le _ _) Hab), (proj2 (Nat.leb_le _ _) Hb). cbn [negb andb fst snd].
  match goal with |- context [for_range _ _ ?f _] => set (body := f) end.
  set (add := fun (outs : list (list (list ascii))) (r : list tok) =>
    map (fun p => fst p ++ match nth_error r (snd p) with Some t => [sub buf t] | None => [] end) (combine outs cols)).
  assert (Emax : forall n, (fold_right N.max 0%N (map N.of_nat cols) <? N.of_nat n)%N = forallb (fun c => c <? n) cols && (0 <? n)).
  { clear. intros n. induction cols as [|c cs IH]; cbn [map fold_right forallb andb].
    - destruct (N.ltb_spec 0 (N.of_nat n)), (Nat.ltb_spec 0 n); auto; lia.
    - rewrite <- andb_assoc, <- IH. destruct (N.ltb_spec (fold_right N.max 0%N (map N.of_nat cs)) (N.of_nat n)), (Nat.ltb_spec c n); cbn [andb];
        try (apply N.ltb_lt; lia); apply N.ltb_ge; lia. }
  assert (Hbody : forall i r outs, nth_error rs i = Some r -> length outs = length cols ->
    body (N.of_nat i) outs = Ok (if forallb (fun c => c <? length r) cols then add outs r else outs)).
  { intros i r os Hi Hlo. unfold body. destruct (cell_at i r 0 Hi) as (ix & E0 & E & _). rewrite E0. cbn [bind]. rewrite E, Emax.
    assert (Hne : (0 <? length r) = true).
    { apply Nat.ltb_lt. destruct Hg as (_ & _ & H3 & _). rewrite Forall_forall in H3. specialize (H3 r (nth_error_In _ _ Hi)). destruct r; [congruence|cbn; lia]. }
    rewrite Hne, andb_true_r. destruct (forallb _ cols) eqn:Ef; [|reflexivity]. unfold add.
    assert (Hall : forall c, In c cols -> exists t, nth_error r c = Some t /\ at_ (tokens g) (fst ix + N.of_nat c) = Ok t).
    { intros c Hin. rewrite forallb_forall in Ef. specialize (Ef c Hin). apply Nat.ltb_lt in Ef.
      destruct (nth_error r c) as [t|] eqn:En; [|apply nth_error_None in En; lia]. exists t. split; [reflexivity|].
      destruct (cell_at i r c Hi) as (ix' & E0' & _ & Ht). rewrite E0 in E0'. injection E0' as <-. now apply Ht. }
    clear - Hall Hlo. revert os Hlo. induction cols as [|c cs IH]; intros [|o os] Hlo; try discriminate; [reflexivity|].
    destruct (Hall c (or_introl eq_refl)) as (t & En & Et). cbn [map combine]. rewrite Et. cbn [bind].
    rewrite (IH (fun c' H => Hall c' (or_intror H)) os) by (cbn in Hlo; lia). cbn [bind fst snd]. now rewrite En. }
  assert (G : forall l k os, length os = length cols -> (forall j r, nth_error l j = Some r -> nth_error rs (k + j) = Some r) ->
    for_up k (length l) (fun i => body (N.of_nat i)) os =
      Ok (map (fun p => fst p ++ map (sub buf) (column (filter (fun r => forallb (fun c => c <? length r) cols) l) (snd p))) (combine os cols))).
  { clear Hab Hb Hl outs. induction l as [|r l IH]; intros k os Hlo Hn; cbn [length for_up].
    - f_equal. cbn [filter column map]. revert os Hlo. clear. induction cols as [|c cs IH]; intros [|o os] H; try discriminate; cbn; auto.
      rewrite app_nil_r. f_equal. apply IH. cbn in H. lia.
    - pose proof (Hn 0 r eq_refl) as H0. rewrite Nat.add_0_r in H0. rewrite (Hbody k r os H0 Hlo). cbn [bind].
      assert (Hn' : forall j r0, nth_error l j = Some r0 -> nth_error rs (S k + j) = Some r0).
      { intros j r0 Hj. replace (S k + j) with (k + S j) by lia. now apply Hn. }
      cbn [filter]. destruct (forallb (fun c => c <? length r) cols) eqn:Ef; [|now apply IH].
      rewrite IH; [|unfold add; rewrite map_length, combine_length; lia|exact Hn']. f_equal.
      generalize (filter (fun r0 => forallb (fun c => c <? length r0) cols) l) as m. intros m. unfold add.
      assert (Hr : forall c, In c cols -> c < length r) by (intros c Hin; rewrite forallb_forall in Ef; apply Nat.ltb_lt, Ef, Hin).
      clear - Hlo Hr. revert os Hlo. induction cols as [|c cs IH]; intros [|o os] H; try discriminate; [reflexivity|]. cbn [combine map fst snd column].
      rewrite (IH (fun c' Hi => Hr c' (or_intror Hi)) os) by (cbn in H; lia). f_equal. specialize (Hr c (or_introl eq_refl)).
      destruct (nth_error r c) as [t|] eqn:En; [|apply nth_error_None in En; lia]. cbn [map]. now rewrite <- app_assoc. }
  unfold for_range. rewrite !Nat2N.id. rewrite <- (slice_length rs a b) at 1 by lia. rewrite G; [reflexivity|exact Hl|].
  intros j r. now apply slice_nth.
Qed.

Lemma column_width_ok a b c : (N.of_nat c <= max_c g)%N -> a <= b -> b <= length rs -> within buf rs ->
  column_width g (N.of_nat c) (N.of_nat a, N.of_nat b) = Ok (list_max (map (@length ascii) (map (sub buf) (column (slice rs a b) c)))).
Proof.
  intros Hc Hab Hb Hw. unfold column_width. rewrite (proj2 (N.ltb_ge _ _) Hc), valid_rows, (proj2 (Nat.leb_le _ _) Hab), (proj2 (Nat.leb_le _ _) Hb). cbn [negb andb fst snd].
  rewrite (column_loop _ (fun w t => Nat.max (snd t - fst t) w) a b c 0 Hab Hb).
  - f_equal. assert (Hin : Forall (fun t => fst t <= snd t /\ snd t <= length buf) (column (slice rs a b) c)).
    { assert (Hs : Forall (Forall (fun t : tok => fst t <= snd t /\ snd t <= length buf)) (slice rs a b)).
      { unfold within in Hw. rewrite Forall_forall in Hw. apply Forall_forall. intros r Hr. apply Hw.
        destruct (In_nth_error _ _ Hr) as (j & Hj). apply (slice_nth rs a b j Hb) in Hj. eapply nth_error_In; eauto. }
      clear - Hs. induction Hs as [|r l Hr _ IH]; cbn [column]; [constructor|]. destruct (nth_error r c) eqn:E; [|exact IH].
      constructor; [|exact IH]. rewrite Forall_forall in Hr. apply Hr. eapply nth_error_In; eauto. }
    revert Hin. generalize (column (slice rs a b) c) as l. clear. intros l Hin.
    enough (G : forall w, fold_left (fun w t => Nat.max (snd t - fst t) w) l w = Nat.max w (list_max (map (@length ascii) (map (sub buf) l)))) by apply G.
    induction Hin as [|t l [H1 H2] _ IH]; intros w; cbn [fold_left map]; [cbn; lia|]. rewrite IH. destruct t as [x y].
    cbn [fst snd] in *. unfold list_max. cbn [fold_right]. rewrite (sub_length buf x y) by assumption. lia.
  - intros i r w Hi. destruct (cell_at i r c Hi) as (ix & -> & E & Ht). cbn [bind]. rewrite E.
    destruct (nth_error r c) as [t|] eqn:En.
    + pose proof (nth_error_some_lt _ _ _ En). rewrite (proj2 (N.ltb_lt _ _)) by lia. rewrite (Ht _ eq_refl). reflexivity.
    + apply nth_error_None in En. rewrite (proj2 (N.ltb_ge _ _)) by lia. reflexivity.
Qed.
Lemma get_column_widths_ok n columns : max_c g = N.of_nat n -> within buf rs ->
  get_column_widths g columns = Ok (columns ++ map (fun c => list_max (map (@length ascii) (map (sub buf) (column rs c)))) (seq 0 n)).
Proof.
  intros Hn Hw. unfold get_column_widths, for_range. rewrite Hn, Nat2N.id. change (N.to_nat 0) with 0. rewrite Nat.sub_0_r, all_rows_ok.
  rewrite <- (seq_length n 0) at 1. rewrite (for_up_fold _ (fun out c => out ++ [list_max (map (@length ascii) (map (sub buf) (column rs c)))]) (seq 0 n)).
  - f_equal. generalize (seq 0 n) as l. intros l. revert columns. induction l as [|c l IH]; intros cs; cbn [fold_left map]; [now rewrite app_nil_r|].
    rewrite IH, <- app_assoc. reflexivity.
  - intros j c out Hj. pose proof (nth_error_some_lt _ _ _ Hj) as Hlt. rewrite seq_length in Hlt. rewrite (nth_error_nth' _ 0) in Hj by now rewrite seq_length.
    rewrite seq_nth in Hj by assumption. injection Hj as <-. rewrite column_width_ok; try lia; auto. cbn [bind]. now rewrite slice_all.
Qed.

(* joining *)
Lemma join_fold d texts : forall result appended,
  fst (fold_left (fun st t => join_step d t st) texts (result, appended)) =
    result ++ (if appended && nonempty texts then d else []) ++ joined d texts.
Proof.
  assert (Edq : forall (x : list ascii) (b : bool), (if negb (length d =? 0) && b then x ++ d else x) = x ++ (if b then d else [])).
  { intros x b. destruct d; cbn; [destruct b; now rewrite app_nil_r|]. destruct b; [reflexivity|now rewrite app_nil_r]. }
  induction texts as [|t texts IH]; intros result appended; cbn [fold_left].
  - cbn. rewrite andb_false_r. cbn. now rewrite app_nil_r.
  - cbn [nonempty]. rewrite andb_true_r. unfold join_step at 2. rewrite Edq.
    destruct t as [|c t].
    + cbn [length Nat.eqb negb]. rewrite IH. cbn [andb app]. rewrite <- app_assoc. f_equal. f_equal.
      unfold joined. cbn [filter nonempty existsb orb]. destruct texts as [|u texts]; [reflexivity|]. reflexivity.
    + cbn [length Nat.eqb negb]. rewrite IH. cbn [andb]. rewrite <- !app_assoc. f_equal. f_equal. unfold joined. cbn [filter nonempty existsb orb andb].
      destruct texts as [|u texts]; [cbn; now rewrite !app_nil_r|]. change (last ((c :: t) :: u :: texts) []) with (last (u :: texts) []).
      destruct (existsb nonempty (u :: texts)) eqn:Ex.
      * assert (Hf : filter nonempty (u :: texts) <> []).
        { apply existsb_exists in Ex as (x & Hx & Hnx). intros E0. assert (In x []) by (rewrite <- E0; apply filter_In; auto). contradiction. }
        cbn [separated]. destruct (filter nonempty (u :: texts)) as [|v vs]; [congruence|]. cbn [nonempty]. rewrite <- !app_assoc. reflexivity.
      * assert (Hf : filter nonempty (u :: texts) = []).
        { destruct (filter nonempty (u :: texts)) as [|x l] eqn:E0; [reflexivity|]. exfalso.
          assert (Hx : In x (filter nonempty (u :: texts))) by (rewrite E0; now left). apply filter_In in Hx as [Hx1 Hx2].
          assert (existsb nonempty (u :: texts) = true) by (apply existsb_exists; eauto). congruence. }
        rewrite Hf. cbn [separated nonempty andb app].
        assert (Hlast : nonempty (last (u :: texts) []) = false).
        { assert (Hin : In (last (u :: texts) []) (u :: texts)) by (assert (Hne : u :: texts <> []) by discriminate; destruct (exists_last Hne) as (l' & a & E0); rewrite E0, last_last; apply in_or_app; right; now left).
          destruct (nonempty (last (u :: texts) [])) eqn:En; [|reflexivity]. exfalso.
          assert (existsb nonempty (u :: texts) = true) by (apply existsb_exists; eauto). congruence. }
        rewrite Hlast. cbn [negb]. now rewrite !app_nil_r.
Qed.

Lemma join_row_ok i r d result : nth_error rs i = Some r ->
  join_row buf g (N.of_nat i) d result =
    Ok (true, result ++ joined d (map (sub buf) (if S i <? length rs then r else removelast r))).
Proof.
  intros Hi. pose proof (nth_error_some_lt _ _ _ Hi) as Hlt. destruct (row_at _ _ _ _ Hg Hi) as (base & E1 & _ & Hne & Hle & Hs & E3 & Hmid & Hend).
  unfold join_row. rewrite (row_count_ok _ _ Hg), (proj2 (N.leb_gt _ _)) by lia. rewrite at_nat, E1. cbn [bind fst snd].
  assert (Hr : 0 < length r) by (destruct r; [congruence|cbn; lia]).
  replace (N.of_nat i <? N.of_nat (length rs) - 1)%N with (S i <? length rs)
    by (destruct (Nat.ltb_spec (S i) (length rs)), (N.ltb_spec (N.of_nat i) (N.of_nat (length rs) - 1)); auto; lia).
  set (r' := if S i <? length rs then r else removelast r).
  assert (Hr' : length r' = if S i <? length rs then length r else length r - 1).
  { unfold r'. destruct (S i <? length rs); [reflexivity|]. rewrite removelast_firstn_len, firstn_length. lia. }
  assert (He : (N.of_nat (base + length r - 1) + (if (S i <? length rs)%nat then 1 else 0))%N = N.of_nat (base + length r')).
  { rewrite Hr'. destruct (S i <? length rs); lia. }
  rewrite He, !at_nat.
  destruct (rd (tokens g) base) as [t0| |] eqn:Er0; [|exfalso; destruct r as [|t r0]; [congruence|]; specialize (E3 0 t eq_refl); rewrite Nat.add_0_r in E3; congruence|
    exfalso; destruct r as [|t r0]; [congruence|]; specialize (E3 0 t eq_refl); rewrite Nat.add_0_r in E3; congruence].
  cbn [bind].
  assert (Hrd : exists t, rd (tokens g) (base + length r') = Ok t).
  { destruct (nth_error (tokens g) (base + length r')) as [t|] eqn:En; [exists t; now apply rd_nth|]. apply nth_error_None in En.
    destruct (Nat.ltb_spec (S i) (length rs)); lia. }
  destruct Hrd as (t1 & ->). cbn [bind]. unfold for_range. rewrite !Nat2N.id. replace (base + length r' - base) with (length r') by lia.
  rewrite (for_up_fold _ (fun st t => join_step d (sub buf t) st) r').
  - cbn [bind]. pose proof (join_fold d (map (sub buf) r') result false) as J. cbn [andb app] in J.
    match goal with |- context [fold_left ?f r' ?s0] =>
      replace (fold_left f r' s0) with (fold_left (fun st t => join_step d t st) (map (sub buf) r') s0) by (symmetry; apply (fold_map (fun st t => join_step d t st) (sub buf))) end.
    destruct (fold_left _ (map (sub buf) r') _) as [x y]. cbn [fst] in J. subst x. reflexivity.
  - intros j t st Hj. rewrite at_nat. rewrite (E3 j t); [reflexivity|]. unfold r' in Hj. destruct (S i <? length rs); [exact Hj|].
    rewrite removelast_firstn_len in Hj. pose proof (nth_error_some_lt _ _ _ Hj) as Hjl. rewrite firstn_length in Hjl. rewrite nth_error_firstn in Hj. destruct (Nat.ltb_spec j (Nat.pred (length r))); [exact Hj|discriminate].
Qed.
Lemma join_row_bad i d result : length rs <= i -> join_row buf g (N.of_nat i) d result = Ok (false, result).
Proof. intros H. unfold join_row. rewrite (row_count_ok _ _ Hg), (proj2 (N.leb_le _ _)) by lia. reflexivity. Qed.

Lemma join_column_ok a b c d result : (N.of_nat c <= max_c g)%N -> a <= b -> b <= length rs ->
  join_column buf g (N.of_nat c) (N.of_nat a, N.of_nat b) d result =
    Ok (true, result ++ joined d (map (sub buf) (column (slice rs a b) c))).
Proof.
  intros Hc Hab Hb. unfold join_column. rewrite (proj2 (N.ltb_ge _ _) Hc), valid_rows, (proj2 (Nat.leb_le _ _) Hab), (proj2 (Nat.leb_le _ _) Hb). cbn [negb andb fst snd].
  rewrite (column_loop _ (fun st t => join_step d (sub buf t) st) a b c (result, false) Hab Hb).
  - cbn [bind]. set (col := column (slice rs a b) c). pose proof (join_fold d (map (sub buf) col) result false) as J. cbn [andb app] in J.
    match goal with |- context [fold_left ?f col ?s0] =>
      replace (fold_left f col s0) with (fold_left (fun st t => join_step d t st) (map (sub buf) col) s0) by (symmetry; apply (fold_map (fun st t => join_step d t st) (sub buf))) end.
    destruct (fold_left _ (map (sub buf) col) _) as [x y]. cbn [fst] in J. subst x. reflexivity.
  - intros i r st Hi. destruct (cell_at i r c Hi) as (ix & E0 & E & Ht). destruct (row_ok _ _ _ _ Hg Hi) as (rw & Er & _ & Hrow).
    rewrite E0. cbn [bind]. rewrite E. destruct (nth_error r c) as [t|] eqn:En.
    + pose proof (nth_error_some_lt _ _ _ En). rewrite (proj2 (N.ltb_lt _ _)) by lia. rewrite Er. cbn [bind]. rewrite (row_tok _ _ _ Hrow _ _ En). reflexivity.
    + apply nth_error_None in En. rewrite (proj2 (N.ltb_ge _ _)) by lia. reflexivity.
Qed.

(* sums *)
Lemma accumulate_row_ok (add : T -> T -> T) (conv : list ascii -> option T) i r result : nth_error rs i = Some r ->
  exists (ok : bool) vs, accumulate_row add conv buf g (N.of_nat i) result = Ok ((if ok then N.of_nat (length r) else 0%N), fold_left add vs result) /\
    taken conv (map (sub buf) r) ok vs.
Proof.
  intros Hi. pose proof (nth_error_some_lt _ _ _ Hi) as Hlt. destruct (row_at _ _ _ _ Hg Hi) as (base & E1 & _ & Hne & Hle & Hs & E3 & _).
  exists (fst (run conv (map (sub buf) r))), (snd (run conv (map (sub buf) r))). split; [|apply run_taken].
  unfold accumulate_row. rewrite (row_count_ok _ _ Hg), (proj2 (N.leb_gt _ _)) by lia. rewrite at_nat, E1. cbn [bind fst snd].
  assert (Hr : 0 < length r) by (destruct r; [congruence|cbn; lia]).
  replace (N.of_nat (base + length r - 1) + 1)%N with (N.of_nat (base + length r)) by lia.
  match goal with |- loop _ ?f _ = _ => set (body := f) end.
  assert (G : forall l k fuel n res, k + length l = length r -> (forall j t, nth_error l j = Some t -> nth_error r (k + j) = Some t) -> length l < fuel ->
    loop fuel body (N.of_nat (base + k), n, res) =
      Ok ((if fst (run conv (map (sub buf) l)) then n + N.of_nat (length l) else 0)%N, fold_left add (snd (run conv (map (sub buf) l))) res)).
  { induction l as [|t l IH]; intros k fuel n res Hk Hn Hf; (destruct fuel as [|fuel]; [lia|]); cbn [loop]; unfold body at 1; cbn [length] in Hk.
    - rewrite (proj2 (N.eqb_eq _ _)) by lia. cbn [map run fst snd fold_left length]. do 2 f_equal. lia.
    - rewrite (proj2 (N.eqb_neq _ _)) by lia. rewrite at_nat. pose proof (Hn 0 t eq_refl) as H0. rewrite Nat.add_0_r in H0. rewrite (E3 _ _ H0). cbn [bind map run].
      destruct (conv (sub buf t)) as [v|]; cbn [fst snd fold_left]; [|reflexivity].
      replace (N.of_nat (base + k) + 1)%N with (N.of_nat (base + S k)) by lia. rewrite IH.
      + do 2 f_equal. cbn [length]. destruct (fst (run conv (map (sub buf) l))); lia.
      + lia.
      + intros j t' Hj. replace (S k + j) with (k + S j) by lia. now apply Hn.
      + cbn [length] in Hf. lia. }
  replace (N.of_nat base) with (N.of_nat (base + 0)) by lia. rewrite (G r 0); auto. lia.
Qed.

Lemma accumulate_column_ok (add : T -> T -> T) (conv : list ascii -> option T) a b c result : (N.of_nat c <= max_c g)%N -> a <= b -> b <= length rs ->
  exists (ok : bool) vs, accumulate_column add conv buf g (N.of_nat c) (N.of_nat a, N.of_nat b) result =
      Ok ((if ok then N.of_nat (b - a) else 0%N), fold_left add vs result) /\
    taken conv (map (sub buf) (column (slice rs a b) c)) ok vs.
Proof.
  intros Hc Hab Hb. exists (fst (run conv (map (sub buf) (column (slice rs a b) c)))), (snd (run conv (map (sub buf) (column (slice rs a b) c)))).
  split; [|apply run_taken]. unfold accumulate_column. rewrite (proj2 (N.ltb_ge _ _) Hc), valid_rows, (proj2 (Nat.leb_le _ _) Hab), (proj2 (Nat.leb_le _ _) Hb). cbn [negb andb fst snd].
  match goal with |- loop _ ?f _ = _ => set (body := f) end.
  assert (G : forall l k fuel n res, k + length l = b -> (forall j r, nth_error l j = Some r -> nth_error rs (k + j) = Some r) -> length l < fuel ->
    loop fuel body (N.of_nat k, n, res) =
      Ok ((if fst (run conv (map (sub buf) (column l c))) then n + N.of_nat (length l) else 0)%N, fold_left add (snd (run conv (map (sub buf) (column l c)))) res)).
  { induction l as [|r l IH]; intros k fuel n res Hk Hn Hf; (destruct fuel as [|fuel]; [lia|]); cbn [loop]; unfold body at 1; cbn [length] in Hk.
    - rewrite (proj2 (N.ltb_ge _ _)) by lia. cbn [negb column map run fst snd fold_left length]. do 2 f_equal. lia.
    - rewrite (proj2 (N.ltb_lt _ _)) by lia. cbn [negb]. pose proof (Hn 0 r eq_refl) as H0. rewrite Nat.add_0_r in H0.
      destruct (cell_at k r c H0) as (ix & -> & E & Ht). cbn [bind column]. rewrite E.
      assert (Hn' : forall j r0, nth_error l j = Some r0 -> nth_error rs (S k + j) = Some r0) by (intros j r0 Hj; replace (S k + j) with (k + S j) by lia; now apply Hn).
      replace (N.of_nat k + 1)%N with (N.of_nat (S k)) by lia.
      destruct (nth_error r c) as [t|] eqn:En.
      + pose proof (nth_error_some_lt _ _ _ En). rewrite (proj2 (N.ltb_lt _ _)) by lia. rewrite (Ht _ eq_refl). cbn [bind map run].
        destruct (conv (sub buf t)) as [v|]; cbn [fst snd fold_left]; [|reflexivity].
        rewrite IH; [|lia|exact Hn'|cbn [length] in Hf; lia]. do 2 f_equal. cbn [length]. destruct (fst _); lia.
      + apply nth_error_None in En. rewrite (proj2 (N.ltb_ge _ _)) by lia.
        rewrite IH; [|lia|exact Hn'|cbn [length] in Hf; lia]. do 2 f_equal. cbn [length]. destruct (fst _); lia. }
  rewrite (G (slice rs a b)).
  - rewrite slice_length by lia. reflexivity.
  - rewrite slice_length; lia.
  - intros j r. now apply slice_nth.
  - rewrite slice_length; lia.
Qed.

Lemma accumulate_column_if_ok (add : T -> T -> T) (conv : list ascii -> option T) p a b c result : (N.of_nat c <= max_c g)%N -> a <= b -> b <= length rs ->
  exists (ok : bool) vs, accumulate_column_if add conv p buf g (N.of_nat c) (N.of_nat a, N.of_nat b) result =
      Ok ((if ok then N.of_nat (length vs) else 0%N), fold_left add vs result) /\
    taken conv (map (sub buf) (chosen p c a (slice rs a b))) ok vs.
Proof.
  intros Hc Hab Hb. exists (fst (run conv (map (sub buf) (chosen p c a (slice rs a b))))), (snd (run conv (map (sub buf) (chosen p c a (slice rs a b))))).
  split; [|apply run_taken]. unfold accumulate_column_if. rewrite (proj2 (N.ltb_ge _ _) Hc), valid_rows, (proj2 (Nat.leb_le _ _) Hab), (proj2 (Nat.leb_le _ _) Hb). cbn [negb andb fst snd].
  match goal with |- loop _ ?f _ = _ => set (body := f) end.
  assert (G : forall l k fuel n res, k + length l = b -> (forall j r, nth_error l j = Some r -> nth_error rs (k + j) = Some r) -> length l < fuel ->
    loop fuel body (N.of_nat k, n, res) =
      Ok ((if fst (run conv (map (sub buf) (chosen p c k l))) then n + N.of_nat (length (snd (run conv (map (sub buf) (chosen p c k l))))) else 0)%N,
          fold_left add (snd (run conv (map (sub buf) (chosen p c k l)))) res)).
  { induction l as [|r l IH]; intros k fuel n res Hk Hn Hf; (destruct fuel as [|fuel]; [lia|]); cbn [loop]; unfold body at 1; cbn [length] in Hk.
    - rewrite (proj2 (N.ltb_ge _ _)) by lia. cbn [negb chosen map run fst snd fold_left length]. do 2 f_equal. lia.
    - rewrite (proj2 (N.ltb_lt _ _)) by lia. cbn [negb]. pose proof (Hn 0 r eq_refl) as H0. rewrite Nat.add_0_r in H0.
      destruct (cell_at k r c H0) as (ix & E0 & E & _). destruct (row_ok _ _ _ _ Hg H0) as (rw & Er & _ & Hrow).
      rewrite E0. cbn [bind chosen]. rewrite E.
      assert (Hn' : forall j r0, nth_error l j = Some r0 -> nth_error rs (S k + j) = Some r0) by (intros j r0 Hj; replace (S k + j) with (k + S j) by lia; now apply Hn).
      assert (IH' := fun n res => IH (S k) fuel n res ltac:(lia) Hn' ltac:(cbn [length] in Hf; lia)).
      replace (N.of_nat k + 1)%N with (N.of_nat (S k)) by lia.
      destruct (nth_error r c) as [t|] eqn:En.
      + pose proof (nth_error_some_lt _ _ _ En). rewrite (proj2 (N.ltb_lt _ _)) by lia. rewrite Er. cbn [bind]. rewrite (row_tokens_ok _ _ _ Hrow). cbn [bind].
        destruct (p (N.of_nat k) r); [|apply IH'].
        rewrite (row_tok _ _ _ Hrow _ _ En). cbn [bind map run].
        destruct (conv (sub buf t)) as [v|]; cbn [fst snd fold_left]; [|reflexivity].
        rewrite IH'. do 2 f_equal. cbn [length]. destruct (fst _); lia.
      + apply nth_error_None in En. rewrite (proj2 (N.ltb_ge _ _)) by lia. apply IH'. }
  rewrite (G (slice rs a b)).
  - reflexivity.
  - rewrite slice_length; lia.
  - intros j r. now apply slice_nth.
  - rewrite slice_length; lia.
Qed.

(* every row *)
Lemma for_each_row_ok (f : T -> N -> list tok -> T) a b x : a <= b -> b <= length rs ->
  for_each_row f g (N.of_nat a, N.of_nat b) x =
    Ok (N.of_nat (b - a), fold_left (fun x p => f x (N.of_nat (fst p)) (snd p)) (combine (seq a (b - a)) (slice rs a b)) x).
Proof.
  intros Hab Hb. unfold for_each_row. rewrite valid_rows, (proj2 (Nat.leb_le _ _) Hab), (proj2 (Nat.leb_le _ _) Hb). cbn [negb andb fst snd].
  rewrite (rows_loop _ (fun i '(n, x) r => ((n + 1)%N, f x (N.of_nat i) r)) a b (0%N, x) Hab Hb).
  - f_equal. rewrite <- (slice_length rs a b) by lia. generalize (slice rs a b) as l. intros l. clear.
    enough (G : forall k n x, foldi (fun i '(n, x) r => ((n + 1)%N, f x (N.of_nat i) r)) k l (n, x) =
      ((n + N.of_nat (length l))%N, fold_left (fun x p => f x (N.of_nat (fst p)) (snd p)) (combine (seq k (length l)) l) x)) by (rewrite G; reflexivity).
    induction l as [|r l IH]; intros k n x0; cbn [foldi length seq combine fold_left fst snd]; [f_equal; lia|]. rewrite IH. f_equal. lia.
  - intros i r [n x0] Hi. destruct (row_ok _ _ _ _ Hg Hi) as (rw & Er & _ & Hrow). rewrite Er. cbn [bind]. rewrite (row_tokens_ok _ _ _ Hrow). reflexivity.
Qed.
End Cols.
