From Verif Require Import Base Split_Model Num_Model Num_Spec Text_Model Text_Spec Text_Props
  Grid_Spec Grid_Model Grid_Rep Grid_Proofs Grid_Proofs2 Grid_Props Table_Model Table_Spec Table_Proofs.
Local Open Scope nat_scope.

Lemma slice_rest {A} (l : list A) s n : length l = s + n -> slice l s (s + n) = skipn s l.
Proof. intros H. unfold slice. replace (s + n - s) with n by lia. apply firstn_all2. rewrite skipn_length. lia. Qed.
Lemma groups_threes {A} (p : nat -> bool) (vals : list A) : forall m n s, n < m -> length vals = s + n ->
  (forall k, k < n -> p (s + k) = (k mod 3 =? 0)) ->
  exists ranges, groups p (s + n) s ranges /\ threes (skipn s vals) (map (fun q => slice vals (fst q) (snd q)) ranges).
Proof.
  induction m as [|m IH]; intros n s Hm Hl Hp; [lia|]. destruct (Nat.eq_dec n 0) as [->|Hn].
  - exists []. rewrite Nat.add_0_r. split; [constructor|]. rewrite skipn_all2 by lia. constructor.
  - destruct (Nat.le_gt_cases n 3) as [H3|H3].
    + exists [(s, s + n)]. split.
      * apply groups_last; [lia|]. intros i Hi Hpi. exfalso. replace i with (s + (i - s)) in Hpi by lia. rewrite Hp in Hpi by lia.
        assert (H : i - s = 1 \/ i - s = 2) by lia. destruct H as [H|H]; rewrite H in Hpi; discriminate.
      * cbn [map fst snd]. rewrite (slice_rest vals s n Hl). apply threes_last. rewrite skipn_length. lia.
    + destruct (IH (n - 3) (s + 3) ltac:(lia) ltac:(lia)) as (ranges & Hg & Ht).
      { intros k Hk. rewrite <- Nat.add_assoc, Hp by lia. rewrite Nat.add_comm, Nat.add_mod by lia. change (3 mod 3) with 0. rewrite Nat.add_0_r, Nat.mod_mod by lia. reflexivity. }
      replace (s + 3 + (n - 3)) with (s + n) in Hg by lia. exists ((s, s + 3) :: ranges). split.
      * apply groups_cut; [lia| | |exists (s + 1); split; [lia|rewrite Hp by lia; reflexivity]|exact Hg].
        -- intros i Hi Hpi. exfalso. replace i with (s + (i - s)) in Hpi by lia. rewrite Hp in Hpi by lia.
           assert (H : i - s = 1 \/ i - s = 2) by lia. destruct H as [H|H]; rewrite H in Hpi; discriminate.
        -- rewrite Hp by lia. reflexivity.
      * cbn [map fst snd]. unfold slice at 1. replace (s + 3 - s) with 3 by lia.
        replace (skipn (s + 3) vals) with (skipn 3 (skipn s vals)) in Ht by (rewrite skipn_skipn; f_equal; lia).
        assert (Hk : length (skipn s vals) = n) by (rewrite skipn_length; lia).
        destruct (skipn s vals) as [|a [|b [|c rest]]]; cbn [length] in Hk; try lia. cbn [firstn skipn] in *. apply threes_more; [|exact Ht].
        destruct rest; [cbn in Hk; lia|discriminate].
Qed.
Lemma counted_starts : forall m n t next k, n < m -> (next <= t)%Z -> k < n -> nth k (period_starts next (counted t n)) false = (k mod 3 =? 0).
Proof.
  induction m as [|m IH]; intros n t next k Hm Hn Hk; [lia|].
  destruct n as [|[|[|n]]]; [lia| | |]; cbn [counted period_starts]; rewrite (proj2 (Z.leb_le _ _) Hn).
  - destruct k; [reflexivity|lia].
  - rewrite (proj2 (Z.leb_gt _ _)) by lia. destruct k as [|[|k]]; [reflexivity|reflexivity|lia].
  - rewrite !(proj2 (Z.leb_gt _ _)) by lia. destruct k as [|[|[|k]]]; try reflexivity. cbn [nth].
    rewrite IH by lia. replace (S (S (S k))) with (k + 1 * 3) by lia. rewrite Nat.mod_add by lia. reflexivity.
Qed.
Lemma counted_length n : forall t, length (counted t n) = n.
Proof. induction n; intros; cbn; auto. Qed.
Lemma spaced_starts times : forall next k, spaced times -> (forall t, hd_error times = Some t -> (next <= t)%Z) -> k < length times ->
  nth k (period_starts next times) false = true.
Proof.
  induction times as [|t times IH]; intros next k Hs Hh Hk; [cbn in Hk; lia|]. cbn [period_starts].
  rewrite (proj2 (Z.leb_le _ _) (Hh t eq_refl)). destruct k as [|k]; [reflexivity|]. cbn [nth]. destruct Hs as [H1 H2]. apply IH; [exact H2| |cbn in Hk; lia].
  intros u Hu. destruct times; [discriminate|]. injection Hu as ->. exact H1.
Qed.

(* ---- printing ---- *)
Fixpoint mapi {A B} (f : nat -> A -> B) (k : nat) (l : list A) : list B :=
  match l with [] => [] | x :: l => f k x :: mapi f (S k) l end.
Lemma mapi_nth {A B} (f : nat -> A -> B) l : forall k i, nth_error (mapi f k l) i = option_map (f (k + i)) (nth_error l i).
Proof.
  induction l as [|x l IH]; intros k i; [now destruct i|]. destruct i; cbn [mapi nth_error]; [now rewrite Nat.add_0_r|].
  rewrite IH. now replace (S k + i) with (k + S i) by lia.
Qed.
Lemma mapi_length {A B} (f : nat -> A -> B) l : forall k, length (mapi f k l) = length l.
Proof. induction l; intros; cbn; auto. Qed.
Lemma mapi_map {A B C} (f : nat -> B -> C) (h : A -> B) l : forall k, mapi f k (map h l) = mapi (fun i x => f i (h x)) k l.
Proof. induction l; intros; cbn; f_equal; auto. Qed.
Lemma map_mapi {A B C} (h : B -> C) (f : nat -> A -> B) l : forall k, map h (mapi f k l) = mapi (fun i x => h (f i x)) k l.
Proof. induction l; intros; cbn; f_equal; auto. Qed.
Lemma foldi_app {A B} (f : nat -> A -> list B) l : forall k st, foldi (fun i st x => st ++ f i x) k l st = st ++ concat (mapi f k l).
Proof. induction l as [|x l IH]; intros k st; cbn [foldi mapi concat]; [now rewrite app_nil_r|]. now rewrite IH, app_assoc. Qed.

Definition show_cell (w i j : nat) (c : list ascii) : list ascii :=
  if negb (nonempty c) then repeat " "%char w
  else if (j <=? 1) || (i =? 0) then center w " " c else right_align w " " c.
Lemma c_string_id s : ~ In zero s -> c_string s = s.
Proof.
  induction s as [|c s IH]; intros H; [reflexivity|]. cbn [c_string]. destruct (Ascii.eqb_spec c zero) as [->|_]; [destruct H; now left|].
  f_equal. apply IH. intros Hi. apply H. now right.
Qed.
Lemma blanks_clean n : ~ In zero (repeat " "%char n).
Proof. intros H. apply repeat_spec in H. discriminate. Qed.
Lemma show_cell_ok w i j c : length c <= w -> exists a b, padded a b c (show_cell w i j c) /\ length (show_cell w i j c) = w /\
  (if (j <=? 1) || (i =? 0) then a <= b <= a + 1 else b = 0).
Proof.
  intros H. unfold show_cell. destruct c as [|x c]; cbn [nonempty negb].
  - destruct (_ || _).
    + destruct (C41_center w " "%char [] H) as (a & b & E & Hab & Hd). exists a, b. split; [|split; [apply repeat_length|exact Hd]].
      unfold padded. cbn [app length] in *. rewrite <- repeat_app. f_equal. lia.
    + exists w, 0. split; [|split; [apply repeat_length|reflexivity]]. unfold padded. cbn. now rewrite app_nil_r.
  - set (t := x :: c) in *. pose proof (C41_width w " "%char t) as (_ & Hr & Hc). rewrite Nat.max_l in Hr, Hc by exact H. destruct (_ || _).
    + destruct (C41_center w " "%char t H) as (a & b & E & Hab & Hd). exists a, b. split; [exact E|]. split; [exact Hc|exact Hd].
    + destruct (C41_left_right w " "%char t H) as (k & Hk & _ & E). exists k, 0. split; [|split; [exact Hr|reflexivity]].
      unfold padded. cbn [repeat]. rewrite app_nil_r. exact E.
Qed.
Lemma column_in {A} (rs : list (list A)) i r j x : nth_error rs i = Some r -> nth_error r j = Some x -> In x (column rs j).
Proof.
  revert i. induction rs as [|r0 rs IH]; intros i Hi Hj; [now destruct i|]. destruct i; cbn in Hi.
  - injection Hi as ->. cbn [column]. rewrite Hj. now left.
  - cbn [column]. destruct (nth_error r0 j); [right|]; eapply IH; eassumption.
Qed.
Lemma width_bound rows i r j c : nth_error rows i = Some r -> nth_error r j = Some c -> length c <= width_of rows j.
Proof.
  intros Hi Hj. unfold width_of. pose proof (proj1 (list_max_le (map (@length ascii) (column rows j)) _) (Nat.le_refl _)) as H.
  rewrite Forall_forall in H. apply H. apply in_map. eapply column_in; eassumption.
Qed.

Lemma print_table_ok rows : loose_table ","%char rows -> small (length (concat rows)) -> Forall (Forall (fun c => ~ In zero c)) rows ->
  print_table (table_text ","%char rows) = Ok (bracketed (mapi (fun i r => mapi (fun j c => show_cell (width_of rows j) i j c) 0 r) 0 rows)).
Proof.
  intros Ht Hs Hz. destruct (load_cells (separate (str ",")) (table_text ","%char rows) rows eq_refl) as (g & rs & E & Hg & Hc & Hw & Hm).
  - exact (cells_separate ","%char rows comma_in Ht).
  - exact Hs.
  - unfold print_table. rewrite E. cbn [bind]. destruct (C63_column_widths (table_text ","%char rows) g rs [] Hg Hc Hw) as (n & Hn & ->). cbn [bind app].
    rewrite (row_count_ok g rs Hg). set (text := table_text ","%char rows) in *.
    set (F := fun i (r : list tok) => concat (mapi (fun j t => "["%char :: show_cell (width_of rows j) i j (sub text t) ++ [("]")%char; " "%char]) 0 r) ++ [newline]).
    assert (R : forall i r out, nth_error rs i = Some r -> 
      (rw <- row g (N.of_nat i) ;;
       out <- for_range 0 (r_size rw)
         (fun c out =>
            null <- is_null g rw c ;;
            w <- rd (map (fun c => list_max (map (@length ascii) (map (sub text) (column rs c)))) (seq 0 n)) (N.to_nat c) ;;
            t <- row_token g rw c ;;
            let cell :=
              if (null : bool) then repeat " "%char w
              else if (c <=? 1)%N || (N.of_nat i =? 0)%N then center w " " (sub text t)
              else right_align w " " (sub text t) in
            Ok (out ++ str "[" ++ c_string cell ++ str "] ")) out ;;
       Ok (out ++ [ascii_of_nat 10])) = Ok (out ++ F i r)).
    { intros i r out Hi. destruct (row_ok _ _ _ _ Hg Hi) as (rw & -> & _ & Hrow). cbn [bind]. pose proof Hrow as (Hsz & Hne & _ & Htk).
      rewrite Hsz. unfold for_range. change (N.to_nat 0) with 0. rewrite Nat.sub_0_r, Nat2N.id.
      rewrite (for_up_foldi _ (fun j out t => out ++ ("["%char :: show_cell (width_of rows j) i j (sub text t) ++ [("]")%char; " "%char]))).
      - cbn [bind]. rewrite foldi_app, <- app_assoc. reflexivity.
      - intros j t st Hj. cbn [plus].
        assert (Hin : fst t <= snd t /\ snd t <= length text).
        { unfold within in Hw. rewrite Forall_forall in Hw. specialize (Hw r (nth_error_In _ _ Hi)). rewrite Forall_forall in Hw. apply Hw. eapply nth_error_In; eassumption. }
        rewrite (C62_is_null text g rw r j t Hrow Hj (proj1 Hin) (proj2 Hin)). cbn [bind]. rewrite Nat2N.id.
        assert (Hjn : j < n).
        { destruct rs as [|r0 rs']; [now destruct i|]. destruct Hc as (mn & mx & _ & Ex & _ & [_ Hmx]). rewrite Hn in Ex. apply Nat2N.inj in Ex. subst mx.
          specialize (Hmx r (nth_error_In _ _ Hi)). exact (Nat.lt_le_trans _ _ _ (nth_error_some_lt _ _ _ Hj) Hmx). }
        rewrite (rd_nth _ _ (width_of rows j)).
        2: { rewrite nth_error_map. assert (Es : nth_error (seq 0 n) j = Some j).
             { rewrite (nth_error_nth' _ 0) by (rewrite seq_length; lia). now rewrite seq_nth by lia. }
             rewrite Es. cbn [option_map]. unfold width_of. rewrite <- Hm at 1. rewrite column_map. reflexivity. }
        cbn [bind]. rewrite (Htk j t Hj). cbn [bind]. do 2 f_equal.
        assert (Hcell : nth_error rows i = Some (map (sub text) r)) by (pose proof (map_nth_error (map (sub text)) i rs Hi) as H; rewrite Hm in H; exact H).
        assert (Hcj : nth_error (map (sub text) r) j = Some (sub text t)) by (now apply map_nth_error).
        assert (Ecell : (if negb (nonempty (sub text t)) then repeat " "%char (width_of rows j)
              else if (N.of_nat j <=? 1)%N || (N.of_nat i =? 0)%N then center (width_of rows j) " " (sub text t)
              else right_align (width_of rows j) " " (sub text t)) = show_cell (width_of rows j) i j (sub text t)).
        { unfold show_cell. replace (N.of_nat j <=? 1)%N with (j <=? 1) by (destruct (Nat.leb_spec j 1), (N.leb_spec (N.of_nat j) 1); auto; lia).
          replace (N.of_nat i =? 0)%N with (i =? 0) by (destruct (Nat.eqb_spec i 0), (N.eqb_spec (N.of_nat i) 0); auto; lia). reflexivity. }
        rewrite Ecell. rewrite c_string_id; [reflexivity|].
        destruct (show_cell_ok (width_of rows j) i j (sub text t) (width_bound _ _ _ _ _ Hcell Hcj)) as (a & b & -> & _).
        rewrite !in_app_iff. intros [H|[H|H]]; [now apply blanks_clean in H| |now apply blanks_clean in H].
        rewrite Forall_forall in Hz. specialize (Hz _ (nth_error_In _ _ Hcell)). rewrite Forall_forall in Hz. exact (Hz _ (nth_error_In _ _ Hcj) H). }
    unfold for_range at 1. change (N.to_nat 0) with 0. rewrite Nat.sub_0_r, Nat2N.id.
    rewrite (for_up_foldi _ (fun i out r => out ++ F i r)) by (intros i r out Hi; exact (R i r out Hi)).
    f_equal. rewrite foldi_app. cbn [app]. unfold bracketed. f_equal. rewrite map_mapi. match goal with |- _ = mapi ?G 0 rows => transitivity (mapi G 0 (map (map (sub text)) rs)); [|now rewrite Hm] end.
    rewrite mapi_map. unfold F.
    assert (Ext : forall l k, mapi (fun i (r : list tok) => concat (mapi (fun j t => "["%char :: show_cell (width_of rows j) i j (sub text t) ++ [("]")%char; " "%char]) 0 r) ++ [newline]) k l =
      mapi (fun i x => concat (map (fun c => "["%char :: c ++ [("]")%char; " "%char]) (mapi (fun j c => show_cell (width_of rows j) i j c) 0 (map (sub text) x))) ++ [newline]) k l).
    { induction l as [|r l IH]; intros k; cbn [mapi]; [reflexivity|]. rewrite IH. f_equal. rewrite map_mapi, mapi_map. reflexivity. }
    apply Ext.
Qed.

(* texts with separators of any length between them *)
From Verif Require Import Split_Spec Split_Proofs Parse_Spec Parse_Proofs2.
Lemma cuts_pairs (p : ascii -> bool) last : last <> [] -> Forall (fun c => p c = false) last ->
  forall (pairs : list (list ascii * list ascii)) pre,
  Forall (fun q => (fst q <> [] /\ Forall (fun c => p c = false) (fst q)) /\ (snd q <> [] /\ Forall (fun c => p c = true) (snd q))) pairs ->
  exists toks, cuts p (pre ++ concat (map (fun q => fst q ++ snd q) pairs) ++ last) (fun f e => f) (fun f e => e) (length pre) toks /\
    map (sub (pre ++ concat (map (fun q => fst q ++ snd q) pairs) ++ last)) toks = map fst pairs ++ [last].
Proof.
  intros Hl1 Hl2. induction pairs as [|[t s] pairs IH]; intros pre Hf; cbn [map concat].
  - cbn [app]. exists [(length pre, length pre + length last)]. split.
    + rewrite <- app_length. apply cut_last; [rewrite app_length; lia|].
      pose proof (all_in_free p pre last [] Hl2) as H. rewrite app_nil_r in H. rewrite app_length. exact H.
    + cbn [map app]. f_equal. pose proof (sub_here pre last []) as H. now rewrite app_nil_r in H.
  - inversion Hf as [|? ? [[Ht1 Ht2] [Hs1 Hs2]] Hf']; subst. cbn [fst snd] in *. destruct (IH (pre ++ t ++ s) Hf') as (toks & Hc & Hm).
    rewrite <- !app_assoc in Hc, Hm. rewrite <- !app_assoc.
    assert (Hns : length s > 0) by (destruct s; [congruence|cbn; lia]).
    exists ((length pre, length pre + length t) :: toks). split.
    + apply (cut_more p _ (fun f e => f) (fun f e => e) (length pre) (length pre + length t) (length pre + length t + length s)).
      * lia.
      * lia.
      * rewrite !app_length. lia.
      * now apply all_in_free.
      * pose proof (all_in_all p (pre ++ t) s (concat (map (fun q => fst q ++ snd q) pairs) ++ last) Hs2) as H.
        rewrite <- app_assoc, app_length in H. exact H.
      * right. assert (Hh : exists c rest, concat (map (fun q => fst q ++ snd q) pairs) ++ last = c :: rest /\ p c = false).
        { destruct pairs as [|[u v] pairs].
          - destruct last as [|c rest]; [congruence|]. exists c, rest. split; [reflexivity|now inversion Hl2].
          - inversion Hf' as [|? ? [[Hu1 Hu2] _] _]; subst. cbn [fst] in *. destruct u as [|c u]; [congruence|]. exists c. eexists. split; [reflexivity|now inversion Hu2]. }
        destruct Hh as (c & rest & E & Hp). exists c. split; [|exact Hp]. rewrite E.
        rewrite nth_error_app2 by lia. rewrite nth_error_app2 by lia. rewrite nth_error_app2 by lia.
        replace (length pre + length t + length s - length pre - length t - length s) with 0 by lia. reflexivity.
      * cbv beta. rewrite !app_length in Hc. replace (length pre + length t + length s) with (length pre + (length t + length s)) by lia. exact Hc.
    + cbn [map app fst]. rewrite sub_here, Hm. reflexivity.
Qed.
Lemma fields_pairs d pairs last : (last <> [] /\ plain d last) ->
  Forall (fun q => (fst q <> [] /\ plain d (fst q)) /\ (snd q <> [] /\ Forall (eq d) (snd q))) pairs ->
  fields_of [d] 1 (concat (map (fun q => fst q ++ snd q) pairs) ++ last) (map fst pairs ++ [last]).
Proof.
  intros [Hl1 Hl2] Hf. assert (Hp : forall c, plain d c -> Forall (fun x => is_delim [d] x = false) c).
  { intros c Hc. apply Forall_forall. intros x Hx. apply is_delim_out. apply (plain_out d c Hc x Hx). }
  destruct (cuts_pairs (is_delim [d]) last Hl1 (Hp _ Hl2) pairs []) as (toks & Hc & Hm).
  - eapply Forall_impl; [|exact Hf]. intros [t s] [[H1 H2] [H3 H4]]. cbn [fst snd] in *. split; [split; auto|]. split; [exact H3|].
    eapply Forall_impl; [|exact H4]. intros x <-. apply is_delim_in. now left.
  - cbn [app length] in *. exists toks. split; [|symmetry; exact Hm]. right. split; [|exact Hc]. destruct (concat _); [exact Hl1|discriminate].
Qed.
