From Verif Require Import Base Edit_Model Edit_Spec Edit_Proofs2 Match_Model Match_Spec Match_Proofs Attr_Model Attr_Spec.
Local Open Scope nat_scope.

Lemma begins_same (s data : list ascii) : length s = length data ->
  exists b, begins_with Ascii.eqb s data = Ok b /\ (b = true <-> data = s).
Proof.
  intros Hl. destruct (begins_ends_index Ascii.eqb Ascii.eqb_eq s data) as ((b & E & Hb) & _ & _).
  exists b. split; auto. rewrite Hb. split.
  - intros (t & ->). rewrite app_length in Hl. destruct t; [now rewrite app_nil_r|simpl in Hl; lia].
  - intros ->. exists []. now rewrite app_nil_r.
Qed.

Lemma ends_same (s data : list ascii) : length s = length data ->
  exists b, ends_with Ascii.eqb s data = Ok b /\ (b = true <-> data = s).
Proof.
  intros Hl. destruct (begins_ends_index Ascii.eqb Ascii.eqb_eq s data) as (_ & (b & E & Hb) & _).
  exists b. split; auto. rewrite Hb. split.
  - intros (t & ->). rewrite app_length in Hl. destruct t; [reflexivity|simpl in Hl; lia].
  - intros ->. now exists [].
Qed.

Lemma equal_same (s data : list ascii) : length s = length data ->
  exists b, std_equal_at Ascii.eqb s data 0 = Ok b /\ (b = true <-> data = s).
Proof.
  intros Hl. destruct (begins_same s data Hl) as (b & E & Hb). exists b. split; auto.
  unfold begins_with in E. destruct (Nat.leb_spec (length s) (length data)); [exact E|lia].
Qed.

Lemma search_occurs (s data : list ascii) : length s <= length data -> (s <> [] \/ data <> []) ->
  (std_search Ascii.eqb data s 0 <> length data <-> occurs_in s data).
Proof.
  intros Hl Hne.
  assert (G : forall k, occurs_at Ascii.eqb s data k -> occurs_in s data).
  { intros k Hk. apply (occurs_at_eq Ascii.eqb Ascii.eqb_eq) in Hk. destruct Hk as (a & b & E & _). exists a, b. exact E. }
  destruct (std_search_spec Ascii.eqb s data 0 ltac:(lia)) as [(E & Hn & Hn')|(E & Ho & _)].
  - split; [congruence|]. intros (a & b & Eab) _. destruct s as [|c s].
    + destruct Hne as [?|Hd]; [congruence|]. apply (Hn 0); [lia|destruct data; [congruence|simpl; lia]|].
      apply (occurs_at_eq Ascii.eqb Ascii.eqb_eq). exists [], data. auto.
    + apply (Hn' ltac:(discriminate) (length a)); [lia|]. apply (occurs_at_eq Ascii.eqb Ascii.eqb_eq). eauto.
  - split; [intros _; eauto|]. intros _. lia.
Qed.

Lemma occurs_long {A} (s data : list A) : length data < length s -> ~ occurs_in s data.
Proof. intros H (a & b & ->). rewrite !app_length in H. lia. Qed.

Definition meaning (c : condition) (s data : list ascii) : Prop :=
  match c with
  | c_equal | c_begins_with | c_ends_with => data = s
  | c_notequal => data <> s
  | c_like => one_each Ascii.eqb "?"%char s data
  | c_within => occurs_in s data
  | c_notwithin => ~ occurs_in s data
  end.

Lemma condition_ok c s data extra :
  (c = c_like -> ~ In "*"%char s) ->
  (c = c_within \/ c = c_notwithin -> s <> [] \/ data <> []) ->
  exists b, condition_method c s data extra = Ok b /\ (b = true <-> meaning c s data).
Proof.
  intros Hlike Hw.
  assert (Hlen : length s <> length data -> data <> s) by (intros H ->; congruence).
  destruct c; cbn [condition_method meaning].
  - destruct (Nat.eqb_spec (length s) (length data)) as [E|E]; [now apply equal_same|].
    exists false. split; auto. split; [discriminate|]. intros ->. congruence.
  - destruct (Nat.eqb_spec (length s) (length data)) as [E|E].
    + destruct (equal_same s data E) as (b & -> & Hb). exists (negb b). split; auto. destruct b; simpl.
      * split; [discriminate|]. intros H. exfalso. apply H. now apply Hb.
      * split; auto. intros _ Hd. apply Hb in Hd. discriminate.
    + exists true. split; auto. split; auto.
  - specialize (Hlike eq_refl). exists (walk Ascii.eqb Ascii.eqb "*"%char "?"%char s data). split.
    + apply match_walk; [exact Ascii.eqb_eq|]. exists s, []. rewrite app_nil_r. split; auto. split; auto.
      apply Forall_forall. intros x Hx ->. auto.
    + apply walk_one_each; [exact Ascii.eqb_eq|]. apply Forall_forall. intros x Hx ->. auto.
  - destruct (Nat.eqb_spec (length s) (length data)) as [E|E]; [now apply begins_same|].
    exists false. split; auto. split; [discriminate|]. intros ->. congruence.
  - destruct (Nat.eqb_spec (length s) (length data)) as [E|E]; [now apply ends_same|].
    exists false. split; auto. split; [discriminate|]. intros ->. congruence.
  - destruct (Nat.leb_spec (length s) (length data)) as [L|L].
    + eexists. split; [reflexivity|]. rewrite <- search_occurs by auto.
      destruct (Nat.eqb_spec (length data) (std_search Ascii.eqb data s 0)); simpl; intuition congruence.
    + exists false. split; auto. split; [discriminate|]. intros H. now apply occurs_long in H.
  - destruct (Nat.leb_spec (length s) (length data)) as [L|L].
    + eexists. split; [reflexivity|]. rewrite <- search_occurs by auto.
      destruct (Nat.eqb_spec (length data) (std_search Ascii.eqb data s 0)); simpl; intuition congruence.
    + exists true. split; auto. split; auto. intros _. now apply occurs_long.
Qed.

(* attributes *)
Section Attribute.
Context {T : Type}.

Lemma apply_app (a : attr T) h1 h2 : apply_events a (h1 ++ h2) = (a <- apply_events a h1 ;; apply_events a h2).
Proof.
  revert a. induction h1 as [|e h1 IH]; intros a; [reflexivity|]. cbn [app apply_events].
  destruct (apply_event a e); cbn [bind]; auto.
Qed.

Lemma latest_snoc v0 (h : list (event T)) e : latest v0 (h ++ [e]) = event_value e.
Proof. unfold latest. rewrite map_app. simpl. apply last_last. Qed.

Lemma history_ok (v0 : T) h : exists p, before_assignment v0 h p /\
  apply_events (attr_of v0) h = Ok (Attr (Some (latest v0 h)) (Some p) true).
Proof.
  induction h as [|e h IH] using rev_ind.
  - exists v0. split; [constructor; auto|reflexivity].
  - destruct IH as (p & Hp & E). rewrite apply_app, E, latest_snoc. destruct e as [v|v]; cbn.
    + exists (latest v0 h). split; [|reflexivity]. apply (ba_some v0 h v []). auto.
    + exists p. split; [|reflexivity]. destruct Hp as [h Hn|h1 w h2 Hn].
      * constructor. intros w Hw. apply in_app_or in Hw. destruct Hw as [Hw|[Hw|[]]]; [now apply (Hn w)|discriminate].
      * rewrite <- app_assoc. cbn [app]. apply ba_some. intros u Hu. apply in_app_or in Hu.
        destruct Hu as [Hu|[Hu|[]]]; [now apply (Hn u)|discriminate].
Qed.

End Attribute.

(* scoped_restore *)
Lemma no_set_keeps {T} (p : prog T) : no_set p -> forall st, snd (run_prog p st) = snd st.
Proof.
  induction p; cbn [no_set run_prog]; intros H st; auto.
  - contradiction.
  - destruct H as [H1 H2]. now rewrite IHp2, IHp1.
  - destruct (run_prog p (fst st, b)). reflexivity.
Qed.
