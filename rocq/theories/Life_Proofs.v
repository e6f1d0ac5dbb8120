(* Proofs about the ownership of a token_grid's text. *)
From Verif Require Import Base Split_Model Grid_Spec Grid_Model Grid_Rep Grid_Proofs Grid_Props Life_Model Life_Spec.
Local Open Scope nat_scope.

Lemma firstn_sub {A} (l : list A) (tk : nat * nat) : sub (firstn (snd tk) l) tk = sub l tk.
Proof.
  destruct tk as [a b]. unfold sub. cbn [fst snd]. rewrite skipn_firstn_comm, firstn_firstn. now rewrite Nat.min_id.
Qed.

(* the grid's own blocks are dead, except its current buffer *)
Definition owned (users h : heap) (t : tgrid) : Prop :=
  exists dead, Forall (fun b => b_live b = false) dead /\
    match t_from_file t, t_buf t with
    | true, Some a => exists text, h = users ++ dead ++ [Blk text true true] /\ a = length users + length dead
    | _, _ => h = users ++ dead
    end.

Lemma rd_middle {A} (xs : list A) x ys : rd (xs ++ x :: ys) (length xs) = Ok x.
Proof. apply rd_nth. rewrite nth_error_app2, Nat.sub_diag by lia. reflexivity. Qed.
Lemma free_live h1 text h2 : free (h1 ++ Blk text true true :: h2) (length h1) = Ok (h1 ++ Blk text true false :: h2).
Proof. unfold free. rewrite rd_middle. cbn [bind b_live b_new b_text andb]. apply wr_here. Qed.

Definition with_buf (t : tgrid) (b : option nat) : tgrid :=
  TG (t_name t) b (t_size t) (t_opts t) (t_from_file t) (t_state t) (t_base t) (t_grid t).
Lemma with_buf_same t : with_buf t (t_buf t) = t.
Proof. destruct t. reflexivity. Qed.

Lemma drop_ok users h t : owned users h t -> exists dead,
  drop_buffer h t = Ok (users ++ dead, with_buf t (if t_from_file t then None else t_buf t)) /\
  Forall (fun b => b_live b = false) dead.
Proof.
  intros (dead & F & H). unfold drop_buffer. destruct (t_from_file t) eqn:Ef; [destruct (t_buf t) as [a|] eqn:Eb|].
  - destruct H as (text & -> & ->). rewrite app_assoc, <- app_length, free_live. cbn [bind].
    exists (dead ++ [Blk text true false]). rewrite <- app_assoc. unfold with_buf. rewrite Ef. split; [reflexivity|].
    apply Forall_app. split; [exact F|]. constructor; [reflexivity|constructor].
  - subst h. exists dead. split; [|exact F]. rewrite <- Eb, with_buf_same. reflexivity.
  - subst h. exists dead. split; [|exact F]. rewrite with_buf_same. reflexivity.
Qed.

(* what load() leaves when the text is there *)
Lemma cut_load o text cells : cut_into o text cells ->
  exists g rs, load o text = Ok g /\ represents g rs /\ within text rs /\ map (map (sub text)) rs = cells.
Proof.
  intros (Hd & Hs & Hc). destruct (load_ok o text Hd) as (cells' & Hc' & H).
  rewrite <- (cells_fun _ _ _ _ _ _ Hc Hc') in H. destruct (H Hs) as (g & rs & E & Hg & _ & Hw & Em). eauto 10.
Qed.
Lemma shows_ok h t a b n rs cells : t_base t = Some a -> nth_error h a = Some b -> b_live b = true -> n <= length (b_text b) ->
  represents (t_grid t) rs -> within (firstn n (b_text b)) rs -> map (map (sub (firstn n (b_text b)))) rs = cells -> shows h t cells.
Proof.
  intros Hb Ha Hl Hn Hg Hw <-. split; [rewrite (row_count_ok _ _ Hg), map_length; reflexivity|].
  intros r c. unfold cell. rewrite (token_ok _ _ r c Hg). cbn [bind]. rewrite <- cell_text.
  destruct (nth_error rs (N.to_nat r)) as [row|] eqn:Er; [|reflexivity].
  destruct (nth_error row (N.to_nat c)) as [tk|] eqn:Ec; [|reflexivity].
  rewrite Hb. unfold region. rewrite (rd_nth _ _ _ Ha). cbn [bind].
  unfold within in Hw. rewrite Forall_forall in Hw. specialize (Hw row (nth_error_In _ _ Er)). rewrite Forall_forall in Hw.
  specialize (Hw tk (nth_error_In _ _ Ec)). rewrite firstn_length in Hw.
  rewrite Hl. replace (snd tk <=? length (b_text b)) with true by (symmetry; apply Nat.leb_le; lia). cbn [andb option_map bind].
  f_equal. f_equal. rewrite firstn_sub. rewrite <- (firstn_sub (firstn n (b_text b)) tk), firstn_firstn.
  replace (Nat.min (snd tk) n) with (snd tk) by lia. symmetry. apply firstn_sub.
Qed.


Lemma use_ok users h t u cells : owned users h t -> leaves users u cells ->
  exists h' t', run_use h t u = Ok (true, h', t') /\ owned users h' t' /\ shows h' t' cells /\ t_state t' = not_cleared u.
Proof.
  intros Ho Hl. destruct u as [name content o|a n o|]; cbn [leaves run_use] in *.
  - destruct Hl as (text & -> & Hne & Hc). destruct (drop_ok _ _ _ Ho) as (dead & Ed & Fd).
    unfold load_file. rewrite Ed. cbn [bind]. unfold load_. cbn [t_from_file load_buffer_from_file].
    destruct (Nat.eqb_spec (length text) 0) as [Z|Z]; [destruct text; [congruence|discriminate]|].
    cbn [negb t_buf t_size t_opts t_name t_state t_base t_grid t_from_file].
    unfold region. rewrite rd_middle. cbn [bind b_live b_text]. rewrite Nat.leb_refl. cbn [andb bind].
    destruct (cut_load _ _ _ Hc) as (g & rs & El & Hg & Hw & Em). rewrite firstn_all, El.
    cbn [bind set_state t_buf t_size t_opts t_name t_state t_base t_grid t_from_file].
    do 2 eexists. split; [reflexivity|]. split; [|split; [|reflexivity]].
    + exists dead. cbn [t_from_file t_buf]. split; [exact Fd|]. exists text. rewrite <- app_assoc, app_length. split; reflexivity.
    + eapply (shows_ok _ _ _ (Blk text true true) (length text)); cbn [t_base b_text b_live t_grid]; try reflexivity; try exact Hg.
      * rewrite nth_error_app2, Nat.sub_diag by lia. reflexivity.
      * rewrite firstn_all. exact Hw.
      * rewrite firstn_all. exact Em.
  - destruct Hl as (b & Ha & Hlv & Hn & Hc). destruct (drop_ok _ _ _ Ho) as (dead & Ed & Fd).
    unfold load_mem. rewrite Ed. cbn [bind]. unfold load_. cbn [t_from_file negb t_buf t_size t_opts t_name t_state t_base t_grid].
    assert (Hh : nth_error (users ++ dead) a = Some b) by (rewrite nth_error_app1; [exact Ha|eapply nth_error_some_lt; eauto]).
    unfold region. rewrite (rd_nth _ _ _ Hh). cbn [bind]. rewrite Hlv. replace (n <=? length (b_text b)) with true by (symmetry; apply Nat.leb_le; lia).
    cbn [andb bind]. destruct (cut_load _ _ _ Hc) as (g & rs & El & Hg & Hw & Em). rewrite El.
    cbn [bind set_state t_buf t_size t_opts t_name t_state t_base t_grid t_from_file].
    do 2 eexists. split; [reflexivity|]. split; [|split; [|reflexivity]].
    + exists dead. split; [exact Fd|reflexivity].
    + eapply (shows_ok _ _ _ b n); cbn [t_base t_grid]; eauto.
  - subst cells. destruct Ho as (dead & F & H). unfold clear_.
    destruct (t_from_file t) eqn:Ef; [destruct (t_buf t) as [a|] eqn:Eb|]; cbn [orb].
    + destruct H as (text & -> & ->). rewrite app_assoc, <- app_length, free_live. cbn [bind]. do 2 eexists. split; [reflexivity|].
      split; [|split; [|reflexivity]].
      * exists (dead ++ [Blk text true false]). cbn [t_from_file t_buf]. split; [apply Forall_app; split; [exact F|repeat constructor]|].
        now rewrite <- app_assoc.
      * split; [reflexivity|]. intros r c. cbn. destruct (N.to_nat r); destruct r; reflexivity.
    + subst h. cbn [bind]. do 2 eexists. split; [reflexivity|]. split; [|split; [|reflexivity]].
      * exists dead. split; [exact F|reflexivity].
      * split; [reflexivity|]. intros r c. cbn. destruct (N.to_nat r); destruct r; reflexivity.
    + subst h. cbn [bind]. do 2 eexists. split; [reflexivity|]. split; [|split; [|reflexivity]].
      * exists dead. split; [exact F|]. cbn [t_from_file t_buf]. reflexivity.
      * split; [reflexivity|]. intros r c. cbn. destruct (N.to_nat r); destruct r; reflexivity.
Qed.

Lemma dead_filter dead : Forall (fun b => b_live b = false) dead -> filter b_live dead = [].
Proof. induction 1 as [|b l H F IH]; [reflexivity|]. cbn [filter]. now rewrite H. Qed.
Lemma owned_live users h t : owned users h t -> untouched users h /\ grids_live users h <= 1.
Proof.
  intros (dead & F & H). unfold untouched, grids_live.
  assert (G : h = users ++ dead \/ exists text, h = users ++ dead ++ [Blk text true true]).
  { destruct (t_from_file t); [|left; exact H]. destruct (t_buf t); [|left; exact H]. right. destruct H as (text & H & _). eauto. }
  destruct G as [->|(text & ->)]; (rewrite firstn_app_len, skipn_app_len; split; [reflexivity|]).
  - rewrite dead_filter by exact F. cbn [length]. lia.
  - rewrite filter_app, dead_filter by exact F. cbn [filter b_live app length]. lia.
Qed.
Lemma destroy_ok users h t : owned users h t -> exists h', destroy h t = Ok h' /\ untouched users h' /\ grids_live users h' = 0.
Proof.
  intros H. destruct (drop_ok _ _ _ H) as (dead & E & F). unfold destroy. rewrite E. cbn [bind]. eexists. split; [reflexivity|].
  unfold untouched, grids_live. rewrite firstn_app_len, skipn_app_len, dead_filter by exact F. split; reflexivity.
Qed.
Lemma last_dummy {A} (x : A) l : forall d d', last (x :: l) d = last (x :: l) d'.
Proof. revert x. induction l as [|y l IH]; intros x d d'; [reflexivity|]. change (last (y :: l) d = last (y :: l) d'). apply IH. Qed.
Lemma uses_ok users us cellss : Forall2 (leaves users) us cellss -> forall h t c0, owned users h t -> shows h t c0 ->
  exists h' t', run_uses h t us = Ok (h', t') /\ owned users h' t' /\ shows h' t' (last cellss c0) /\
                (us <> [] -> t_state t' = not_cleared (last us ClearAll)).
Proof.
  induction 1 as [|u cells us cellss H F IH]; intros h t c0 Ho Hs.
  - exists h, t. cbn [run_uses last]. split; [reflexivity|]. split; [exact Ho|]. split; [exact Hs|congruence].
  - cbn [run_uses]. destruct (use_ok _ _ _ _ _ Ho H) as (h1 & t1 & E & Ho1 & Hs1 & St). rewrite E. cbn [bind].
    destruct (IH h1 t1 cells Ho1 Hs1) as (h' & t' & E' & Ho' & Hs' & St'). exists h', t'. split; [exact E'|]. split; [exact Ho'|]. split.
    + destruct F as [|u' c' us' cs' F']; [exact Hs'|]. change (last (cells :: c' :: cs') c0) with (last (c' :: cs') c0). rewrite (last_dummy c' cs' c0 cells). exact Hs'.
    + intros _. destruct us as [|u' us]; [|apply St'; discriminate]. cbn [run_uses] in E'. injection E' as <- <-. exact St.
Qed.

Lemma owned_empty users : owned users users make_empty.
Proof. exists []. split; [constructor|]. cbn. now rewrite app_nil_r. Qed.
Lemma shows_empty h : shows h make_empty [].
Proof. split; [reflexivity|]. intros r c. cbn. destruct (N.to_nat r); destruct r; reflexivity. Qed.
Lemma load_eq_file users name content o h t : run_use users make_empty (LoadFile name content o) = Ok (true, h, t) ->
  construct users (LoadFile name content o) = Ok (true, h, t).
Proof.
  intros E. cbn [run_use construct] in *. unfold load_file, make_file in *. cbn [drop_buffer make_empty t_from_file bind] in E.
  cbn [make_empty t_buf t_state t_base t_grid tokens rows empty_grid] in E. unfold empty_grid.
  destruct (load_ users (TG name None 0 o true false None (Grid [] [] 0 0)) content) as [[[b h'] t']| |]; cbn [bind set_state] in *; try discriminate.
  destruct b; [exact E|]. destruct (drop_buffer h' _) as [[? ?]| |] in E; discriminate.
Qed.
Lemma load_eq users a n o h t : run_use users make_empty (LoadMem a n o) = Ok (true, h, t) ->
  construct users (LoadMem a n o) = Ok (true, h, t).
Proof.
  intros E. cbn [run_use construct] in *. unfold load_mem, make_mem in *. cbn [drop_buffer make_empty t_from_file bind] in E.
  cbn [make_empty t_buf t_state t_base t_grid tokens rows empty_grid] in E. unfold empty_grid.
  destruct (load_ users (TG [] (Some a) n o false false None (Grid [] [] 0 0)) None) as [[[b h'] t']| |]; cbn [bind set_state] in *; try discriminate.
  destruct b; [exact E|]. destruct (drop_buffer h' _) as [[? ?]| |] in E; discriminate.
Qed.
Lemma construct_ok users u cells : leaves users u cells ->
  exists h' t' b, construct users u = Ok (b, h', t') /\ owned users h' t' /\ shows h' t' cells /\ t_state t' = not_cleared u.
Proof.
  intros H. destruct u as [name content o|a n o|].
  - destruct (use_ok users users make_empty _ _ (owned_empty users) H) as (h & t & E & R). exists h, t, true. split; [|exact R]. now apply load_eq_file.
  - destruct (use_ok users users make_empty _ _ (owned_empty users) H) as (h & t & E & R). exists h, t, true. split; [|exact R]. now apply load_eq.
  - cbn [leaves] in H. subst cells. exists users, make_empty, false. split; [reflexivity|]. split; [apply owned_empty|]. split; [apply shows_empty|reflexivity].
Qed.

(* failing loads *)
Lemma fail_after_mem users h t a n o cells name content o' : owned users h t -> leaves users (LoadMem a n o) cells ->
  content = None \/ content = Some [] -> forall h1 t1, run_use h t (LoadMem a n o) = Ok (true, h1, t1) ->
  exists b, nth_error users a = Some b /\
    if b_new b then exists h2 t2, load_file h1 t1 name content o' = Ok (false, h2, t2) /\ nth_error h2 a = Some (Blk (b_text b) true false)
    else load_file h1 t1 name content o' = UB.
Proof.
  intros Ho (b & Ha & Hl & Hn & Hc) Hcont h1 t1 E. exists b. split; [exact Ha|]. cbn [run_use] in E. unfold load_mem in E.
  destruct (drop_ok _ _ _ Ho) as (dead & Ed & Fd). rewrite Ed in E. cbn [bind] in E. unfold load_ in E.
  cbn [t_from_file negb t_buf t_size t_opts t_name t_state t_base t_grid] in E.
  assert (Hh : nth_error (users ++ dead) a = Some b) by (rewrite nth_error_app1; [exact Ha|eapply nth_error_some_lt; eauto]).
  destruct (region (users ++ dead) (Some a) n) as [text| |]; cbn [bind] in E; try discriminate.
  destruct (load o text) as [g| |]; cbn [bind set_state] in E; try discriminate. injection E as <- <-.
  assert (W : load_ (users ++ dead) (TG name (Some a) 0 o' true true (Some a) (Grid (tokens g) (rows g) 0 0)) content
              = Ok (false, users ++ dead, TG name (Some a) 0 o' true true (Some a) (Grid (tokens g) (rows g) 0 0))).
  { destruct Hcont as [->| ->]; reflexivity. }
  assert (V : load_file (users ++ dead) (TG [] (Some a) n o false true (Some a) g) name content o'
              = (h2 <- free (users ++ dead) a ;; Ok (false, h2, TG [] None 0 o' true false (Some a) (Grid (tokens g) (rows g) 0 0)))).
  { unfold load_file, drop_buffer at 1. cbn [t_from_file t_buf bind t_name t_size t_opts t_state t_base t_grid].
    rewrite W. cbn [bind set_state t_buf t_size t_opts t_name t_state t_base t_grid t_from_file]. unfold drop_buffer. cbn [t_from_file t_buf].
    destruct (free (users ++ dead) a); reflexivity. }
  rewrite V. unfold free. rewrite (rd_nth _ _ _ Hh). cbn [bind]. rewrite Hl. cbn [andb]. destruct (b_new b); [|reflexivity].
  assert (L : a < length (users ++ dead)) by (eapply nth_error_some_lt; eauto).
  rewrite (wr_ok _ _ _ L). cbn [bind]. do 2 eexists. split; [reflexivity|]. apply nth_error_upd_same. exact L.
Qed.

Lemma fail_after_file users h t name text o cells name' content o' : owned users h t -> leaves users (LoadFile name (Some text) o) cells ->
  content = None \/ content = Some [] -> forall h1 t1, run_use h t (LoadFile name (Some text) o) = Ok (true, h1, t1) ->
  exists h2 t2, load_file h1 t1 name' content o' = Ok (false, h2, t2) /\ t_state t2 = false /\
    row_count (t_grid t2) = N.of_nat (length cells) /\
    forall r c row x, nth_error cells r = Some row -> nth_error row c = Some x -> cell h2 t2 (N.of_nat r) (N.of_nat c) = UB.
Proof.
  intros Ho Hl Hcont h1 t1 E. destruct (use_ok _ _ _ _ _ Ho Hl) as (h1' & t1' & E' & Ho1 & _). rewrite E in E'. injection E' as <- <-.
  destruct Hl as (text' & [= <-] & Hne & Hc). destruct (cut_load _ _ _ Hc) as (g & rs & El & Hg & Hw & Em).
  assert (P : t_from_file t1 = true /\ t_buf t1 = t_base t1 /\ t_grid t1 = g /\ exists a, t_buf t1 = Some a).
  { cbn [run_use] in E. unfold load_file in E. destruct (drop_ok _ _ _ Ho) as (dead & Ed & Fd). rewrite Ed in E. cbn [bind] in E. unfold load_ in E.
    cbn [t_from_file load_buffer_from_file] in E. destruct (Nat.eqb_spec (length text) 0) as [Z|Z]; [destruct text; [congruence|discriminate]|].
    cbn [negb t_buf t_size t_opts t_name t_state t_base t_grid t_from_file] in E. unfold region in E. rewrite rd_middle in E.
    cbn [bind b_live b_text] in E. rewrite Nat.leb_refl in E. cbn [andb bind] in E. rewrite firstn_all, El in E. cbn in E.
    injection E as <- <-. cbn. eauto. }
  destruct P as (Pf & Pb & Pg & a & Pa). destruct Ho1 as (dead & F & H). rewrite Pf, Pa in H. destruct H as (tx & -> & ->).
  unfold load_file, drop_buffer at 1. rewrite Pf, Pa. rewrite app_assoc, <- app_length, free_live.
  cbn [bind t_from_file t_buf t_name t_size t_opts t_state t_base t_grid].
  set (h2 := (users ++ dead) ++ [Blk tx true false]).
  set (t2 := TG name' None 0 o' true (t_state t1) (t_base t1) (Grid (tokens (t_grid t1)) (rows (t_grid t1)) 0 0)).
  assert (W : load_ h2 t2 content = Ok (false, h2, t2)) by (destruct Hcont as [->| ->]; reflexivity).
  rewrite W. subst t2. cbn [bind set_state t_buf t_size t_opts t_name t_state t_base t_grid t_from_file]. unfold drop_buffer. cbn [t_from_file t_buf bind].
  do 2 eexists. split; [reflexivity|]. cbn [t_state t_grid t_base]. split; [reflexivity|]. rewrite Pg.
  assert (Hg' : represents (Grid (tokens g) (rows g) 0 0) rs) by exact Hg.
  split; [rewrite (row_count_ok _ _ Hg'), <- Em, map_length; reflexivity|].
  intros r c row x Hr Hx. unfold cell. cbn [t_grid t_base]. rewrite (token_ok _ _ _ _ Hg'). cbn [bind]. rewrite !Nat2N.id.
  rewrite <- Em in Hr. apply row_text in Hr. destruct Hr as (rt & Er & ->). rewrite Er. rewrite nth_error_map in Hx.
  unfold tok in *. destruct (nth_error rt c) as [tk|] eqn:Ec; [|discriminate Hx]. rewrite <- Pb, Pa. unfold region. subst h2. rewrite <- app_length, rd_middle. reflexivity.
Qed.
