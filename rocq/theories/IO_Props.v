(* Line and file functions: C36, C37, C60, C61. *)
From Verif Require Import Base Num_Model Parse_Model IO_Spec IO_Model IO_Proofs.
Local Open Scope nat_scope.

(* for the examples: four files, two more names that can be written *)
Definition demo_fs : fsys :=
  FSys (fun n => nth_error [str "abcdefgh"; str "xyz"; str "old"; str "abcdefgX"] n) (fun n => n <? 4) (fun n => n <? 6).

(* C36 *)
Theorem C36_copy_file : forall fs src dst, src <> dst ->
  exists fs', copy_file fs src dst = Ok (can_open fs src && f_write fs dst, fs') /\
    (can_open fs src = true -> f_write fs dst = true -> file_is fs fs' dst (contents fs src)) /\
    (f_write fs dst = false -> fs' = fs).
Proof.
  intros fs src dst Hne. unfold copy_file. destruct (can_open fs src) eqn:O, (f_write fs dst) eqn:W; cbn [andb].
  - destruct (copy_file_ok block_size fs src dst (contents fs src) ltac:(unfold block_size; lia) Hne O eq_refl W) as (fs' & E & H).
    exists fs'. split; [exact E|]. split; [auto|discriminate].
  - exists fs. unfold copy_file_n. rewrite O, (open_out_no _ _ W). cbn [negb]. split; [auto|]. split; [discriminate|auto].
  - exists (set_file fs dst (Some [])). unfold copy_file_n. rewrite O, (open_out_ok _ _ W). cbn [negb]. split; [auto|]. split; discriminate.
  - exists fs. unfold copy_file_n. rewrite O, (open_out_no _ _ W). cbn [negb]. split; [auto|]. split; [discriminate|auto].
Qed.
Print Assumptions C36_copy_file.

Example C36_copy_example :
  match copy_file demo_fs 0 5 with Ok (b, fs) => b = true /\ f_data fs 5 = Some (str "abcdefgh") /\ f_data fs 0 = Some (str "abcdefgh") | _ => False end.
Proof. vm_compute. auto. Qed.

Theorem C36_concatenate : forall fs f1 f2 out, f1 <> out -> f2 <> out ->
  exists fs', concatenate fs f1 f2 out = Ok (can_open fs f1 && can_open fs f2 && f_write fs out, fs') /\
    (can_open fs f1 = true -> can_open fs f2 = true -> f_write fs out = true ->
       file_is fs fs' out (contents fs f1 ++ contents fs f2)) /\
    (f_write fs out = false -> fs' = fs).
Proof.
  intros fs f1 f2 out H1 H2. unfold concatenate. destruct (can_open fs f1) eqn:O1, (can_open fs f2) eqn:O2, (f_write fs out) eqn:W; cbn [andb].
  1:{ destruct (concatenate_ok block_size fs f1 f2 out _ _ ltac:(unfold block_size; lia) H1 H2 O1 O2 eq_refl eq_refl W) as (fs' & E & H).
      exists fs'. split; [exact E|]. split; [auto|discriminate]. }
  all: unfold concatenate_n; rewrite O1, O2, ?(open_out_no _ _ W), ?(open_out_ok _ _ W); cbn [negb orb]; eexists; (split; [reflexivity|]); split; try discriminate; auto.
Qed.
Print Assumptions C36_concatenate.

Example C36_concatenate_example :
  match concatenate demo_fs 1 1 2 with Ok (b, fs) => b = true /\ f_data fs 2 = Some (str "xyzxyz") | _ => False end /\
  match concatenate demo_fs 1 1 8 with Ok (b, fs) => b = false /\ f_data fs 8 = None | _ => False end.
Proof. vm_compute. auto. Qed.

Theorem C36_files_identical : forall fs f1 f2, exists b, files_identical fs f1 f2 = Ok b /\
  (b = true <-> can_open fs f1 = true /\ can_open fs f2 = true /\ contents fs f1 = contents fs f2).
Proof. intros. apply files_identical_ok. unfold block_size. lia. Qed.
Print Assumptions C36_files_identical.

(* the same for any block size, so that the loop is exercised: 3 bytes at a time *)
Example C36_example :
  map (fun r => match r with Ok (b, fs) => (b, f_data fs 2, f_data fs 0) | _ => (false, None, None) end)
    [copy_file_n 3 demo_fs 0 2; copy_file_n 3 demo_fs 1 2; concatenate_n 3 demo_fs 0 1 2; copy_file_n 3 demo_fs 9 5]
  = [(true, Some (str "abcdefgh"), Some (str "abcdefgh")); (true, Some (str "xyz"), Some (str "abcdefgh"));
     (true, Some (str "abcdefghxyz"), Some (str "abcdefgh")); (false, Some (str "old"), Some (str "abcdefgh"))] /\
  files_identical_n 3 demo_fs 0 3 = Ok false /\ files_identical_n 3 demo_fs 0 0 = Ok true /\
  files_identical_n 3 demo_fs 0 1 = Ok false /\ files_identical_n 3 demo_fs 1 1 = Ok true.
Proof. vm_compute. auto 10. Qed.

(* A copy whose source cannot be opened empties the destination all the same. *)
Theorem C36_failed_copy_refuted : forall fs src dst, can_open fs src = false -> f_write fs dst = true ->
  exists fs', copy_file fs src dst = Ok (false, fs') /\ file_is fs fs' dst [].
Proof.
  intros fs src dst O W. exists (set_file fs dst (Some [])). unfold copy_file, copy_file_n. rewrite O, (open_out_ok _ _ W).
  split; [reflexivity|]. split; [|split]; reflexivity.
Qed.
Print Assumptions C36_failed_copy_refuted.

Example C36_failed_copy_refuted_ex : let fs := FSys (fun n => if n =? 2 then Some (str "abc") else None) (fun _ => true) (fun _ => true) in
  (r <- copy_file fs 1 2 ;; Ok (fst r, f_data (snd r) 2)) = Ok (false, Some []).
Proof. vm_compute. reflexivity. Qed.

(* Copying a file onto itself reports success and loses every byte. *)
Theorem C36_self_copy_refuted : forall fs a, can_open fs a = true -> f_write fs a = true ->
  exists fs', copy_file fs a a = Ok (true, fs') /\ file_is fs fs' a [].
Proof.
  intros fs a O W. exists (set_file fs a (Some [])). unfold copy_file, copy_file_n. rewrite O, (open_out_ok _ _ W). cbn [negb].
  unfold copy_blocks.
  assert (Hs : file_size (set_file fs a (Some [])) a = 0).
  { unfold file_size, can_open, contents. rewrite set_file_self. cbn [set_file f_read length]. now destruct (f_read fs a && true). }
  rewrite Hs. cbn [loop]. replace (block_size <=? 0) with false by (symmetry; apply Nat.leb_gt; unfold block_size; lia).
  cbn [bind]. split; [reflexivity|]. split; [|split]; reflexivity.
Qed.
Print Assumptions C36_self_copy_refuted.

Example C36_self_copy_refuted_ex : let fs := FSys (fun n => if n =? 1 then Some (str "abc") else None) (fun _ => true) (fun _ => true) in
  (r <- copy_file fs 1 1 ;; Ok (fst r, f_data (snd r) 1)) = Ok (true, Some []).
Proof. vm_compute. reflexivity. Qed.

(* C60: whole files *)
Theorem C60_write_then_load : forall fs n d buffer, f_write fs n = true -> f_read fs n = true ->
  exists fs', write_file fs n d = (true, fs') /\ file_is fs fs' n d /\
    file_size fs' n = length d /\ load_file fs' n buffer = Ok (true, map Some d).
Proof.
  intros fs n d buffer W R. pose proof (write_file_ok fs n d) as H. destruct (write_file fs n d) as [[|] fs'].
  - destruct H as [_ Hf]. exists fs'. split; [reflexivity|]. split; [exact Hf|]. destruct Hf as (F1 & F2 & F3).
    assert (O : can_open fs' n = true). { unfold can_open. rewrite F2, R, F1, Nat.eqb_refl. reflexivity. }
    assert (C : contents fs' n = d). { unfold contents. rewrite F1, Nat.eqb_refl. reflexivity. }
    split; [unfold file_size; now rewrite O, C|]. rewrite load_file_ok, O, C. reflexivity.
  - destruct H as [H _]. congruence.
Qed.
Print Assumptions C60_write_then_load.

Example C60_write_example :
  let (b, fs) := write_file demo_fs 2 (str "new text") in b = true /\ file_size fs 2 = 8 /\
  load_file fs 2 [None] = Ok (true, map Some (str "new text")).
Proof. vm_compute. auto. Qed.

Theorem C60_load_file : forall fs n buffer,
  (can_open fs n = true -> load_file fs n buffer = Ok (true, map Some (contents fs n))) /\
  (can_open fs n = false -> load_file fs n buffer = Ok (false, [])).
Proof. intros. rewrite load_file_ok. destruct (can_open fs n); split; congruence. Qed.
Print Assumptions C60_load_file.

Example C60_load_example : load_file demo_fs 1 (map Some (str "longer than xyz")) = Ok (true, map Some (str "xyz")) /\
  load_file demo_fs 9 (map Some (str "junk")) = Ok (false, []).
Proof. vm_compute. auto. Qed.

Theorem C60_write_file_fails : forall fs n d, f_write fs n = false -> write_file fs n d = (false, fs).
Proof.
  intros fs n d W. pose proof (write_file_ok fs n d) as H. destruct (write_file fs n d) as [[|] fs']; destruct H as [H1 H2]; congruence.
Qed.
Print Assumptions C60_write_file_fails.

Example C60_write_fails_example : write_file demo_fs 7 (str "x") = (false, demo_fs).
Proof. reflexivity. Qed.

Theorem C60_read_at_offset : forall fs n offset buffer size, exists b buf, read_at_offset fs n offset buffer size = Ok (b, buf) /\
  (b = true <-> can_open fs n = true /\ (size = 0 \/ offset + size <= length (contents fs n))) /\
  (b = true -> buf = map Some (sub (contents fs n) (offset, offset + size))).
Proof. exact read_at_offset_ok. Qed.
Print Assumptions C60_read_at_offset.
Example C60_example :
  read_at_offset demo_fs 0 2 [] 3 = Ok (true, map Some (str "cde")) /\
  read_at_offset demo_fs 0 6 [] 2 = Ok (true, map Some (str "gh")) /\
  (exists buf, read_at_offset demo_fs 0 6 [] 3 = Ok (false, buf)) /\
  load_file demo_fs 1 (map Some (str "longer than xyz")) = Ok (true, map Some (str "xyz")) /\
  load_file demo_fs 9 (map Some (str "junk")) = Ok (false, []).
Proof. repeat split. vm_compute. eauto. Qed.

(* The version of load_file with a caller's buffer returns true although the file is
   shorter than asked for: the rest of the buffer keeps what it held. *)
Theorem C60_short_file_refuted : exists fs n buffer, exists buf,
  load_file_buf fs n buffer 5 = Ok (true, buf) /\ buf <> map Some (contents fs n) /\ length (contents fs n) < 5.
Proof.
  exists demo_fs, 1, (repeat None 5). eexists. split; [vm_compute; reflexivity|]. split; [discriminate|cbn; lia].
Qed.
Print Assumptions C60_short_file_refuted.

(* C37 *)
Theorem C37_lines_spec : forall s, exists ls, lines_of s ls /\ forall ls', lines_of s ls' -> ls' = ls.
Proof.
  intros s. destruct (lines_exist s) as (ls & H). exists ls. split; [auto|]. intros ls' H'. symmetry. eapply lines_unique; eauto.
Qed.
Print Assumptions C37_lines_spec.

Example C37_lines_example : lines_of (str "a" ++ newline :: newline :: str "b" ++ [newline]) [str "a"; []; str "b"] /\
  lines_of (str "a" ++ newline :: newline :: str "b") [str "a"; []; str "b"].
Proof.
  split; (apply lines_more; [cbn; intuition discriminate|]); (apply (lines_more []); [auto|]).
  - apply lines_more; [cbn; intuition discriminate|]. apply lines_none.
  - apply lines_rest; [discriminate|cbn; intuition discriminate].
Qed.

Theorem C37_for_each_line : forall St (f : St -> list ascii -> St) s ls x, lines_of s ls ->
  for_each_line f (Stream s true) x = Ok (length ls, fold_left f ls x, Stream [] false).
Proof. intros. now apply for_each_line_ok. Qed.
Print Assumptions C37_for_each_line.

Example C37_each_example :
  for_each_line (fun x l => x ++ [l]) (Stream (str "one" ++ newline :: newline :: str "three") true) [] = Ok (3, [str "one"; []; str "three"], Stream [] false).
Proof. reflexivity. Qed.

Theorem C37_for_each_line_n : forall St n (f : St -> list ascii -> St) s ls x, lines_of s ls ->
  exists st, for_each_line_n n f (Stream s true) x = Ok (length (limit n ls), fold_left f (limit n ls) x, st) /\
    (n <> 0 -> n <= length ls -> good st = true /\ after_lines n s (rest st)) /\
    (n = 0 \/ length ls < n -> st = Stream [] false).
Proof. intros. now apply for_each_line_n_ok. Qed.
Print Assumptions C37_for_each_line_n.

Example C37_each_n_example : let s := Stream (str "one" ++ newline :: newline :: str "three") true in
  for_each_line_n 2 (fun x l => x ++ [l]) s [] = Ok (2, [str "one"; []], Stream (str "three") true) /\
  for_each_line_n 0 (fun x l => x ++ [l]) s [] = Ok (3, [str "one"; []; str "three"], Stream [] false).
Proof. split; reflexivity. Qed.

Theorem C37_for_each_line_conditional : forall St (f : St -> list ascii -> St * bool) s ls x x' n b,
  lines_of s ls -> accepted f x ls x' n b ->
  exists st, for_each_line_conditional f (Stream s true) x = Ok (n, x', st) /\ (b = true -> st = Stream [] false).
Proof. intros. eapply for_each_line_conditional_ok; eauto. Qed.
Print Assumptions C37_for_each_line_conditional.

Example C37_conditional_example :
  for_each_line_conditional (fun x l => (x ++ [l], negb (length l =? 0))) (Stream (str "one" ++ newline :: newline :: str "three") true) []
    = Ok (1, [str "one"; []], Stream (str "three") true).
Proof. reflexivity. Qed.

Theorem C37_for_each_line_n_conditional : forall St m (f : St -> list ascii -> St * bool) s ls x x' n b,
  lines_of s ls -> accepted f x (limit m ls) x' n b ->
  exists st, for_each_line_n_conditional m f (Stream s true) x = Ok (n, x', st).
Proof. intros. eapply for_each_line_n_conditional_ok; eauto. Qed.
Print Assumptions C37_for_each_line_n_conditional.

Example C37_n_conditional_example : let s := Stream (str "one" ++ newline :: str "two" ++ newline :: str "3") true in
  for_each_line_n_conditional 2 (fun x l => (x ++ [l], length l =? 3)) s [] = Ok (2, [str "one"; str "two"], Stream (str "3") true) /\
  for_each_line_n_conditional 9 (fun x l => (x ++ [l], length l =? 3)) s [] = Ok (2, [str "one"; str "two"; str "3"], Stream [] true).
Proof. split; reflexivity. Qed.

Theorem C37_write_then_load : forall T (show : T -> list ascii) conv xs sq,
  (forall x, In x xs -> ~ In newline (show x) /\ conv (show x) = Some x) ->
  exists text, write_to_text_file show (Some []) xs [newline] = (Some text, length xs) /\
    lines_of text (map show xs) /\
    load_from_text_file conv (Stream text true) sq = Ok (true, length xs, sq ++ xs, Stream [] false).
Proof.
  intros T show conv xs sq H. unfold write_to_text_file. rewrite write_items_ok. cbn [app plus].
  eexists. split; [reflexivity|].
  assert (Hl : lines_of (concat (map (fun x => show x ++ [newline]) xs)) (map show xs)).
  { rewrite <- (map_map show (fun l => l ++ [newline])). apply written_lines. rewrite Forall_forall. intros l Hin.
    apply in_map_iff in Hin. destruct Hin as (x & <- & Hx). now apply H. }
  split; [exact Hl|].
  destruct (load_ok conv _ _ xs true sq Hl) as (n & st & E & F).
  - apply values_all. intros x Hx. now apply H.
  - destruct (F eq_refl) as [-> ->]. rewrite map_length in E. exact E.
Qed.
Print Assumptions C37_write_then_load.

Example C37_write_example :
  write_to_text_file (fun l => l) (Some []) [str "one"; []] [newline] = (Some (str "one" ++ [newline; newline]), 2) /\
  load_from_text_file Some (Stream (str "one" ++ [newline; newline]) true) [str "old"] = Ok (true, 2, [str "old"; str "one"; []], Stream [] false).
Proof. split; reflexivity. Qed.

(* whatever the text: the values are those of the lines, up to the first that does not
   convert; then an exception leaves the function *)
Theorem C37_load : forall T (conv : list ascii -> option T) s ls vs b sq, lines_of s ls -> values_of conv ls vs b ->
  exists n st, load_from_text_file conv (Stream s true) sq = Ok (b, n, sq ++ vs, st) /\
    (b = true -> n = length ls /\ st = Stream [] false).
Proof. intros. eapply load_ok; eauto. Qed.
Print Assumptions C37_load.

Example C37_example :
  let text := str "one" ++ newline :: newline :: str "three" in
  lines_of text [str "one"; []; str "three"] /\
  for_each_line (fun x l => x ++ [l]) (Stream text true) [] = Ok (3, [str "one"; []; str "three"], Stream [] false) /\
  for_each_line_n 2 (fun x l => x ++ [l]) (Stream text true) [] = Ok (2, [str "one"; []], Stream (str "three") true) /\
  for_each_line_conditional (fun x l => (x ++ [l], negb (length l =? 0))) (Stream text true) []
    = Ok (1, [str "one"; []], Stream (str "three") true) /\
  write_to_text_file (fun l => l) (Some []) [str "one"; []] [newline] = (Some (str "one" ++ [newline; newline]), 2).
Proof.
  repeat split. apply (lines_more (str "one") (newline :: str "three")); [intros H; repeat destruct H as [H|H]; try discriminate; destruct H|].
  apply (lines_more [] (str "three")); [intros []|]. apply lines_rest; [discriminate|].
  intros H; repeat destruct H as [H|H]; try discriminate; destruct H.
Qed.

(* The default delimiter is empty: the items run together and load as one. *)
Theorem C37_default_delimiter_refuted : exists text,
  write_to_text_file (fun l => l) (Some []) [str "one"; str "two"] [] = (Some text, 2) /\
  load_from_text_file Some (Stream text true) [] = Ok (true, 1, [str "onetwo"], Stream [] false).
Proof. eexists. split; reflexivity. Qed.
Print Assumptions C37_default_delimiter_refuted.

(* An item that contains a newline comes back as two. *)
Theorem C37_newline_in_item_refuted : exists x text, In newline x /\
  write_to_text_file (fun l => l) (Some []) [x] [newline] = (Some text, 1) /\
  load_from_text_file Some (Stream text true) [] = Ok (true, 2, [str "a"; str "b"], Stream [] false).
Proof. exists (str "a" ++ newline :: str "b"). eexists. split; [cbn; auto|]. split; reflexivity. Qed.
Print Assumptions C37_newline_in_item_refuted.

(* C61: copying ranges *)
Theorem C61_copy_n : forall T (s out : list T) itr n, itr + n <= length s -> copy_n s itr n out = Ok (out ++ sub s (itr, itr + n)).
Proof. intros. now apply copy_n_ok. Qed.
Print Assumptions C61_copy_n.

Example C61_copy_n_example : copy_n [1; 3; 4; 5] 1 2 [9] = Ok [9; 3; 4] /\ copy_n [1; 3; 4; 5] 4 0 [9] = Ok [9].
Proof. split; reflexivity. Qed.
Theorem C61_copy_n_short_refuted : exists (s : list nat) n, copy_n s 0 n [] = UB.
Proof. exists [1; 2], 3. reflexivity. Qed.
Print Assumptions C61_copy_n_short_refuted.
Theorem C61_copy_if : forall T p (s out : list T), copy_if p s out = Ok (out ++ filter p s).
Proof. intros. apply copy_if_ok. Qed.
Print Assumptions C61_copy_if.

Example C61_copy_if_example : copy_if Nat.odd [1; 3; 4; 5] [9] = Ok [9; 1; 3; 5].
Proof. reflexivity. Qed.
Theorem C61_copy_while : forall T p (s out : list T), exists n, prefix_len p s n /\ copy_while p s out = Ok (n, out ++ firstn n s).
Proof. intros. apply copy_while_ok. Qed.
Print Assumptions C61_copy_while.

Example C61_copy_while_example : copy_while Nat.odd [1; 3; 4; 5] [9] = Ok (2, [9; 1; 3]) /\ copy_while Nat.odd [1; 3] [] = Ok (2, [1; 3]).
Proof. split; reflexivity. Qed.
Theorem C61_copy_until : forall T p (s out : list T),
  exists n, prefix_len (fun x => negb (p x)) s n /\ copy_until p s out = Ok (n, out ++ firstn n s).
Proof. intros. apply copy_until_ok. Qed.
Print Assumptions C61_copy_until.

Example C61_copy_until_example : copy_until Nat.even [1; 3; 4; 5] [9] = Ok (2, [9; 1; 3]) /\ copy_until Nat.odd [1; 3] [] = Ok (0, []).
Proof. split; reflexivity. Qed.
Theorem C61_range_only_contains : forall T p (s : list T), exists b, range_only_contains p s = Ok b /\
  (b = true <-> Forall (fun x => p x = true) s).
Proof. intros. eexists. split; [apply range_only_contains_ok|]. rewrite forallb_forall, Forall_forall. reflexivity. Qed.
Print Assumptions C61_range_only_contains.
Example C61_example :
  let s := [1; 3; 4; 5] in
  copy_n s 1 2 [9] = Ok [9; 3; 4] /\ copy_if Nat.odd s [] = Ok [1; 3; 5] /\ copy_while Nat.odd s [] = Ok (2, [1; 3]) /\
  copy_until Nat.even s [] = Ok (2, [1; 3]) /\ range_only_contains Nat.odd s = Ok false /\ range_only_contains (Nat.ltb 0) s = Ok true.
Proof. vm_compute. auto 10. Qed.

(* file_exists says whether the file can be opened for reading: a file written is there and so is
   every other one that was; one without read permission is reported missing *)
Theorem C60_exists : forall fs n d, f_write fs n = true ->
  exists fs', write_file fs n d = (true, fs') /\ file_exists fs' n = f_read fs n /\
    forall m, m <> n -> file_exists fs' m = file_exists fs m.
Proof.
  intros fs n d W. pose proof (write_file_ok fs n d) as H. destruct (write_file fs n d) as [[|] fs'].
  - destruct H as [_ (F1 & F2 & F3)]. exists fs'. split; [reflexivity|]. unfold file_exists, can_open. split.
    + rewrite F2, F1, Nat.eqb_refl. apply andb_true_r.
    + intros m Hm. rewrite F2, F1. now replace (m =? n) with false by (symmetry; now apply Nat.eqb_neq).
  - destruct H as [H _]. congruence.
Qed.
Print Assumptions C60_exists.
Example C60_exists_example : file_exists demo_fs 2 = can_open demo_fs 2 /\ (let (b, fs) := write_file demo_fs 2 (str "x") in file_exists fs 2 = true).
Proof. vm_compute. auto. Qed.

Theorem C60_missing : forall fs n, file_exists fs n = true <-> f_read fs n = true /\ exists d, f_data fs n = Some d.
Proof.
  intros fs n. unfold file_exists, can_open. rewrite andb_true_iff. destruct (f_data fs n) as [d|]; split; intros [A B]; split; auto; [eauto|discriminate|].
  destruct B; discriminate.
Qed.
Print Assumptions C60_missing.
Example C60_missing_example : file_exists (set_file demo_fs 2 None) 2 = false.
Proof. vm_compute. auto. Qed.
