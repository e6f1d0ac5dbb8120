(* Properties C88 (string_condition), C89 (attribute, scoped_restore) and C90 (semantic_action). *)
From Verif Require Import Base Edit_Model Match_Model Match_Spec Attr_Model Attr_Spec Attr_Proofs.
Local Open Scope nat_scope.

(* C88 *)
Theorem C88_equal :
  forall s data extra,
  (exists b, condition_method c_equal s data extra = Ok b /\ (b = true <-> data = s)) /\
  (exists b, condition_method c_notequal s data extra = Ok b /\ (b = true <-> data <> s)).
Proof.
  intros s data extra. split.
  - apply (condition_ok c_equal); intros H; [discriminate|destruct H; discriminate].
  - apply (condition_ok c_notequal); intros H; [discriminate|destruct H; discriminate].
Qed.
Print Assumptions C88_equal.

Example C88_equal_ex :
  condition_method c_equal (str "ab") (str "ab") (str "c") = Ok true /\
  condition_method c_equal (str "ab") (str "ac") (str "c") = Ok false /\
  condition_method c_notequal (str "ab") (str "abc") [] = Ok true.
Proof. repeat split; reflexivity. Qed.

Theorem C88_within :
  forall s data extra, s <> [] \/ data <> [] ->
  (exists b, condition_method c_within s data extra = Ok b /\ (b = true <-> exists a b, data = a ++ s ++ b)) /\
  (exists b, condition_method c_notwithin s data extra = Ok b /\ (b = true <-> ~ exists a b, data = a ++ s ++ b)).
Proof.
  intros s data extra Hne. split.
  - apply (condition_ok c_within); intros H; [discriminate|auto].
  - apply (condition_ok c_notwithin); intros H; [discriminate|auto].
Qed.
Print Assumptions C88_within.

Example C88_within_ex :
  condition_method c_within (str "rt") (str "strtk") [] = Ok true /\
  (* what follows the range is not looked at *)
  condition_method c_within (str "kx") (str "strtk") (str "x") = Ok false /\
  condition_method c_notwithin [] (str "a") [] = Ok false.
Proof. repeat split; reflexivity. Qed.

(* patterns without a star, see C12 for the others *)
Theorem C88_like :
  forall s data extra, ~ In "*"%char s ->
  exists b, condition_method c_like s data extra = Ok b /\ (b = true <-> one_each Ascii.eqb "?"%char s data).
Proof.
  intros s data extra Hs. apply (condition_ok c_like); intros H; [auto|destruct H; discriminate].
Qed.
Print Assumptions C88_like.

Example C88_like_ex :
  condition_method c_like (str "?t?") (str "str") [] = Ok true /\
  condition_method c_like (str "?t?") (str "stop") [] = Ok false /\
  condition_method c_like (str "?t?") (str "s") (str "tr") = Ok false.
Proof. repeat split; reflexivity. Qed.

(* begins_with and ends_with are equality *)
Theorem C88_begins_ends :
  forall s data extra,
  (exists b, condition_method c_begins_with s data extra = Ok b /\ (b = true <-> data = s)) /\
  (exists b, condition_method c_ends_with s data extra = Ok b /\ (b = true <-> data = s)).
Proof.
  intros s data extra. split.
  - apply (condition_ok c_begins_with); intros H; [discriminate|destruct H; discriminate].
  - apply (condition_ok c_ends_with); intros H; [discriminate|destruct H; discriminate].
Qed.
Print Assumptions C88_begins_ends.

Example C88_begins_ends_ex :
  condition_method c_begins_with (str "ab") (str "ab") (str "c") = Ok true /\
  condition_method c_ends_with (str "ab") (str "cab") [] = Ok false.
Proof. repeat split; reflexivity. Qed.

(* so no string with something before or after fulfils them *)
Theorem C88_begins_ends_refuted :
  forall s t, t <> [] ->
  condition_string c_begins_with s (s ++ t) = Ok false /\ condition_string c_ends_with s (t ++ s) = Ok false.
Proof.
  intros s t Ht. unfold condition_string, condition_method. rewrite !app_length.
  assert (0 < length t) by (destruct t; [congruence|simpl; lia]).
  destruct (Nat.eqb_spec (length s) (length s + length t)); [lia|].
  destruct (Nat.eqb_spec (length s) (length t + length s)); [lia|]. auto.
Qed.
Print Assumptions C88_begins_ends_refuted.

Example C88_begins_ends_refuted_ex : condition_string c_begins_with (str "ab") (str "abc") = Ok false /\ condition_string c_ends_with (str "bc") (str "abc") = Ok false.
Proof. repeat split; reflexivity. Qed.

(* the empty string is said not to be within the empty string *)
Theorem C88_within_empty_refuted : condition_string c_within [] [] = Ok false /\ exists a b : list ascii, [] = a ++ [] ++ b.
Proof. split; [reflexivity|]. exists [], []. reflexivity. Qed.
Print Assumptions C88_within_empty_refuted.

(* calling a condition: the object itself, and a copy while the original lives, behave the same *)
Theorem C88_object :
  forall st n c s data extra, cond_call (cond_new st n c s) n data extra = condition_method c s data extra.
Proof.
  intros st n c s data extra. unfold cond_call, cond_new, cs_set. rewrite Nat.eqb_refl. cbn [co_ptr].
  rewrite Nat.eqb_refl. reflexivity.
Qed.
Print Assumptions C88_object.

Example C88_object_ex :
  let st := cond_new (cond_new (fun _ => None) 1 c_equal (str "a")) 2 c_within (str "b") in
  cond_call st 1 (str "a") [] = Ok true /\ cond_call st 2 (str "abc") [] = Ok true /\ cond_call st 3 (str "abc") [] = UB.
Proof. repeat split; reflexivity. Qed.

Theorem C88_copy :
  forall st n m c s data extra, n <> m ->
  exists st', cond_copy (cond_new st n c s) n m = Ok st' /\
    cond_call st' m data extra = condition_method c s data extra /\
    (* but the copy is useless once the original is gone *)
    cond_call (cond_destroy st' n) m data extra = UB.
Proof.
  intros st n m c s data extra Hnm.
  assert (E1 : (n =? m) = false) by (now apply Nat.eqb_neq). assert (E2 : (m =? n) = false) by (apply Nat.eqb_neq; auto).
  unfold cond_copy, cond_call, cond_destroy, cond_new, cs_set.
  rewrite Nat.eqb_refl. eexists. split; [reflexivity|].
  do 3 (cbn beta iota delta [co_type co_s co_ptr]; rewrite ?Nat.eqb_refl, ?E1, ?E2). split; reflexivity.
Qed.
Print Assumptions C88_copy.

Example C88_example :
  condition_string c_within (str "tk") (str "strtk") = Ok true /\ condition_string c_notwithin (str "kt") (str "strtk") = Ok true /\
  condition_string c_like (str "s?rt?") (str "strtk") = Ok true /\ condition_string c_begins_with (str "str") (str "strtk") = Ok false.
Proof. repeat split; reflexivity. Qed.

(* C89: value and previous value after any history of assignments and successful conversions *)
Theorem C89_history :
  forall (T : Type) (v0 : T) h,
  exists a p, apply_events (attr_of v0) h = Ok a /\ before_assignment v0 h p /\
    attr_value a = Ok (latest v0 h) /\ attr_previous a = Ok p /\ initialised_ a = true.
Proof.
  intros T v0 h. destruct (history_ok v0 h) as (p & Hp & E). eexists. exists p. split; [exact E|].
  repeat split; auto.
Qed.
Print Assumptions C89_history.

Example C89_history_ex :
  (a <- apply_events (attr_of 1) [Assigned 2; Assigned 3; Parsed 4] ;; v <- attr_value a ;; p <- attr_previous a ;; Ok (v, p))
  = Ok (4, 2).
Proof. reflexivity. Qed.

Theorem C89_changed :
  forall (T : Type) (neqb : T -> T -> bool), (forall x y, neqb x y = true <-> x <> y) ->
  forall (v0 : T) h, exists a p b, apply_events (attr_of v0) h = Ok a /\ before_assignment v0 h p /\
    attr_changed neqb a = Ok b /\ (b = true <-> latest v0 h <> p).
Proof.
  intros T neqb Hn v0 h. destruct (history_ok v0 h) as (p & Hp & E).
  exists (Attr (Some (latest v0 h)) (Some p) true), p, (neqb (latest v0 h) p).
  repeat split; auto; apply Hn.
Qed.
Print Assumptions C89_changed.

Example C89_changed_ex :
  let neqb x y := negb (x =? y) in
  (a <- apply_events (attr_of 1) [Assigned 2] ;; attr_changed neqb a) = Ok true /\
  (a <- apply_events (attr_of 1) [Assigned 1] ;; attr_changed neqb a) = Ok false /\
  (a <- apply_events (attr_of 1) [Parsed 9] ;; attr_changed neqb a) = Ok true.
Proof. repeat split; reflexivity. Qed.

(* operator== and the conversion to a string look at the current value *)
Theorem C89_compare_print :
  forall (T : Type) (eqb : T -> T -> bool), (forall x y, eqb x y = true <-> x = y) ->
  forall (v0 : T) h t show r, exists a b, apply_events (attr_of v0) h = Ok a /\
    attr_eq eqb a t = Ok b /\ (b = true <-> latest v0 h = t) /\
    attr_to_string show a r = Ok (match show (latest v0 h) with Some x => (true, x) | None => (false, r) end).
Proof.
  intros T eqb He v0 h t show r. destruct (history_ok v0 h) as (p & Hp & E).
  exists (Attr (Some (latest v0 h)) (Some p) true), (eqb (latest v0 h) t). repeat split; auto; apply He.
Qed.
Print Assumptions C89_compare_print.
Example C89_compare_print_ex :
  (a <- apply_events (attr_of 1) [Assigned 2; Parsed 3] ;; attr_eq Nat.eqb a 3) = Ok true /\  (a <- apply_events (attr_of 1) [Assigned 2; Parsed 3] ;; attr_to_string (fun n => Some (repeat "|"%char n)) a []) = Ok (true, str "|||").
Proof. split; reflexivity. Qed.

(* a failed conversion leaves initialised() as it was; a default constructed attribute is not
   initialised, never changed, equal to nothing and not convertible to a string *)
Theorem C89_default :
  forall (T : Type) (neqb eqb : T -> T -> bool) (dflt : option T) t show r,
  initialised_ (attr_default dflt) = false /\ attr_changed neqb (attr_default dflt) = Ok false /\
  attr_eq eqb (attr_default dflt) t = Ok false /\ attr_to_string show (attr_default dflt) r = Ok (false, r).
Proof. intros. repeat split. Qed.
Print Assumptions C89_default.

Example C89_default_ex :
  attr_eq Nat.eqb (attr_default (Some 0)) 0 = Ok false /\
  attr_to_string (fun _ => Some (str "0")) (attr_default (Some 0)) (str "old") = Ok (false, str "old").
Proof. split; reflexivity. Qed.

Theorem C89_failed_conversion :
  forall (T : Type) conv s (a : attr T) t, conv s (t_ a) = Ok (false, t) ->
  attr_parse conv s a = Ok (false, Attr t (prev_t_ a) (initialised_ a)).
Proof. intros T conv s a t E. unfold attr_parse. rewrite E. reflexivity. Qed.
Print Assumptions C89_failed_conversion.

Example C89_failed_conversion_ex :
  attr_parse (fun _ _ => Ok (false, Some 0)) (str "x") (Attr (Some 5) (Some 4) true) = Ok (false, Attr (Some 0) (Some 4) true).
Proof. reflexivity. Qed.

(* a default constructed attribute that a conversion has filled is initialised and has the value
   given last from then on *)
Theorem C89_default_parsed :
  forall (T : Type) (dflt : option T) v h, exists a,
    apply_events (attr_default dflt) (Parsed v :: h) = Ok a /\ initialised_ a = true /\ attr_value a = Ok (latest v h).
Proof.
  intros T dflt v h.
  assert (G : exists p, apply_events (attr_default dflt) (Parsed v :: h) = Ok (Attr (Some (latest v h)) p true)).
  { induction h as [|e h IH] using rev_ind; [eexists; reflexivity|].
    destruct IH as (p & E). rewrite app_comm_cons, apply_app, E, latest_snoc. destruct e as [w|w]; eexists; reflexivity. }
  destruct G as (p & E). eexists. split; [exact E|]. split; reflexivity.
Qed.
Print Assumptions C89_default_parsed.

Example C89_default_parsed_ex :
  (a <- apply_events (attr_default None) [Parsed 3; Assigned 4] ;; attr_value a) = Ok 4 /\
  (a <- apply_events (attr_default (Some 0)) [Parsed 3] ;; attr_to_string (fun n => Some (repeat "|"%char n)) a []) = Ok (true, str "|||").
Proof. split; reflexivity. Qed.

(* assigning to a default constructed attribute of a scalar type reads an indeterminate value *)
Theorem C89_uninitialised_refuted :
  forall (T : Type) (t : T), attr_assign (attr_default None) t = UB.
Proof. reflexivity. Qed.
Print Assumptions C89_uninitialised_refuted.

Example C89_uninitialised_refuted_ex : attr_assign (attr_default None) 5 = UB /\ attr_assign (attr_default (Some 0)) 5 <> UB.
Proof. split; [reflexivity|discriminate]. Qed.

(* scoped_restore: whatever happens in the scope, nested scopes included, the variable has its
   old value afterwards, unless restore() was set to false in this very scope *)
Theorem C89_scope :
  forall (T : Type) (p : prog T) st, no_set p -> run_prog (Scope true p) st = st.
Proof.
  intros T p [t r] H. cbn [run_prog fst snd]. pose proof (no_set_keeps p H (t, true)) as K.
  destruct (run_prog p (t, true)) as [t' r']. cbn [snd] in K. subst r'. reflexivity.
Qed.
Print Assumptions C89_scope.

Example C89_scope_ex :
  run_prog (Scope true (Seq (Assign 5) (Seq (Scope false (Seq (SetRestore true) (Assign 6))) (Apply S)))) (4, false) = (4, false).
Proof. reflexivity. Qed.

Theorem C89_no_restore :
  forall (T : Type) (p : prog T) st, no_set p -> run_prog (Scope false p) st = (fst (run_prog p (fst st, false)), snd st).
Proof.
  intros T p [t r] H. cbn [run_prog fst snd]. pose proof (no_set_keeps p H (t, false)) as K.
  destruct (run_prog p (t, false)) as [t' r']. cbn [snd] in K. subst r'. reflexivity.
Qed.
Print Assumptions C89_no_restore.

Example C89_no_restore_ex :
  run_prog (Scope false (Seq (Apply S) (Scope true (Assign 100)))) (4, true) = (5, true).
Proof. reflexivity. Qed.

(* the last setting of restore() decides *)
Theorem C89_set_restore :
  forall (T : Type) (p q : prog T) b b' st, no_set q ->
  run_prog (Scope b (Seq p (Seq (SetRestore b') q))) st =
    ((if b' then fst st else fst (run_prog q (fst (run_prog p (fst st, b)), b'))), snd st).
Proof.
  intros T p q b b' [t r] H. cbn [run_prog fst snd].
  pose proof (no_set_keeps q H (fst (run_prog p (t, b)), b')) as K.
  destruct (run_prog q (fst (run_prog p (t, b)), b')) as [t' r']. cbn [snd] in K. subst r'. reflexivity.
Qed.
Print Assumptions C89_set_restore.

Example C89_set_restore_ex :
  run_prog (Scope true (Seq (Assign 5) (Seq (SetRestore false) (Apply S)))) (4, true) = (6, true) /\
  run_prog (Scope false (Seq (SetRestore false) (Seq (SetRestore true) (Apply S)))) (4, true) = (4, true).
Proof. split; reflexivity. Qed.

Example C89_example :
  apply_events (attr_of 1) [Assigned 2; Parsed 3; Assigned 5; Parsed 7] = Ok (Attr (Some 7) (Some 3) true) /\
  run_prog (Seq (Scope true (Seq (Assign 5) (Scope false (Apply S)))) (Apply (Nat.mul 2))) (4, false) = (8, false).
Proof. split; reflexivity. Qed.

(* C90: a semantic action made from a function calls it; a default constructed one says false *)
Theorem C90_call :
  forall call st n f b, call f = Some b -> sa_call call (sa_new st n f) n = Ok b.
Proof.
  intros call st n f b H. unfold sa_call, sa_new, sa_set. rewrite !Nat.eqb_refl. cbn [sa_holder].
  rewrite Nat.eqb_refl, H. reflexivity.
Qed.
Print Assumptions C90_call.

Example C90_call_ex :
  let call f := if f =? 7 then Some true else None in
  sa_call call (sa_new (sa_default (fun _ => None) 1) 2 7) 2 = Ok true /\
  sa_call call (sa_new (sa_default (fun _ => None) 1) 2 7) 1 = Ok false.
Proof. split; reflexivity. Qed.

Theorem C90_default : forall call st n, sa_call call (sa_default st n) n = Ok false.
Proof. intros call st n. unfold sa_call, sa_default, sa_set. rewrite Nat.eqb_refl. reflexivity. Qed.
Print Assumptions C90_default.

Example C90_default_ex :
  sa_call (fun _ => Some true) (sa_default (sa_new (fun _ => None) 1 7) 2) 2 = Ok false /\
  (* a default constructed action over a living one *)
  sa_call (fun _ => Some true) (sa_default (sa_new (fun _ => None) 1 7) 1) 1 = Ok false.
Proof. split; reflexivity. Qed.

(* a copy works while the original lives and is undefined afterwards; so is a call after the
   function object has gone *)
Theorem C90_copy_refuted :
  forall call st n m f b, n <> m -> call f = Some b ->
  exists st', sa_copy (sa_new st n f) n m = Ok st' /\ sa_call call st' m = Ok b /\ sa_call call (sa_destroy st' n) m = UB.
Proof.
  intros call st n m f b Hnm H.
  assert (E1 : (n =? m) = false) by (now apply Nat.eqb_neq). assert (E2 : (m =? n) = false) by (apply Nat.eqb_neq; auto).
  unfold sa_copy, sa_call, sa_destroy, sa_new, sa_set.
  rewrite Nat.eqb_refl. eexists. split; [reflexivity|].
  do 3 (cbn beta iota delta [sa_buffer sa_holder]; rewrite ?Nat.eqb_refl, ?E1, ?E2). rewrite H. split; reflexivity.
Qed.
Print Assumptions C90_copy_refuted.

Example C90_copy_refuted_ex : (st <- sa_copy (sa_new (fun _ => None) 1 7) 1 2 ;; sa_call (fun f => if f =? 7 then Some true else None) st 2) = Ok true /\
  (st <- sa_copy (sa_new (fun _ => None) 1 7) 1 2 ;; sa_call (fun f => if f =? 7 then Some true else None) (sa_destroy st 1) 2) = UB.
Proof. repeat split; reflexivity. Qed.

(* where the original was, another action: the copy calls that one's function; where it was, a
   default constructed one: undefined, although calling the default constructed one is not *)
Theorem C90_reused_refuted :
  forall call st n m f g b, n <> m -> call g = Some b ->
  exists st', sa_copy (sa_new st n f) n m = Ok st' /\
    sa_call call (sa_new (sa_destroy st' n) n g) m = Ok b /\ sa_call call (sa_default (sa_destroy st' n) n) m = UB.
Proof.
  intros call st n m f g b Hnm H.
  assert (E1 : (n =? m) = false) by (now apply Nat.eqb_neq). assert (E2 : (m =? n) = false) by (apply Nat.eqb_neq; auto).
  unfold sa_copy, sa_call, sa_destroy, sa_new, sa_default, sa_set.
  rewrite Nat.eqb_refl. eexists. split; [reflexivity|].
  do 3 (cbn beta iota delta [sa_buffer sa_holder]; rewrite ?Nat.eqb_refl, ?E1, ?E2). rewrite H. split; reflexivity.
Qed.
Print Assumptions C90_reused_refuted.

Example C90_reused_refuted_ex :
  let call f := if f =? 7 then Some true else if f =? 8 then Some false else None in
  (st <- sa_copy (sa_new (fun _ => None) 1 7) 1 2 ;; sa_call call st 2) = Ok true /\
  (st <- sa_copy (sa_new (fun _ => None) 1 7) 1 2 ;; sa_call call (sa_new (sa_destroy st 1) 1 8) 2) = Ok false /\
  (st <- sa_copy (sa_new (fun _ => None) 1 7) 1 2 ;; sa_call call (sa_default (sa_destroy st 1) 1) 2) = UB.
Proof. repeat split; reflexivity. Qed.

Theorem C90_function_gone_refuted :
  forall call st n f, call f = None -> sa_call call (sa_new st n f) n = UB.
Proof.
  intros call st n f H. unfold sa_call, sa_new, sa_set. rewrite !Nat.eqb_refl. cbn [sa_holder].
  rewrite Nat.eqb_refl, H. reflexivity.
Qed.
Print Assumptions C90_function_gone_refuted.

Example C90_function_gone_refuted_ex : sa_call (fun _ => None) (sa_new (fun _ => None) 1 7) 1 = UB.
Proof. reflexivity. Qed.

(* equality is sharing one holder: two actions made from the same function differ, a copy does not *)
Theorem C90_equality :
  forall f n m, n <> m -> sa_eq (SA (Some f) (Some n)) (SA (Some f) (Some m)) = false /\
    forall o, sa_holder o <> None -> sa_eq o o = true.
Proof.
  intros f n m H. split.
  - unfold sa_eq. cbn [sa_holder]. destruct (Nat.eqb_spec n m); [lia|reflexivity].
  - intros o Ho. unfold sa_eq. destruct (sa_holder o); [apply Nat.eqb_refl|congruence].
Qed.
Print Assumptions C90_equality.

Example C90_equality_ex :
  sa_eq (SA (Some 7) (Some 1)) (SA (Some 7) (Some 2)) = false /\ sa_eq (SA (Some 7) (Some 1)) (SA (Some 7) (Some 1)) = true /\
  sa_eq (SA None None) (SA None None) = false.
Proof. repeat split; reflexivity. Qed.

Example C90_example : sa_call (fun f => Some (Nat.even f)) (sa_new (fun _ => None) 3 8) 3 = Ok true.
Proof. reflexivity. Qed.

